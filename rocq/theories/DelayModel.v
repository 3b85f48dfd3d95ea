(** Model of soil/agents/__init__.py:296-300 ([BaseAgent.at] and [BaseAgent.delay]) and of
    soil/time.py:18-28 ([Delay]), as seen by the scheduler: the step method of an agent is
    wrapped so that the [Delay] it returns is converted with [float]
    (soil/agents/__init__.py:49-54). *)
From Verif Require Import Num TimedModel.

Section A.
Context {AR : Arith}.

(** [return self.delay(d)] *)
Definition return_delay (d : num) : outcome := Ret (Some d).

(** [return self.at(t)] when [self.now] is [now]: the delay is the difference. *)
Definition return_at (now t : num) : outcome := Ret (Some (n_add t (n_opp now))).
End A.
