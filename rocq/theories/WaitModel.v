(** Agents that wait for messages, in whole runs: [EventedAgent.received] and [tell] (soil/agents/evented.py:17-31), used by the step of an agent.
    There is no such program in the repository apart from the one of tests/test_agents.py:130-145 (PingModel); this is the smallest agent around
    [received], with any timeout and any delay, and agents that tell any messages at any time. *)
From Coq Require Import ZArith List Bool Arith String.
From Verif Require Import Num TimedModel AgentModel FsmModel EventModel PingModel.
Import ListNotations.

Section Code.
Context {AR : Arith} {V R : Type}.
Variable v_none : V.
(** The agents that wait, with the timeout and the delay they give to [received]; the others tell. *)
Variable plan : aid -> option (num * num).
(** What an agent that tells does in each of its activations, from number 0: the receivers and the payloads, in order, and the delay it returns. *)
Variable script : aid -> nat -> list (aid * V) * option num.

(** What the agents write down: [l_told a], each message told to [a] (when, how many activations [a] had completed, the payload); [l_done a], each
    call of [a.on_receive] (the same for the moment of the call); [l_out a], when [TimedOut] was caught; [l_runs a], how many activations [a] has
    completed.  And the random generator. *)
Record wlog := WLog {
  l_told : aid -> list (num * nat * V); l_done : aid -> list (num * nat * V); l_out : aid -> list num; l_runs : aid -> nat; l_rng : R }.
Definition pushed {A} (f : aid -> list A) (a : aid) (x : A) : aid -> list A := fun b => if Nat.eqb b a then f b ++ [x] else f b.
Definition wworld : Type := eworld V wlog.

(** [on_receive] writes the call down and returns None (soil/agents/evented.py:14-15). *)
Definition on_msg_w (now : num) (a : aid) (v : V) (sender : option aid) (w : wworld) : wlog * list (sending V) * option V :=
  let r := e_rest w in
  (WLog (l_told r) (pushed (l_done r) a (now, l_runs r a, v)) (l_out r) (l_runs r) (l_rng r), [], Some v_none).
(** The end of an activation. *)
Definition count_run (a : aid) (w : wworld) : wworld :=
  let r := e_rest w in
  set_rest w (WLog (l_told r) (l_done r) (l_out r) (fun b => if Nat.eqb b a then S (l_runs r b) else l_runs r b) (l_rng r)).
(** [except TimedOut] in the step of the agent. *)
Definition count_out (now : num) (a : aid) (w : wworld) : wworld :=
  let r := e_rest w in set_rest w (WLog (l_told r) (l_done r) (pushed (l_out r) a now) (l_runs r) (l_rng r)).

(** Where the generator is: not started, or in [received] with its deadline (soil/agents/evented.py:27). *)
Inductive wpoint := WBegin | WIn (deadline : num).
(** soil/agents/evented.py:21-28: one turn of the loop of [received]. *)
Definition wait_turn (now : num) (a : aid) (delay deadline : num) (w : wworld) : wworld * list (fop unit) * gout wpoint (pyval unit) :=
  let '(w, _, r) := received_resume v_none on_msg_w now a deadline true w in
  match r with
  | RWait => (count_run a w, [], GYield (PNum delay) (WIn deadline))
  | RInbox => (count_run a w, [], GReturn PNone)
  | RTimedOut => (count_run a (count_out now a w), [], GReturn PNone)
  | RRaise => (w, [], GRaise false)
  end.
(** soil/agents/evented.py:30-31, once for each message. *)
Definition tell_one (now : num) (a : aid) (w : wworld) (x : aid * V) : wworld :=
  let r := e_rest w in
  tell (set_rest w (WLog (pushed (l_told r) (fst x) (now, l_runs r (fst x), snd x)) (l_done r) (l_out r) (l_runs r) (l_rng r))) (fst x) (snd x) (Some a).
(** The step: [try: yield from self.received(timeout=..., delay=...)] with [except TimedOut: pass], or telling. *)
Definition wait_code : code unit wpoint wworld :=
  Code (fun _ => WBegin) (fun s a q w =>
    let now := s_time s in
    match plan a with
    | Some (timeout, delay) =>
        wait_turn now a delay match q with WBegin => received_deadline now None timeout | WIn deadline => deadline end (fw_rest w)
    | None =>
        let '(l, d) := script a (l_runs (e_rest (fw_rest w)) a) in
        (count_run a (fold_left (tell_one now a) l (fw_rest w)), [], GReturn match d with Some d => PNum d | None => PNone end)
    end).
(** The scheduler; shuffling changes the random generator only. *)
Definition wait_user (shuffle : list aid -> R -> R * list aid) : user (fworld unit wworld * cors (frame wpoint)) :=
  agent_user wait_code no_float (fun l w =>
    let r := e_rest w in
    let '(g, l') := shuffle l (l_rng r) in (set_rest w (WLog (l_told r) (l_done r) (l_out r) (l_runs r) g), l')).
(** New agents (soil/agents/evented.py:9-12). *)
Definition wait_world (g : R) : fworld unit wworld * cors (frame wpoint) :=
  (FWorld (fun _ => FAgent (KPlain tt) true None)
     (EWorld (fun _ => Some []) (fun _ => 0) (fun _ => v_none) 0 (WLog (fun _ => []) (fun _ => []) (fun _ => []) (fun _ => 0) g)), no_cors).
End Code.
Arguments wlog : clear implicits.
Arguments wworld : clear implicits.
