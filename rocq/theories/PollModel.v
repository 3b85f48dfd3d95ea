(** Model of the agent of tests/test_time.py:17-28, which waits for a condition by asking again and again: its step is a generator that is resumed
    every [delay] until the clock is at [target].  The test has one agent, with 2 and 10; here any number of them, each with its own. *)
From Coq Require Import ZArith List Bool Arith String.
From Verif Require Import Num TimedModel AgentModel FsmModel.
Import ListNotations.

(** tests/test_time.py:18-28: the step of the class; where it is suspended: before the first line (line 20), or in the inner loop (line 24). *)
Inductive pfun := FStep.
Inductive ppoint := PBegin | PLoop.
(** The lists [times_started], [times_asleep], [times_awakened] and [done] (lines 11-15), oldest first, for each agent; and the random generator. *)
Record plogs (R : Type) := PLogs { p_started : aid -> list num; p_asleep : aid -> list num; p_awake : aid -> list num; p_done : aid -> list num; p_rng : R }.
Arguments PLogs {R}. Arguments p_started {R}. Arguments p_asleep {R}. Arguments p_awake {R}. Arguments p_done {R}. Arguments p_rng {R}.
(** Lines 20, 22, 25 and 28: [append]. *)
Definition push (f : aid -> list num) (a : aid) (t : num) : aid -> list num := fun b => if Nat.eqb b a then f b ++ [t] else f b.

Section Code.
Context {R : Type}.
Variables (delay target : aid -> num).

(** Lines 23-28: the inner loop and what follows.  The outer loop is left at once, as the clock is at the target. *)
Definition poll_loop (now : num) (a : aid) (r : plogs R) : plogs R * list (fop pfun) * gout ppoint (pyval pfun) :=
  if n_ltb now (target a) then (r, [], GYield (PNum (delay a)) PLoop)
  else (PLogs (p_started r) (p_asleep r) (push (p_awake r) a now) (push (p_done r) a now) (p_rng r), [], GReturn PNone).
(** Lines 18-28: the step. *)
Definition poll_code : code pfun ppoint (plogs R) :=
  Code (fun _ => PBegin)
    (fun s a q w =>
       let now := s_time s in
       let r := fw_rest w in
       match q with
       | PBegin => poll_loop now a (PLogs (push (p_started r) a now) (push (p_asleep r) a now) (p_awake r) (p_done r) (p_rng r))
       | PLoop => poll_loop now a r
       end).
(** The agents and the scheduler; shuffling changes the random generator only. *)
Definition poll_user (shuffle : list aid -> R -> R * list aid) : user (fworld pfun (plogs R) * cors (frame ppoint)) :=
  agent_user poll_code (fun _ => None)
    (fun l r => let '(g, l') := shuffle l (p_rng r) in (PLogs (p_started r) (p_asleep r) (p_awake r) (p_done r) g, l')).
(** Lines 11-15 and 30-31: new agents. *)
Definition poll_world (g : R) : fworld pfun (plogs R) * cors (frame ppoint) :=
  (FWorld (fun _ => FAgent (KPlain FStep) true None) (PLogs (fun _ => []) (fun _ => []) (fun _ => []) (fun _ => []) g), no_cors).
End Code.
