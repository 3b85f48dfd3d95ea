(** Model of the agents of tests/test_agents.py:31-51, whose step is a generator that yields in a loop and counts how often it goes on.  The test has one
    agent and a loop of 5 turns; here any number of agents, each with its own number of turns, which count together. *)
From Coq Require Import ZArith List Bool Arith String.
From Verif Require Import Num TimedModel AgentModel FsmModel.
Import ListNotations.

(** tests/test_agents.py:39-43: the step; where it is suspended: before the first line, or in line 42 with the value of [i]. *)
Inductive gfun := GStep.
Inductive gpoint := GBegin | GAt (i : nat).

Section Code.
Context {R : Type}.
(** The argument of [range] in tests/test_agents.py:41, for each agent. *)
Variable turns : aid -> nat.
(** tests/test_agents.py:41-42: the beginning of the turn with this value of [i], or the end of the loop. *)
Definition turn (a : aid) (i : nat) : gout gpoint (pyval gfun) := if i <? turns a then GYield PNone (GAt i) else GReturn PNone.
(** tests/test_agents.py:39-43.  The rest of the world is [a] of line 36 and the random generator. *)
Definition resume_code : code gfun gpoint (nat * R) :=
  Code (fun _ => GBegin)
    (fun s a q w =>
       match q with
       | GBegin => (fw_rest w, [], turn a 0)
       | GAt i => ((S (fst (fw_rest w)), snd (fw_rest w)), [], turn a (S i))
       end).
(** The agents and the scheduler; shuffling changes the random generator only. *)
Definition resume_user (shuffle : list aid -> R -> R * list aid) : user (fworld gfun (nat * R) * cors (frame gpoint)) :=
  agent_user resume_code (fun _ => None) (fun l r => let '(g, l') := shuffle l (snd r) in ((fst r, g), l')).
(** tests/test_agents.py:36 and 45-47: new agents. *)
Definition resume_world (g : R) : fworld gfun (nat * R) * cors (frame gpoint) :=
  (FWorld (fun _ => FAgent (KPlain GStep) true None) (0, g), no_cors).
End Code.
