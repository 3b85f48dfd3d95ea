(** Model of the agents of tests/test_agents.py:53-73, which leave their first state, whose name is given, for good, and count their steps in the second one.
    The test has one agent; here any number of them, in a model that runs, or whose steps are called. *)
From Coq Require Import ZArith List Bool Arith String.
From Verif Require Import Num PyDict TimedModel AgentModel FsmModel.
Import ListNotations.
Local Open Scope string_scope.

(** The functions of the states: tests/test_agents.py:58-59 and 62-63, and soil/agents/fsm.py:173-175. *)
Inductive dfn := DRoot | DOther | DDead.
(** tests/test_agents.py:57-59: the name is the argument of the decorator (soil/agents/fsm.py:57-71), not that of the function. *)
Definition d_root : state dfn := State DRoot "original" true.
(** tests/test_agents.py:61-63: the name is that of the function. *)
Definition d_other : state dfn := State DOther "other" false.
(** tests/test_agents.py:54-63 [MyAgent].  What is no state (line 55) is None. *)
Definition decor_class : cls (option (state dfn)) := Cls 1 [fsm_class DDead] [None; Some d_root; Some d_other].

Section Code.
Context {R : Type}.
(** [self.times_run += 1], line 63. *)
Definition ran (n : aid -> nat) (a : aid) : aid -> nat := fun b => if Nat.eqb b a then S (n b) else n b.
(** The functions of the states: tests/test_agents.py:59 and 63, and soil/agents/fsm.py:173-175.  The rest of the world is [times_run] of all agents and
    the random generator. *)
Definition decor_code : code dfn dfn ((aid -> nat) * R) :=
  Code (fun f => f)
    (fun s a f w =>
       match f with
       | DRoot => (fw_rest w, [], GReturn (PState d_other))
       | DOther => ((ran (fst (fw_rest w)) a, snd (fw_rest w)), [], GReturn PNone)
       | DDead => (fw_rest w, [], GReturn (PNum PInf))
       end).
(** The agents and the scheduler; shuffling changes the random generator only. *)
Definition decor_user (shuffle : list aid -> R -> R * list aid) : user (fworld dfn ((aid -> nat) * R) * cors (frame dfn)) :=
  agent_user decor_code (fun _ => None) (fun l r => let '(g, l') := shuffle l (snd r) in ((fst r, g), l')).
(** tests/test_agents.py:55 and 66: new agents (soil/agents/fsm.py:114-122), with no state given. *)
Definition decor_world (g : R) : fworld dfn ((aid -> nat) * R) * cors (frame dfn) :=
  (FWorld (fun _ => FAgent (KFsm (fst (meta decor_class))) true (match fsm_init decor_class PNone with Some c => c | None => None end)) ((fun _ => 0), g),
   no_cors).
(** [a.step()] for each of these agents, in this order, each with the scheduler as it is then (tests/test_agents.py:69 and 72). *)
Fixpoint decor_steps (l : list (sched * aid)) (x : fworld dfn ((aid -> nat) * R) * cors (frame dfn)) : fworld dfn ((aid -> nat) * R) * cors (frame dfn) :=
  match l with
  | [] => x
  | (s, a) :: l' => decor_steps l' (fst (fst (agent_step decor_code (fun _ => None) s a x)))
  end.
End Code.
(** [a.times_run], and soil/agents/fsm.py:133-135 [state_id]. *)
Definition times_run {R} (x : fworld dfn ((aid -> nat) * R) * cors (frame dfn)) (a : aid) : nat := fst (fw_rest (fst x)) a.
Definition decor_id {R} (x : fworld dfn ((aid -> nat) * R) * cors (frame dfn)) (a : aid) : option string := option_map st_name (fa_cur (fw_agents (fst x) a)).
