(** Model of [BoundState.delay], [BoundState.at] and [FSM.die] (soil/agents/fsm.py:50-54 and 169-171). *)
From Coq Require Import List String.
From Verif Require Import Num PyDict FsmModel.
Import ListNotations.
Local Open Scope string_scope.

Section Die.
Context {AR : Arith} {F : Type}.

(** soil/agents/fsm.py:50-51 [BoundState.delay], with soil/agents/__init__.py:299-300. *)
Definition state_delay (st : state F) (d : num) : pyval F := PTuple [PState st; PNum d].
(** soil/agents/fsm.py:53-54 [BoundState.at], with soil/agents/__init__.py:296-297. *)
Definition state_at (now : num) (st : state F) (t : num) : pyval F :=
  PTuple [PState st; PNum (n_add t (n_opp now))].
(** soil/agents/fsm.py:169-171 [FSM.die] of agent [b], whose class has these states: the calls that it
    makes, and its value.  [FSM] itself has a state "dead", so that there always is one. *)
Definition fsm_die (now : num) (states : dict string (state F)) (b : nat) : list (fop F) * option (pyval F) :=
  ([FDie b], option_map (fun st => state_at now st PInf) (dget "dead" states)).
End Die.
