(** What is expected of the construction of agents. *)
From Coq Require Import List Bool Arith String.
From Verif Require Import PyDict ConstructModel.
Import ListNotations.

(** The agent has all that its class promises. *)
Definition has_inbox (mro : list part) (o : obj) : Prop := In PEvent mro -> o_inbox o = true.
Definition has_node (mro : list part) (o : obj) : Prop := In PNet mro -> exists n, o_node o = Some n.
(** It is in the given state, or in the default one. *)
Definition has_state (mro : list part) (default state : option string) (o : obj) : Prop :=
  In PFsm mro -> o_state o = match state with Some s => Some s | None => default end.
(** The constructors of these classes pass their arguments on before they do anything. *)
Definition passes_on (p : part) : Prop := p = PEvent \/ p = PPlain.
