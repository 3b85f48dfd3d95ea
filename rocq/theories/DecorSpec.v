(** What is expected of agents that leave their first state for good. *)
From Coq Require Import List Bool Arith String.
From Verif Require Import Num TimedModel.
Import ListNotations.
Local Open Scope string_scope.

(** After [k] steps. *)
Inductive settled : nat -> string -> nat -> Prop :=
| not_yet : settled 0 "original" 0
| since k : settled (S k) "other" k.
