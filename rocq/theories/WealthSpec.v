(** What is expected of the wealth examples. *)
From Coq Require Import ZArith List.
Import ListNotations.
Local Open Scope Z_scope.

(** The wealth of some agents together. *)
Fixpoint total (wealth : nat -> Z) (agents : list nat) : Z :=
  match agents with [] => 0 | a :: l => wealth a + total wealth l end.
