(** The instants of steps with a fixed delay. *)
From Coq Require Import ZArith.
From Verif Require Import Num NoopModel.

Fixpoint tick {AR : Arith} (d : num) (k : nat) : num := match k with 0 => Fin 0 | S j => n_add d (tick d j) end.
(** They are finite, and each is later than the one before: additions have not lost the delay yet (with a delay of 1
    that happens at 2^53). *)
Definition ticks {AR : Arith} (d : num) (k : nat) : Prop :=
  forall j, j < k -> n_ltb (tick d j) (tick d (S j)) = true /\ n_ltb (tick d (S j)) PInf = true.
(** The delay after each step of an agent: the default interval of the scheduler, or 1. *)
Definition pause (kind : noop) (di one : num) : num := match kind with NStep => di | _ => one end.
