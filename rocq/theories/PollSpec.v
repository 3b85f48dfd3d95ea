(** When an agent that asks again and again is activated. *)
From Coq Require Import ZArith List Bool Arith.
From Verif Require Import Num TimedModel.
Import ListNotations.
Local Open Scope Z_scope.

(** The first time that an agent, which asks at [t0] and then every [d], sees the clock at [target] or later is the time number [m], from 0. *)
Record seen_first (t0 d target : Z) (m : nat) : Prop := {
  sf_seen : target <= t0 + Z.of_nat m * d;
  sf_first : forall k, (k < m)%nat -> t0 + Z.of_nat k * d < target }.
(** Its activation number [k]: every [d] until then, and afterwards every [di]. *)
Definition poll_at (t0 d di : Z) (m k : nat) : Z :=
  t0 + Z.of_nat (Nat.min k m) * d + Z.of_nat (k - m) * di.
Definition poll_times (t0 d di : Z) (m n : nat) : list num := map (fun k => Fin (poll_at t0 d di m k)) (seq 0 n).
