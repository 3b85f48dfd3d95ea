(** What is expected of the agents of the custom_timeouts example. *)
From Coq Require Import ZArith List Bool Arith.
From Verif Require Import Num TimedModel.
Import ListNotations.
Local Open Scope Z_scope.

(** The numbers of Fibonacci. *)
Fixpoint fibonacci (n : nat) : Z :=
  match n with
  | O => 0
  | S O => 1
  | S (S k as m) => fibonacci m + fibonacci k
  end.

(** The instants 0, 1, 2, 3, 5, 8, ...: zero, and the numbers of Fibonacci from the second
    one on. *)
Definition fib_instant (n : nat) : Z := match n with O => 0 | S _ => fibonacci (S n) end.

(** The instants 0, 1, 3, 5, 7, ...: zero and the odd numbers. *)
Definition odd_instant (n : nat) : Z := match n with O => 0 | S k => 2 * Z.of_nat k + 1 end.

(** The instants at which an agent was activated, in order. *)
Definition instants (a : aid) (tr : list ev) : list num :=
  flat_map (fun e => match e with EvAct t b _ => if Nat.eqb b a then [t] else [] | EvAdd _ _ => [] end) tr.

(** An addition that is exact for integers up to [bound], measured in ticks of which [one]
    are the number one. *)
Definition exact_up_to {AR : Arith} (one bound : Z) : Prop :=
  forall x y, 0 <= x -> 0 <= y -> x + y <= bound ->
  n_add (Fin (x * one)) (Fin (y * one)) = Fin ((x + y) * one).

(** The number one in ticks of 2^-1074, the least positive float. *)
Definition float_one : Z := 2 ^ 1074.
