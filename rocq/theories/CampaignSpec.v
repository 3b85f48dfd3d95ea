(** What the experiment of newsspread should do. *)
From Coq Require Import ZArith List Bool Arith String.
From Verif Require Import Num PyDict NewsModel CampaignModel.
Import ListNotations.
Local Open Scope Z_scope.

Definition sum (l : list Z) : Z := fold_right Z.add 0 l.
(** How many of the draws [0/n], [1/n], ..., [(n-1)/n] satisfy [p]. *)
Definition draws_with (n : nat) (p : Z -> bool) : nat := List.length (filter (fun k => p (Z.of_nat k)) (seq 0 n)).
(** Of equally likely draws each class gets the share of its weight: [q] for each unit. *)
Definition fair_shares (ws : list Z) : Prop :=
  forall q : nat, let n := (Z.to_nat (sum ws) * q)%nat in
  forall i w, nth_error ws i = Some w ->
  Z.of_nat (draws_with n (fun k => Nat.eqb (choice ws k (Z.of_nat n)) i)) = w * Z.of_nat q.
