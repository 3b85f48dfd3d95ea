(** Who makes friends with a patron of the pubcrawl example. *)
From Coq Require Import List Bool Arith.
From Verif Require Import Num TimedModel.
Import ListNotations.

(** The first [k] of the patrons that are there, in a random order, are asked, but not the one who asks; each with one random number, from [d], in order.
    Those accept whose number is below their openness. *)
Definition asked (self : aid) (k : nat) (l : list aid) : list aid := filter (fun f => negb (Nat.eqb f self)) (firstn k l).
Definition accepted (openness : aid -> num) (d : nat -> num) (l : list aid) : list aid :=
  map fst (filter (fun p => n_ltb (snd p) (openness (fst p))) (combine l (map d (seq 0 (List.length l))))).
