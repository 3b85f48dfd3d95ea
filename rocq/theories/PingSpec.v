(** What is expected of agents that send messages to one another at each step. *)
From Coq Require Import List Permutation.
From Verif Require Import Num TimedModel NoopSpec.
Import ListNotations.

(** Each of the first [k] instants [n] times: the pings of [n] agents in [k] steps. *)
Definition times {AR : Arith} (d : num) (n k : nat) : list num := concat (map (fun j => repeat (tick d j) n) (seq 0 k)).
(** A shuffle changes nothing but the order. *)
Definition shuffles {R} (shuffle : list aid -> R -> R * list aid) : Prop := forall l r, Permutation l (snd (shuffle l r)).
