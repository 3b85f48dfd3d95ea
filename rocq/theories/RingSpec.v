(** What is expected of agents that stand in a ring, each of which asks the next one. *)
From Coq Require Import List Bool Arith.
From Verif Require Import Num TimedModel NoopSpec.
Import ListNotations.

(** Activations are numbered from 0, in the order in which they happen: number [i] is of the agent [i mod n], in the step [i / n].  The first answer
    is given in the activation number 1, and each of the others [n - 1] activations after the one before. *)
Definition answering (n i : nat) : bool := (1 <=? i) && ((i - 1) mod (n - 1) =? 0).
(** In which a question is asked: at first everybody asks, and then those who have answered. *)
Definition asking (n i : nat) : bool := (i <? n) || answering n i.
(** The instants of the activations for which [f] holds, among those from number [i] to number [j - 1]. *)
Definition instants_of {AR : Arith} (d : num) (n : nat) (f : nat -> bool) (i j : nat) : list num := map (fun q => tick d (q / n)) (filter f (seq i (j - i))).
