(** How often a generator that is activated again and again goes on. *)
From Coq Require Import List Bool Arith.
From Verif Require Import Num TimedModel TutorSpec.
Import ListNotations.

(** A generator with [n] turns is started by one activation and ends at the [n]-th after it; the next activation starts it again.  So in [k] activations
    it is started in those whose number, from 0, is a multiple of [n + 1], and goes on in the others. *)
Definition resumed (n k : nat) : nat := List.length (filter (fun j => negb (j mod (n + 1) =? 0)) (seq 0 k)).
(** The agents of [ids] are all that were activated, without repetition. *)
Record everybody (ids : list aid) (tr : list ev) : Prop := {
  eb_once : NoDup ids;
  eb_all : forall t a o, In (EvAct t a o) tr -> In a ids }.
