(** Specification for runs with exporters that raise. *)
From Coq Require Import List Bool String.
From Verif Require Import SimModel.

(** The event is no call of a method of an exporter that raises. *)
Definition not_bad {V R E} (bad : call V R E -> bool) (ev : tev V R E) : Prop :=
  match ev with TCall c => bad c = false | TRun _ _ => True end.
