(** What is expected of searches by position. *)
From Coq Require Import List Bool Arith.
From Verif Require Import PyDict GeoModel.
Import ListNotations.

Section Spec.
Context {P R : Type}.
(** The distance between two points is at most this. *)
Variable within : P * P -> P * P -> R -> Prop.

(** What scipy promises: the indices of the points within the radius, each once. *)
Definition finds (ball : list (P * P) -> P * P -> R -> list nat) : Prop :=
  forall l p r, NoDup (ball l p r) /\
  forall i, In i (ball l p r) <-> exists q, nth_error l i = Some q /\ within q p r.

(** Node [n] is there, at this position. *)
Definition lies (w : gworld P) (n : nat) (p : P * P) : Prop :=
  exists d, dget n (gw_nodes w) = Some d /\ g_pos d = Some p.
(** An agent is at node [n]. *)
Definition stands (w : gworld P) (a n : nat) : Prop := gw_node_of w a = Some (Some n).
Definition networked (w : gworld P) (a : nat) : Prop := gw_node_of w a <> None.
End Spec.
