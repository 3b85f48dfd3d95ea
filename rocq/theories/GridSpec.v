(** What is expected of the grid of examples/mesa/wealth.py. *)
From Coq Require Import ZArith List Permutation.
Import ListNotations.
Local Open Scope Z_scope.

Definition inside (width height : Z) (p : Z * Z) : Prop := 0 <= fst p < width /\ 0 <= snd p < height.
(** Another cell at most one away in each direction, on a torus: coordinates are counted around. *)
Definition next_to_torus (width height : Z) (p q : Z * Z) : Prop :=
  q <> p /\ inside width height q /\
  exists dx dy, -1 <= dx <= 1 /\ -1 <= dy <= 1 /\ (fst q - fst p - dx) mod width = 0 /\ (snd q - snd p - dy) mod height = 0.
(** The same on a grid with borders. *)
Definition next_to (width height : Z) (p q : Z * Z) : Prop :=
  q <> p /\ inside width height q /\ Z.abs (fst q - fst p) <= 1 /\ Z.abs (snd q - snd p) <= 1.

(** Draws of [randrange] in its range, and of [shuffle] that change nothing but the order. *)
Definition in_range {R} (draw : R -> Z -> R * Z) : Prop := forall r b, 0 < b -> 0 <= snd (draw r b) < b.
Definition reorders {R} (shuffle : R -> list nat -> R * list nat) : Prop := forall r l, Permutation l (snd (shuffle r l)).
