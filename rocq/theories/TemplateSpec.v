(** What the expansion of a template should give. *)
From Coq Require Import List Bool Arith String.
From Verif Require Import PyDict TemplateModel.
Import ListNotations.

(** Choices of one element of each list, by positions, and their rank in the order of
    itertools.product. *)
Fixpoint number (lens : list nat) : nat := match lens with [] => 1 | n :: l => n * number l end.
Fixpoint rank (lens choice : list nat) : nat :=
  match lens, choice with
  | _ :: l, c :: choice' => c * number l + rank l choice'
  | _, _ => 0
  end.
Definition valid (lens choice : list nat) : Prop := Forall2 (fun n c => c < n) lens choice.

Section Template.
Context {V : Type}.
(** The parameters [p] are those of a choice and a sample: each name has its own value. *)
Definition assigns (lists : dict string (list V)) (bound_names : list string)
    (choice : list nat) (s : list V) (p : dict string V) : Prop :=
  (forall k vs i c, nth_error lists k = Some (i, vs) -> nth_error choice k = Some c ->
     dget i p = nth_error vs c)
  /\ (forall k i, nth_error bound_names k = Some i -> dget i p = nth_error s k)
  /\ (forall i, In i (dkeys p) <-> In i (dkeys lists) \/ In i bound_names).
(** Names are used once, and samples have a value for each bound. *)
Definition separate (lists : dict string (list V)) (bound_names : list string) : Prop :=
  NoDup (dkeys lists ++ bound_names).
Definition complete (bound_names : list string) (samples : list (list V)) : Prop :=
  forall s, In s samples -> List.length s = List.length bound_names.
End Template.
