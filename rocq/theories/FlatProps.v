(** C53: flatten_dict and unflatten_dict. *)
From Coq Require Import List Bool Ascii String.
From Verif Require Import PyDict FlatModel FlatSpec FlatProofs.
Import ListNotations.
Local Open Scope string_scope.

(** In the examples the keys that are not strings are numbers below ten. *)
Definition digit (n : nat) : string := String (ascii_of_nat (48 + n)) "".
Notation T := (tree nat nat).

(** C53 for the dictionaries whose keys are strings without dots, without empty dictionaries
    inside and without dictionary under "": even the order of the keys is the same. *)
Theorem C53_roundtrip_partial :
  forall V K (EK : Eqb K) (str_of : K -> string) (t : tree V K),
  proper t -> good t -> unflatten (flatten str_of t) = Some t.
Proof. intros. now apply roundtrip. Qed.
Print Assumptions C53_roundtrip_partial.

(** C53 is false for all others: they raise, or give something that is different. *)
Theorem C53_all_others_refuted :
  forall V K (EK : Eqb K) (str_of : K -> string) (t t' : tree V K),
  proper t -> ~ good t -> unflatten (flatten str_of t) = Some t' -> ~ same t' t.
Proof. intros V K EK str_of t t' P N U S. apply N. eapply only_good; eauto. Qed.
Print Assumptions C53_all_others_refuted.

Example C53_not_vacuous :
  let t : T := Node [(KStr "a", Leaf 1); (KStr "b", Node [(KStr "x", Leaf 2); (KStr "", Node [(KStr "y", Leaf 3)])]);
                     (KStr "", Leaf 4)] in
  proper t /\ good t /\
  flatten digit t = Node [(KStr "a", Leaf 1); (KStr "b.x", Leaf 2); (KStr "b..y", Leaf 3); (KStr "", Leaf 4)] /\
  unflatten (flatten digit t) = Some t.
Proof.
  intros t. assert (proper t) as P.
  { repeat split; repeat constructor; simpl; intuition discriminate. }
  assert (good t) as G.
  { apply (structure_good).
    - intros k t' [[= <- <-]|[[= <- <-]|[[= <- <-]|[]]]]; simpl;
        repeat match goal with
               | |- _ /\ _ => split | |- True => exact I | |- _ <> _ => discriminate
               | |- plain _ => eexists; split; reflexivity
               end.
    - simpl. intros t' [= <-]. eauto. }
  split; [exact P|]. split; [exact G|]. split; reflexivity.
Qed.

(** Each of the conditions is needed. *)
Example C53_a_dot : unflatten (flatten digit (Node [(KStr "a.b", Leaf 1)] : T)) =
  Some (Node [(KStr "a", Node [(KStr "b", Leaf 1)])]).
Proof. reflexivity. Qed.
Example C53_a_number : unflatten (flatten digit (Node [(KOther 7, Leaf 1)] : T)) = Some (Node [(KStr "7", Leaf 1)]).
Proof. reflexivity. Qed.
Example C53_an_empty_dictionary :
  unflatten (flatten digit (Node [(KStr "a", Node []); (KStr "b", Leaf 1)] : T)) = Some (Node [(KStr "b", Leaf 1)]).
Proof. reflexivity. Qed.
Example C53_a_blank_key :
  unflatten (flatten digit (Node [(KStr "", Node [(KStr "a", Leaf 1)])] : T)) = Some (Node [(KStr "a", Leaf 1)]).
Proof. reflexivity. Qed.
Example C53_an_exception :
  unflatten (flatten digit (Node [(KStr "a", Leaf 1); (KStr "a.b", Leaf 2)] : T)) = None.
Proof. reflexivity. Qed.

(** The other way round, for flat dictionaries with string keys of which none begins with a
    dot and none contains another one as its first part: the result is equal, but the order
    of the keys may change. *)
Theorem C53_unflatten_then_flatten_partial :
  forall V K (EK : Eqb K) (str_of : K -> string) (f : tree V K),
  proper f -> flat_dict f -> clear f ->
  exists t, unflatten f = Some t /\ proper t /\ same (flatten str_of t) f.
Proof. intros. now apply back. Qed.
Print Assumptions C53_unflatten_then_flatten_partial.

Example C53_back_not_vacuous :
  let f : T := Node [(KStr "a.x", Leaf 1); (KStr "b", Leaf 2); (KStr "a.y.z", Leaf 3)] in
  proper f /\ flat_dict f /\ clear f /\
  unflatten f = Some (Node [(KStr "a", Node [(KStr "x", Leaf 1); (KStr "y", Node [(KStr "z", Leaf 3)])]); (KStr "b", Leaf 2)]) /\
  flatten digit (Node [(KStr "a", Node [(KStr "x", Leaf 1); (KStr "y", Node [(KStr "z", Leaf 3)])]); (KStr "b", Leaf 2)] : T) =
  Node [(KStr "a.x", Leaf 1); (KStr "a.y.z", Leaf 3); (KStr "b", Leaf 2)].
Proof.
  intros f.
  split; [repeat split; repeat constructor; simpl; intuition discriminate|].
  split; [split; [reflexivity|split]|split; [split|split; reflexivity]].
  - intros [|k [|k' p]] Ne; [congruence| |]; simpl;
      destruct (eqb k (KStr "a.x")), (eqb k (KStr "b")), (eqb k (KStr "a.y.z")); discriminate.
  - intros [s|n]; [eauto|]. intros N. exfalso. apply N. reflexivity.
  - reflexivity.
  - intros s r. simpl. intros N.
    destruct (eqb (KStr s) (KStr "a.x")) eqn:E1; [apply eqb_eq in E1; injection E1 as ->; reflexivity|].
    destruct (eqb (KStr s) (KStr "b")) eqn:E2; [apply eqb_eq in E2; injection E2 as ->; reflexivity|].
    destruct (eqb (KStr s) (KStr "a.y.z")) eqn:E3; [apply eqb_eq in E3; injection E3 as ->; reflexivity|].
    congruence.
Qed.

(** What unflatten does with keys that are not strings, and what is below them: nothing. *)
Theorem C53_other_keys_partial :
  forall V K (EK : Eqb K) (t t' : tree V K) k p,
  proper t -> unflatten t = Some t' -> at_path t' (KOther k :: p) = at_path t (KOther k :: p).
Proof. intros. now apply unflatten_others. Qed.
Print Assumptions C53_other_keys_partial.

Example C53_other_keys_not_vacuous :
  let t : T := Node [(KStr "a.x", Leaf 1); (KOther 3, Node [(KStr "b.c", Leaf 2)])] in
  proper t /\
  unflatten t = Some (Node [(KStr "a", Node [(KStr "x", Leaf 1)]); (KOther 3, Node [(KStr "b.c", Leaf 2)])]) /\
  at_path t [KOther 3; KStr "b.c"] = Some (AValue 2).
Proof.
  split; [repeat split; repeat constructor; simpl; intuition discriminate|]. split; reflexivity.
Qed.
