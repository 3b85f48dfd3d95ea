(** Python numbers as used for simulation time: finite values, the two infinities and
    NaN, with the comparison and addition rules of Python floats.

    Finite values are integers.  A Python float is an integer multiple of a power of
    two, and a run only meets finitely many of them, so the integers stand for ticks of
    a fine enough common unit (the default interval is therefore a parameter of the
    models, not the constant one).  What is lost is rounding; Binary64*.v treats it. *)
From Coq Require Import ZArith List Bool Lia.
Import ListNotations.
Local Open Scope Z_scope.
#[global] Arguments Z.ltb : simpl never.
#[global] Arguments Z.leb : simpl never.
#[global] Arguments Z.eqb : simpl never.
#[global] Arguments Z.add : simpl never.

Inductive num : Type := Fin (z : Z) | PInf | NInf | NaN.

(** Python [x == y] on floats. *)
Definition n_eqb (x y : num) : bool :=
  match x, y with
  | Fin a, Fin b => a =? b
  | PInf, PInf => true
  | NInf, NInf => true
  | _, _ => false
  end.

(** Python [x < y] on floats. *)
Definition n_ltb (x y : num) : bool :=
  match x, y with
  | Fin a, Fin b => a <? b
  | Fin _, PInf => true
  | NInf, Fin _ => true
  | NInf, PInf => true
  | _, _ => false
  end.

(** Python [x <= y] on floats. *)
Definition n_leb (x y : num) : bool := n_ltb x y || n_eqb x y.

(** Python [x + y], without rounding. *)
Definition x_add (x y : num) : num :=
  match x, y with
  | NaN, _ | _, NaN => NaN
  | PInf, NInf | NInf, PInf => NaN
  | PInf, _ | _, PInf => PInf
  | NInf, _ | _, NInf => NInf
  | Fin a, Fin b => Fin (a + b)
  end.

(** Python [-x]. *)
Definition n_opp (x : num) : num :=
  match x with Fin a => Fin (- a) | PInf => NInf | NInf => PInf | NaN => NaN end.

(** Truth value of a number: zero is false, everything else (NaN included) is true. *)
Definition n_truthy (x : num) : bool := negb (n_eqb x (Fin 0)).

(** [x or y] for [x] a number or None. *)
Definition or_num (x : option num) (y : num) : num :=
  match x with
  | None => y
  | Some v => if n_truthy v then v else y
  end.

(** A point in time: finite or plus infinity. *)
Definition is_time (x : num) : bool :=
  match x with Fin _ | PInf => true | _ => false end.

(** [0 <= x], finite or plus infinity. *)
Definition nonneg (x : num) : bool := n_leb (Fin 0) x.

Lemma n_eqb_eq x y : n_eqb x y = true -> x = y.
Proof. destruct x, y; simpl; try discriminate; auto. intros H; apply Z.eqb_eq in H; congruence. Qed.

Lemma n_eqb_refl x : is_time x = true -> n_eqb x x = true.
Proof. destruct x; simpl; try discriminate; auto. intros _; apply Z.eqb_refl. Qed.

Lemma n_eqb_neq x y : is_time x = true -> n_eqb x y = false -> x <> y.
Proof. intros H E ->. rewrite n_eqb_refl in E; congruence. Qed.

Lemma n_ltb_irrefl x : n_ltb x x = false.
Proof. destruct x; simpl; auto. apply Z.ltb_irrefl. Qed.

Lemma n_ltb_trans x y z : n_ltb x y = true -> n_ltb y z = true -> n_ltb x z = true.
Proof.
  destruct x, y, z; simpl; try discriminate; auto; rewrite ?Z.ltb_lt in *; lia.
Qed.

Lemma n_leb_refl x : is_time x = true -> n_leb x x = true.
Proof. intros H. unfold n_leb. rewrite (n_eqb_refl x H). apply orb_true_r. Qed.

Lemma n_leb_trans x y z : n_leb x y = true -> n_leb y z = true -> n_leb x z = true.
Proof.
  destruct x, y, z; unfold n_leb; simpl; try discriminate; auto;
  rewrite ?orb_true_iff, ?Z.ltb_lt, ?Z.eqb_eq in *; try lia.
Qed.

Lemma n_ltb_leb x y : n_ltb x y = true -> n_leb x y = true.
Proof. unfold n_leb; intros ->; reflexivity. Qed.

Lemma n_leb_ltb_trans x y z : n_leb x y = true -> n_ltb y z = true -> n_ltb x z = true.
Proof.
  destruct x, y, z; unfold n_leb; simpl; try discriminate; auto;
  rewrite ?orb_true_iff, ?Z.ltb_lt, ?Z.eqb_eq in *; try lia.
Qed.

Lemma n_ltb_leb_trans x y z : n_ltb x y = true -> n_leb y z = true -> n_ltb x z = true.
Proof.
  destruct x, y, z; unfold n_leb; simpl; try discriminate; auto;
  rewrite ?orb_true_iff, ?Z.ltb_lt, ?Z.eqb_eq in *; try lia.
Qed.

Lemma n_ltb_neq x y : n_ltb x y = true -> n_eqb x y = false.
Proof.
  destruct x, y; simpl; try discriminate; auto.
  rewrite Z.ltb_lt, Z.eqb_neq; lia.
Qed.

Lemma n_ltb_neq' x y : n_ltb x y = true -> n_eqb y x = false.
Proof.
  destruct x, y; simpl; try discriminate; auto.
  rewrite Z.ltb_lt, Z.eqb_neq; lia.
Qed.

Lemma n_ltb_asym x y : n_ltb x y = true -> n_ltb y x = false.
Proof.
  destruct x, y; simpl; try discriminate; auto.
  rewrite Z.ltb_lt, Z.ltb_ge; lia.
Qed.

Lemma n_leb_antisym x y : n_leb x y = true -> n_leb y x = true -> x = y.
Proof.
  destruct x, y; unfold n_leb; simpl; try discriminate; auto;
  rewrite ?orb_true_iff, ?Z.ltb_lt, ?Z.eqb_eq in *; intros; f_equal; lia.
Qed.

Lemma n_leb_not_ltb x y : n_leb x y = true -> n_ltb y x = false.
Proof.
  destruct x, y; unfold n_leb; simpl; try discriminate; auto;
  rewrite ?orb_true_iff, ?Z.ltb_lt, ?Z.eqb_eq, ?Z.ltb_ge in *; lia.
Qed.

Lemma n_total x y : is_time x = true -> is_time y = true ->
  n_ltb x y = false -> n_leb y x = true.
Proof.
  destruct x, y; unfold n_leb; simpl; try discriminate; auto; intros _ _ H.
  rewrite Z.ltb_ge in H. rewrite orb_true_iff, Z.ltb_lt, Z.eqb_eq. lia.
Qed.

Lemma n_trichotomy x y : is_time x = true -> is_time y = true ->
  n_eqb x y = false -> n_ltb x y = false -> n_ltb y x = true.
Proof.
  destruct x, y; simpl; try discriminate; auto; intros _ _ H1 H2.
  rewrite Z.eqb_neq in H1. rewrite Z.ltb_ge in H2. rewrite Z.ltb_lt. lia.
Qed.

Lemma n_leb_is_time x y : is_time x = true -> n_leb x y = true -> is_time y = true.
Proof. destruct x, y; simpl; auto. Qed.

Lemma nonneg_is_time x : nonneg x = true -> is_time x = true.
Proof. destruct x; auto. Qed.

Lemma x_add_leb x d : is_time x = true -> nonneg d = true -> n_leb x (x_add x d) = true.
Proof.
  destruct x, d; unfold nonneg, n_leb; cbn; try discriminate; auto.
  intros _ H. rewrite orb_true_iff, Z.ltb_lt, Z.eqb_eq in *. lia.
Qed.

Lemma x_add_comm x y : x_add x y = x_add y x.
Proof. destruct x, y; simpl; auto. now rewrite Z.add_comm. Qed.

(** An addition of instants and delays.  The models of the schedulers work with any
    addition that is commutative and in which a delay of zero or more never leads to an
    earlier instant; [exact] is one, and Binary64.v shows that the addition of Python's
    floats is another. *)
Class Arith := {
  n_add : num -> num -> num;
  n_add_comm : forall x y, n_add x y = n_add y x;
  n_add_leb : forall x d, is_time x = true -> nonneg d = true -> n_leb x (n_add x d) = true }.

Definition exact : Arith :=
  {| n_add := x_add; n_add_comm := x_add_comm; n_add_leb := x_add_leb |}.

(** Additions that lose nothing: a positive delay leads to a later instant, and finite
    values have a finite sum. *)
Class Precise (A : Arith) : Prop := {
  precise_later : forall now d, is_time now = true -> n_eqb now PInf = false ->
    n_ltb (Fin 0) d = true -> n_ltb now (n_add now d) = true;
  precise_fin : forall a b, exists c, n_add (Fin a) (Fin b) = Fin c }.

Lemma exact_precise : Precise exact.
Proof.
  split.
  - intros now d. destruct now, d; simpl; try discriminate; auto. intros _ _ H.
    apply Z.ltb_lt. apply Z.ltb_lt in H. lia.
  - intros a b. simpl. eauto.
Qed.

Section A.
Context {AR : Arith}.

Lemma n_add_time x d : is_time x = true -> nonneg d = true -> is_time (n_add x d) = true.
Proof. intros H1 H2. apply (n_leb_is_time x); auto. apply n_add_leb; auto. Qed.

Lemma n_add_nonneg x d : nonneg x = true -> nonneg d = true -> nonneg (n_add x d) = true.
Proof.
  intros H1 H2. eapply n_leb_trans; [exact H1|].
  apply n_add_leb; auto. apply nonneg_is_time; auto.
Qed.

End A.
