(** Python dictionaries as association lists in insertion order. *)
From Coq Require Import List Bool Arith String ZArith Lia.
Import ListNotations.

(** Types with a decidable equality (Python's == on keys). *)
Class Eqb (K : Type) := { eqb : K -> K -> bool; eqb_eq : forall a b, eqb a b = true <-> a = b }.
#[global] Arguments eqb : simpl never.

#[global, refine] Instance Eqb_nat : Eqb nat := {| eqb := Nat.eqb |}.
Proof. apply Nat.eqb_eq. Defined.
#[global, refine] Instance Eqb_Z : Eqb Z := {| eqb := Z.eqb |}.
Proof. apply Z.eqb_eq. Defined.
#[global, refine] Instance Eqb_string : Eqb string := {| eqb := String.eqb |}.
Proof. apply String.eqb_eq. Defined.

Lemma eqb_refl {K} `{Eqb K} (a : K) : eqb a a = true.
Proof. now apply eqb_eq. Qed.

Lemma eqb_neq {K} `{Eqb K} (a b : K) : eqb a b = false <-> a <> b.
Proof. rewrite <- not_true_iff_false, eqb_eq. tauto. Qed.

Lemma eqb_sym {K} `{Eqb K} (a b : K) : eqb a b = eqb b a.
Proof.
  destruct (eqb a b) eqn:E1, (eqb b a) eqn:E2; auto.
  - apply eqb_eq in E1. subst. rewrite eqb_refl in E2. discriminate.
  - apply eqb_eq in E2. subst. rewrite eqb_refl in E1. discriminate.
Qed.

Section D.
Context {K : Type} `{EK : Eqb K} {V : Type}.

Definition dict := list (K * V).

(** [d.keys()] and [d.values()]. *)
Definition dkeys (d : dict) : list K := map fst d.
Definition dvalues (d : dict) : list V := map snd d.

(** [d.get(k)]. *)
Fixpoint dget (k : K) (d : dict) : option V :=
  match d with
  | [] => None
  | (k', v) :: d' => if eqb k k' then Some v else dget k d'
  end.

(** [k in d]. *)
Definition dhas (k : K) (d : dict) : bool := existsb (fun p => eqb k (fst p)) d.

(** [d[k] = v]: an existing key keeps its place. *)
Fixpoint dset (k : K) (v : V) (d : dict) : dict :=
  match d with
  | [] => [(k, v)]
  | (k', v') :: d' => if eqb k k' then (k', v) :: d' else (k', v') :: dset k v d'
  end.

(** [d.pop(k, None)]. *)
Fixpoint ddel (k : K) (d : dict) : dict :=
  match d with
  | [] => []
  | (k', v') :: d' => if eqb k k' then d' else (k', v') :: ddel k d'
  end.

(** [d.update(e)]. *)
Definition dupdate (d e : dict) : dict := fold_left (fun d p => dset (fst p) (snd p) d) e d.

#[global] Arguments dupdate : simpl never.

(** [dict(pairs)]. *)
Definition dict_of (l : list (K * V)) : dict := dupdate [] l.

(** No key twice, as in every Python dictionary. *)
Definition dwf (d : dict) : Prop := NoDup (dkeys d).

Lemma dhas_in k d : dhas k d = true <-> In k (dkeys d).
Proof.
  unfold dhas, dkeys. rewrite existsb_exists, in_map_iff. split.
  - intros ([k' v]&I&E). apply eqb_eq in E. subst. exists (k', v). auto.
  - intros ([k' v]&E&I). simpl in E. subst. exists (k, v). split; auto. apply eqb_refl.
Qed.

Lemma dhas_get k d : dhas k d = match dget k d with Some _ => true | None => false end.
Proof.
  induction d as [|[k' v] d IH]; simpl; auto. destruct (eqb k k'); simpl; auto.
Qed.

Lemma dget_none k d : dget k d = None <-> ~ In k (dkeys d).
Proof.
  rewrite <- dhas_in, dhas_get. destruct (dget k d); split; congruence.
Qed.

Lemma dget_in k v d : dget k d = Some v -> In (k, v) d.
Proof.
  induction d as [|[k' v'] d IH]; simpl; try discriminate.
  destruct (eqb k k') eqn:E; intros X; [|auto].
  apply eqb_eq in E. left. congruence.
Qed.

Lemma dget_in_wf k v d : dwf d -> In (k, v) d -> dget k d = Some v.
Proof.
  unfold dwf. induction d as [|[k' v'] d IH]; simpl; [contradiction|].
  intros N I. inversion N as [|x l N1 N2]; subst. destruct I as [I|I].
  - injection I as -> ->. now rewrite eqb_refl.
  - destruct (eqb k k') eqn:E; auto. apply eqb_eq in E. subst.
    exfalso. apply N1. apply (in_map fst) in I. exact I.
Qed.

Lemma dget_set k k' v d : dget k (dset k' v d) = if eqb k k' then Some v else dget k d.
Proof.
  induction d as [|[k2 v2] d IH]; simpl; auto.
  destruct (eqb k' k2) eqn:E; simpl.
  - apply eqb_eq in E. subst. destruct (eqb k k2); auto.
  - rewrite IH. destruct (eqb k k2) eqn:E2; auto.
    apply eqb_eq in E2. subst. destruct (eqb k2 k') eqn:E3; auto.
    apply eqb_eq in E3. subst. rewrite eqb_refl in E. discriminate.
Qed.

Lemma dget_set_same k v d : dget k (dset k v d) = Some v.
Proof. rewrite dget_set, eqb_refl. reflexivity. Qed.

Lemma dget_set_other k k' v d : k <> k' -> dget k (dset k' v d) = dget k d.
Proof. intros N. rewrite dget_set. apply eqb_neq in N. now rewrite N. Qed.

Lemma dkeys_set k v d : dkeys (dset k v d) = if dhas k d then dkeys d else dkeys d ++ [k].
Proof.
  induction d as [|[k' v'] d IH]; simpl; auto.
  destruct (eqb k k') eqn:E; simpl; auto. unfold dkeys in *. rewrite IH.
  unfold dhas. destruct (existsb _ d); auto.
Qed.

Lemma dset_fresh k v d : dhas k d = false -> dset k v d = d ++ [(k, v)].
Proof.
  induction d as [|[k' v'] d IH]; simpl; auto.
  destruct (eqb k k'); simpl; [discriminate|]. intros E. now rewrite IH.
Qed.

Lemma in_dkeys_set k k' v d : In k (dkeys (dset k' v d)) <-> k = k' \/ In k (dkeys d).
Proof.
  rewrite dkeys_set. destruct (dhas k' d) eqn:E.
  - split; auto. intros [->|I]; auto. now apply dhas_in.
  - rewrite in_app_iff. simpl. intuition.
Qed.

Lemma dhas_set k k' v d : dhas k (dset k' v d) = eqb k k' || dhas k d.
Proof. rewrite !dhas_get, dget_set. destruct (eqb k k'); auto. Qed.

Lemma dset_wf k v d : dwf d -> dwf (dset k v d).
Proof.
  unfold dwf. rewrite dkeys_set. destruct (dhas k d) eqn:E; auto. intros N.
  apply not_true_iff_false in E. rewrite dhas_in in E.
  induction (dkeys d) as [|x l IH]; simpl.
  - repeat constructor. auto.
  - inversion N as [|y l' N1 N2]; subst. constructor.
    + rewrite in_app_iff. simpl. simpl in E. intros [I|[I|[]]]; subst; auto.
    + apply IH; auto. simpl in E. auto.
Qed.

Lemma dwf_nil : dwf [].
Proof. constructor. Qed.

Lemma dupdate_nil d : dupdate d [] = d.
Proof. reflexivity. Qed.

Lemma dupdate_cons d k v e : dupdate d ((k, v) :: e) = dupdate (dset k v d) e.
Proof. reflexivity. Qed.

Lemma dupdate_app d e f : dupdate d (e ++ f) = dupdate (dupdate d e) f.
Proof. unfold dupdate. apply fold_left_app. Qed.

Lemma dupdate_wf e : forall d, dwf d -> dwf (dupdate d e).
Proof.
  induction e as [|[k v] e IH]; intros d H; auto. rewrite dupdate_cons. apply IH, dset_wf, H.
Qed.

(** The last binding of [e] wins, then [d]. *)
Lemma dget_update k e : forall d,
  dget k (dupdate d e) = match dget k (rev e) with Some v => Some v | None => dget k d end.
Proof.
  induction e as [|[k' v'] e IH] using rev_ind; intros d; simpl; auto.
  rewrite dupdate_app, rev_app_distr, dupdate_cons, dupdate_nil. simpl.
  rewrite dget_set. destruct (eqb k k'); auto.
Qed.

Lemma dget_app k d e : dget k (d ++ e) = match dget k d with Some v => Some v | None => dget k e end.
Proof.
  induction d as [|[k' v'] d IH]; simpl; auto. destruct (eqb k k'); auto.
Qed.

Lemma dget_rev_wf k d : dwf d -> dget k (rev d) = dget k d.
Proof.
  unfold dwf. induction d as [|[k' v'] d IH]; simpl; auto. intros N.
  inversion N as [|x l N1 N2]; subst. rewrite dget_app, IH by auto. simpl.
  destruct (eqb k k') eqn:E.
  - apply eqb_eq in E. subst. replace (dget k' d) with (@None V); auto.
    symmetry. now apply dget_none.
  - destruct (dget k d); auto.
Qed.

Lemma dget_update_wf k d e : dwf e ->
  dget k (dupdate d e) = match dget k e with Some v => Some v | None => dget k d end.
Proof. intros N. now rewrite dget_update, dget_rev_wf. Qed.

Lemma in_dkeys_update k e : forall d, In k (dkeys (dupdate d e)) <-> In k (dkeys d) \/ In k (dkeys e).
Proof.
  induction e as [|[k' v'] e IH]; intros d; simpl.
  - intuition.
  - rewrite dupdate_cons, IH, in_dkeys_set. intuition.
Qed.

Lemma dhas_update k d e : dhas k (dupdate d e) = dhas k d || dhas k e.
Proof.
  apply eq_true_iff_eq. rewrite orb_true_iff, !dhas_in. apply in_dkeys_update.
Qed.

Lemma ddel_keys k d : dwf d -> forall k', In k' (dkeys (ddel k d)) <-> k' <> k /\ In k' (dkeys d).
Proof.
  unfold dwf. induction d as [|[k2 v2] d IH]; simpl; intros N k'; [intuition|].
  inversion N as [|x l N1 N2]; subst. destruct (eqb k k2) eqn:E.
  - apply eqb_eq in E. subst. split.
    + intros I. split; auto. intros ->. contradiction.
    + intros [A [B|B]]; auto. congruence.
  - apply eqb_neq in E. simpl. rewrite IH by auto. split.
    + intros [<-|[A B]]; auto.
    + intros [A [B|B]]; auto.
Qed.

Lemma ddel_in p k d : In p (ddel k d) -> In p d.
Proof.
  induction d as [|[k2 v2] d IH]; simpl; auto. destruct (eqb k k2); simpl; auto. intros [I|I]; auto.
Qed.

Lemma ddel_wf k d : dwf d -> dwf (ddel k d).
Proof.
  unfold dwf. induction d as [|[k2 v2] d IH]; simpl; auto. intros N.
  inversion N as [|x l N1 N2]; subst. destruct (eqb k k2); auto. simpl. constructor; auto.
  intros I. apply N1. apply in_map_iff in I. destruct I as ([k3 v3]&E&I). simpl in E. subst.
  apply ddel_in in I. apply (in_map fst) in I. exact I.
Qed.

Lemma dget_del k k' d : dwf d -> dget k (ddel k' d) = if eqb k k' then None else dget k d.
Proof.
  intros N. destruct (eqb k k') eqn:E.
  - apply eqb_eq in E. subst. apply dget_none. rewrite ddel_keys by auto. intuition.
  - clear N. induction d as [|[k2 v2] d IH]; simpl; auto.
    destruct (eqb k' k2) eqn:E2.
    + apply eqb_eq in E2. subst. now rewrite E.
    + simpl. now rewrite IH.
Qed.

Lemma ddel_fresh k d : dhas k d = false -> ddel k d = d.
Proof.
  induction d as [|[k2 v2] d IH]; simpl; auto. destruct (eqb k k2); simpl; [discriminate|].
  intros E. now rewrite IH.
Qed.

(** A dictionary built from pairs with different keys has just these pairs. *)
Lemma dict_of_nodup l : NoDup (map fst l) -> dict_of l = l.
Proof.
  unfold dict_of. assert (forall d, (forall k, In k (dkeys d) -> ~ In k (map fst l)) ->
    NoDup (map fst l) -> dupdate d l = d ++ l) as H.
  { induction l as [|[k v] l IH]; intros d D N; [now rewrite app_nil_r|].
    rewrite dupdate_cons. simpl in N. inversion N as [|x l' N1 N2]; subst.
    rewrite dset_fresh.
    - rewrite IH; auto.
      + now rewrite <- app_assoc.
      + intros k' I. unfold dkeys in I. rewrite map_app in I. apply in_app_iff in I.
        destruct I as [I|[<-|[]]]; auto. intros J. apply (D k' I). simpl. auto.
    - apply not_true_iff_false. rewrite dhas_in. intros I. apply (D k I). simpl. auto. }
  intros N. apply (H []); auto.
Qed.
End D.
Arguments dict : clear implicits.
#[global] Arguments dupdate : simpl never.
