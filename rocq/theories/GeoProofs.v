(** Proofs about searches by position. *)
From Coq Require Import List Bool Arith Lia.
From Verif Require Import PyDict GeoModel GeoSpec.
Import ListNotations.

Section Proofs.
Context {P R : Type}.
Implicit Types w : gworld P.

Lemma node_ids_ok w l : (forall a, In a l -> networked w a) -> exists r, node_ids w l = inl r /\
  forall n, In (Some n) r <-> exists a, In a l /\ stands w a n.
Proof.
  induction l as [|a l IH]; intros H; cbn [node_ids].
  - eexists. split; [reflexivity|]. intros n. split; [intros []|intros (a & [] & _)].
  - destruct (gw_node_of w a) as [m|] eqn:E; [|elim (H a (or_introl eq_refl)); auto].
    destruct IH as (r & -> & K); [intros b I; apply H; now right|]. eexists. split; [reflexivity|].
    intros n. cbn [In]. rewrite K. unfold stands. split.
    + intros [->|(b & I & S)]; [exists a; auto|exists b; auto].
    + intros (b & [<-|I] & S); [left; congruence|right; eauto].
Qed.
Lemma node_ids_bad w l a : In a l -> gw_node_of w a = None -> node_ids w l = inr GAttributeError.
Proof.
  induction l as [|b l IH]; [intros []|]. intros [->|I] E; cbn [node_ids]; [now rewrite E|].
  destruct (gw_node_of w b); [|reflexivity]. now rewrite IH.
Qed.
Lemma ok_in (l : list (option nat)) n :
  existsb (fun m => match m with Some m => Nat.eqb m n | None => false end) l = true <-> In (Some n) l.
Proof.
  rewrite existsb_exists. split.
  - intros ([m|] & I & E); [|discriminate]. apply Nat.eqb_eq in E. now subst.
  - intros I. exists (Some n). split; auto. apply Nat.eqb_refl.
Qed.
Lemma filter_wf {A} f (l : dict nat A) : dwf l -> dwf (filter f l).
Proof.
  unfold dwf, dkeys. induction l as [|[n d] l IH]; cbn; auto. intros N. inversion N; subst.
  destruct (f (n, d)); cbn; auto. constructor; auto. intros I. apply in_map_iff in I as ([k v] & E & I). cbn in E. subst.
  apply filter_In in I as [I _]. apply H1. apply in_map_iff. exists (n, v). auto.
Qed.
Lemma dget_In {A} n (d : A) (l : dict nat A) : dwf l -> dget n l = Some d <-> In (n, d) l.
Proof.
  unfold dwf, dkeys. induction l as [|[m x] l IH]; cbn [dget In map fst].
  - split; [discriminate|intros []].
  - intros W. inversion W as [|? ? NI W']; subst. change (eqb n m) with (Nat.eqb n m). destruct (Nat.eqb n m) eqn:E.
    + apply Nat.eqb_eq in E. subst m. split; [intros X; injection X as ->; auto|]. intros [X|X]; [congruence|].
      elim NI. apply in_map_iff. exists (n, d). auto.
    + apply Nat.eqb_neq in E. rewrite IH by auto. split; auto. intros [X|X]; [congruence|auto].
Qed.
Lemma positions_In (l : dict nat (gnode P)) n p : In (n, p) (positions l) <-> exists d, In (n, d) l /\ g_pos d = Some p.
Proof.
  induction l as [|[m d] l IH]; cbn [positions In].
  - split; [intros []|intros (d & [] & _)].
  - destruct (g_pos d) as [q|] eqn:E; cbn [In]; rewrite IH; split.
    + intros [X|(d' & I & Q)]; [injection X as -> ->; exists d; auto|exists d'; auto].
    + intros (d' & [X|I] & Q); [left; congruence|right; eauto].
    + intros (d' & I & Q). eauto.
    + intros (d' & [X|I] & Q); [congruence|eauto].
Qed.
Lemma positions_wf (l : dict nat (gnode P)) : dwf l -> dwf (positions l).
Proof.
  unfold dwf, dkeys. induction l as [|[n d] l IH]; cbn [positions map fst]; auto. intros N. inversion N as [|? ? NI N']; subst.
  destruct (g_pos d) as [q|]; cbn; auto. constructor; auto. intros I. apply in_map_iff in I as ([k v] & E & I). cbn in E. subst.
  apply positions_In in I as (d' & I & _). apply NI. apply in_map_iff. exists (n, d'). auto.
Qed.

(** The nodes with a position in the subgraph of some agents. *)
Lemma sub_positions w l r : dwf (gw_nodes w) -> node_ids w l = inl r ->
  (forall n, In (Some n) r <-> exists a, In a l /\ stands w a n) ->
  forall n p, In (n, p) (positions (fst (nx_subgraph w r))) <-> lies w n p /\ exists a, In a l /\ stands w a n.
Proof.
  intros W E K n p. rewrite positions_In. cbn [nx_subgraph fst]. unfold lies. split.
  - intros (d & I & Q). apply filter_In in I as [I O]. cbn [fst] in O. apply ok_in in O. apply K in O. split; auto.
    exists d. split; auto. now apply dget_In.
  - intros [(d & D & Q) O]. exists d. split; auto. apply filter_In. cbn [fst]. split; [now apply dget_In|]. apply ok_in. now apply K.
Qed.
Lemma indices_In (pos : dict nat (P * P)) (ix : list nat) m :
  In m (flat_map (fun i => match nth_error (map fst pos) i with Some m => [m] | None => [] end) ix) <->
  exists i, In i ix /\ nth_error (map fst pos) i = Some m.
Proof.
  rewrite in_flat_map. split.
  - intros (i & I & J). exists i. destruct (nth_error (map fst pos) i); [destruct J as [->|[]]; auto|destruct J].
  - intros (i & I & J). exists i. rewrite J. split; auto. now left.
Qed.
Lemma indices_NoDup (pos : dict nat (P * P)) ix : dwf pos -> NoDup ix ->
  NoDup (flat_map (fun i => match nth_error (map fst pos) i with Some m => [m] | None => [] end) ix).
Proof.
  intros W. induction 1 as [|i ix NI N IH]; cbn [flat_map]; [constructor|].
  destruct (nth_error (map fst pos) i) as [m|] eqn:E; cbn [app]; auto. constructor; auto.
  rewrite indices_In. intros (j & J & EJ). apply NI. replace i with j; auto.
  apply (proj1 (NoDup_nth_error (map fst pos)) W); [apply nth_error_Some; congruence|congruence].
Qed.

Variable within : P * P -> P * P -> R -> Prop.
Variable ball : list (P * P) -> P * P -> R -> list nat.
Hypothesis BALL : finds within ball.

Lemma search w self n p radius center selected : dwf (gw_nodes w) ->
  (forall a, In a selected -> networked w a) -> stands w self n -> lies w n p ->
  exists l, geo_search ball w self radius center selected = inl l /\ NoDup l /\
  forall m, In m l <-> (center = true \/ m <> n) /\
    exists q, lies w m q /\ within q p radius /\ exists a, (a = self \/ In a selected) /\ stands w a m.
Proof.
  intros W S ST L. unfold geo_search. unfold stands in ST. rewrite ST. unfold subgraph. cbn iota.
  destruct (node_ids_ok w (selected ++ [self])) as (r & E & K).
  { intros a I. apply in_app_or in I as [I|[<-|[]]]; auto. unfold networked. congruence. }
  rewrite E. destruct (nx_subgraph w r) as [g ed] eqn:G.
  pose proof (sub_positions w (selected ++ [self]) r W E K) as SP. rewrite G in SP. cbn [fst] in SP.
  assert (WG : dwf (positions g)).
  { apply positions_wf. unfold nx_subgraph in G. injection G as <- _. now apply filter_wf. }
  assert (HN : In (n, p) (positions g)).
  { apply SP. split; auto. exists self. split; [apply in_or_app; right; now left|exact ST]. }
  assert (DN : dget n (positions g) = Some p) by now apply dget_In.
  destruct (positions g) as [|x pos0] eqn:EP; [destruct HN|]. rewrite <- EP in *. clear x pos0 EP. rewrite DN.
  eexists. split; [reflexivity|]. destruct (BALL (map snd (positions g)) p radius) as [BN BI]. split.
  - apply NoDup_filter. apply indices_NoDup; auto.
  - intros m. rewrite filter_In, indices_In, orb_true_iff, negb_true_iff, Nat.eqb_neq.
    split.
    + intros ((i & I & J) & C). split; auto. apply BI in I as (q & Q & WI).
      rewrite nth_error_map in J, Q. destruct (nth_error (positions g) i) as [[m' q']|] eqn:NE; [|discriminate]. cbn in J, Q.
      injection J as ->. injection Q as ->. apply nth_error_In in NE. apply SP in NE as (LI & a & IA & SA). exists q. split; auto. split; auto.
      exists a. split; auto. apply in_app_or in IA as [IA|[<-|[]]]; auto.
    + intros (C & q & LI & WI & a & IA & SA). split; auto.
      assert (I : In (m, q) (positions g)).
      { apply SP. split; auto. exists a. split; auto. apply in_or_app. destruct IA as [->|IA]; auto. right. now left. }
      apply In_nth_error in I as (i & I). exists i. split; [apply BI; exists q; split; auto|]; rewrite nth_error_map, I; reflexivity.
Qed.
End Proofs.
