(** Proofs about [TimedActivation]. *)
From Coq Require Import ZArith List Bool Arith Lia Permutation.
From Verif Require Import Num TimedModel TimedSpec.
Import ListNotations.

Section Arith.
Context {AR : Arith}.


Lemma or_num_later t t0 : nonneg t0 = true -> n_leb t0 t = true -> or_num (Some t) t0 = t.
Proof.
  intros H1 H2. simpl. unfold n_truthy. destruct (n_eqb t (Fin 0)) eqn:E; simpl; auto.
  apply n_eqb_eq in E; subst. apply n_leb_antisym; auto.
Qed.

(** ** The queue *)

Fixpoint above (k : num) (q : list (num * list aid)) : Prop :=
  match q with
  | [] => True
  | (k', b) :: q' => n_ltb k k' = true /\ b <> [] /\ above k' q'
  end.

Definition wfq (lo : num) (q : list (num * list aid)) : Prop :=
  match q with
  | [] => True
  | (k, b) :: q' => n_leb lo k = true /\ b <> [] /\ above k q'
  end.

Definition bucket_of (k : num) (q : list (num * list aid)) : list aid :=
  flat_map (fun l => if n_eqb (fst l) k then snd l else []) q.

Lemma above_wfq k q : above k q -> wfq k q.
Proof. destruct q as [|[k' b] q]; simpl; auto. intros (?&?&?); auto using n_ltb_leb. Qed.

Lemma above_weaken k k' q : n_leb k k' = true -> above k' q -> above k q.
Proof.
  destruct q as [|[k2 b] q]; simpl; auto. intros L (H1&H2&H3); split; auto.
  eapply n_leb_ltb_trans; eauto.
Qed.

Lemma wfq_weaken k k' q : n_leb k k' = true -> wfq k' q -> wfq k q.
Proof.
  destruct q as [|[k2 b] q]; simpl; auto. intros L (H1&H2&H3); split; auto.
  eapply n_leb_trans; eauto.
Qed.

Lemma above_bucket k k' q : above k q -> n_leb k' k = true -> bucket_of k' q = [].
Proof.
  revert k. induction q as [|[k2 b] q IH]; simpl; auto.
  intros k (H1&H2&H3) L.
  assert (n_ltb k' k2 = true) as L2 by (eapply n_leb_ltb_trans; eauto).
  rewrite (n_ltb_neq' _ _ L2). simpl. eapply IH; eauto using n_ltb_leb.
Qed.

Lemma wfq_bucket_lt lo k q : wfq lo q -> n_ltb k lo = true -> bucket_of k q = [].
Proof.
  destruct q as [|[k2 b] q]; simpl; auto.
  intros (H1&H2&H3) L.
  assert (n_ltb k k2 = true) as L2 by (eapply n_ltb_leb_trans; eauto).
  rewrite (n_ltb_neq' _ _ L2). simpl. eapply above_bucket; eauto using n_ltb_leb.
Qed.

Lemma insert_above k q t a : is_time k = true -> n_ltb k t = true -> above k q ->
  above k (insert_bucket q t a).
Proof.
  revert k. induction q as [|[k2 b] q IH]; simpl; intros k Tk L H.
  - repeat split; auto. discriminate.
  - destruct H as (H1&H2&H3).
    assert (is_time k2 = true) as T2 by (eapply (n_leb_is_time k); eauto using n_ltb_leb).
    assert (is_time t = true) as Tt by (eapply (n_leb_is_time k); eauto using n_ltb_leb).
    destruct (n_eqb k2 t) eqn:E; simpl.
    + repeat split; auto. destruct b; discriminate.
    + destruct (n_ltb t k2) eqn:L2; simpl.
      * repeat split; auto. discriminate.
      * repeat split; auto. apply IH; auto.
        apply n_trichotomy; auto.
        destruct (n_eqb t k2) eqn:E2; auto. apply n_eqb_eq in E2; subst.
        rewrite n_eqb_refl in E; auto.
Qed.

Lemma insert_wfq lo q t a : is_time lo = true -> n_leb lo t = true -> wfq lo q ->
  wfq lo (insert_bucket q t a).
Proof.
  intros Tlo L H. destruct q as [|[k2 b] q]; simpl in *.
  - repeat split; auto. discriminate.
  - destruct H as (H1&H2&H3).
    assert (is_time k2 = true) as T2 by (eapply (n_leb_is_time lo); eauto).
    assert (is_time t = true) as Tt by (eapply (n_leb_is_time lo); eauto).
    destruct (n_eqb k2 t) eqn:E; simpl.
    + repeat split; auto. destruct b; discriminate.
    + destruct (n_ltb t k2) eqn:L2; simpl.
      * repeat split; auto. discriminate.
      * repeat split; auto. apply insert_above; auto.
        apply n_trichotomy; auto.
        destruct (n_eqb t k2) eqn:E2; auto. apply n_eqb_eq in E2; subst.
        rewrite n_eqb_refl in E; auto.
Qed.

Lemma insert_bucket_of_above k0 q t a k : is_time k0 = true -> n_ltb k0 t = true ->
  above k0 q ->
  bucket_of k (insert_bucket q t a) = bucket_of k q ++ (if n_eqb t k then [a] else []).
Proof.
  revert k0. induction q as [|[k2 b] q IH]; simpl; intros k0 Tk L H.
  - destruct (n_eqb t k); auto.
  - destruct H as (H1&H2&H3).
    assert (is_time k2 = true) as T2 by (eapply (n_leb_is_time k0); eauto using n_ltb_leb).
    assert (is_time t = true) as Tt by (eapply (n_leb_is_time k0); eauto using n_ltb_leb).
    destruct (n_eqb k2 t) eqn:E; simpl.
    + apply n_eqb_eq in E; subst k2. destruct (n_eqb t k) eqn:E2.
      * apply n_eqb_eq in E2; subst k.
        rewrite (above_bucket _ _ _ H3) by (apply n_leb_refl; auto).
        now rewrite !app_nil_r.
      * rewrite app_nil_r. reflexivity.
    + destruct (n_ltb t k2) eqn:L2; simpl.
      * destruct (n_eqb t k) eqn:E2; simpl.
        -- apply n_eqb_eq in E2; subst k. rewrite E. simpl.
           rewrite (above_bucket _ t _ H3) by (apply n_ltb_leb; auto). reflexivity.
        -- rewrite app_nil_r. reflexivity.
      * rewrite (IH k2); auto.
        -- rewrite app_assoc. reflexivity.
        -- apply n_trichotomy; auto.
           destruct (n_eqb t k2) eqn:E2; auto. apply n_eqb_eq in E2; subst.
           rewrite n_eqb_refl in E; auto.
Qed.

Lemma insert_bucket_of lo q t a k : is_time lo = true -> n_leb lo t = true ->
  wfq lo q ->
  bucket_of k (insert_bucket q t a) = bucket_of k q ++ (if n_eqb t k then [a] else []).
Proof.
  intros Tlo L H. destruct q as [|[k2 b] q]; simpl in *.
  - destruct (n_eqb t k); auto.
  - destruct H as (H1&H2&H3).
    assert (is_time k2 = true) as T2 by (eapply (n_leb_is_time lo); eauto).
    assert (is_time t = true) as Tt by (eapply (n_leb_is_time lo); eauto).
    destruct (n_eqb k2 t) eqn:E; simpl.
    + apply n_eqb_eq in E; subst k2. destruct (n_eqb t k) eqn:E2.
      * apply n_eqb_eq in E2; subst k.
        rewrite (above_bucket _ _ _ H3) by (apply n_leb_refl; auto).
        now rewrite !app_nil_r.
      * rewrite app_nil_r. reflexivity.
    + destruct (n_ltb t k2) eqn:L2; simpl.
      * destruct (n_eqb t k) eqn:E2; simpl.
        -- apply n_eqb_eq in E2; subst k. rewrite E. simpl.
           rewrite (above_bucket _ t _ H3) by (apply n_ltb_leb; auto). reflexivity.
        -- rewrite app_nil_r. reflexivity.
      * rewrite (insert_bucket_of_above k2); auto.
        -- rewrite app_assoc. reflexivity.
        -- apply n_trichotomy; auto.
           destruct (n_eqb t k2) eqn:E2; auto. apply n_eqb_eq in E2; subst.
           rewrite n_eqb_refl in E; auto.
Qed.

(** ** Invariant without the agenda: enough for monotonicity, and stable under
    exceptions *)

Definition winv (s : sched) : Prop :=
  nonneg (s_time s) = true /\ nonneg (s_di s) = true /\ wfq (s_time s) (s_queue s).

Definition same_clock (s s' : sched) : Prop :=
  s_time s' = s_time s /\ s_di s' = s_di s /\ s_shuffle s' = s_shuffle s /\
  s_steps s' = s_steps s.

Lemma same_clock_refl s : same_clock s s.
Proof. repeat split. Qed.

Lemma same_clock_trans s1 s2 s3 : same_clock s1 s2 -> same_clock s2 s3 -> same_clock s1 s3.
Proof. unfold same_clock; intuition congruence. Qed.

Lemma timed_add_queue s a when :
  s_queue (timed_add s a when) = insert_bucket (s_queue s) (s_time s) a.
Proof.
  unfold timed_add, reg_add, timed_schedule; simpl.
  destruct (existsb _ _); reflexivity.
Qed.

Lemma timed_add_clock s a when : same_clock s (timed_add s a when).
Proof.
  unfold timed_add, reg_add, timed_schedule; simpl.
  destruct (existsb _ _); repeat split.
Qed.

Lemma run_op_winv s op s' tr : run_op s op = (s', tr) -> winv s ->
  winv s' /\ same_clock s s'.
Proof.
  destruct op as [a when|a]; simpl; intros E (H1&H2&H3); injection E as <- <-.
  - pose proof (timed_add_clock s a when) as C. split; auto.
    destruct C as (C1&C2&_). unfold winv. rewrite C1, C2, timed_add_queue.
    repeat split; auto. apply insert_wfq; auto using nonneg_is_time, n_leb_refl.
  - split; [|repeat split]. repeat split; auto.
Qed.

Lemma run_ops_winv ops s s' tr : run_ops s ops = (s', tr) -> winv s ->
  winv s' /\ same_clock s s'.
Proof.
  revert s s' tr. induction ops as [|op ops IH]; simpl; intros s s' tr E H.
  - injection E as <- <-. split; auto using same_clock_refl.
  - destruct (run_op s op) as [s1 e1] eqn:E1.
    destruct (run_ops s1 ops) as [s2 e2] eqn:E2. injection E as <- <-.
    destruct (run_op_winv _ _ _ _ E1 H) as [H1 C1].
    destruct (IH _ _ _ E2 H1) as [H2 C2]. eauto using same_clock_trans.
Qed.

Lemma timed_schedule_winv s a t : winv s -> n_leb (s_time s) t = true ->
  winv (timed_schedule s a (Some t)) /\ same_clock s (timed_schedule s a (Some t)) /\
  s_queue (timed_schedule s a (Some t)) = insert_bucket (s_queue s) t a.
Proof.
  intros (H1&H2&H3) L. unfold timed_schedule. rewrite or_num_later; auto. simpl.
  repeat split; simpl; auto. apply insert_wfq; auto using nonneg_is_time.
Qed.

Definition good_delay (o : outcome) : Prop :=
  match o with Ret (Some d) => nonneg d = true | _ => True end.

Lemma forward_good {W} (u : user W) s a w w1 ops o :
  forward_only u -> u_step u s a w = (w1, ops, o) -> good_delay o.
Proof.
  intros F E. specialize (F s a w). rewrite E in F. destruct o as [[d|]| |]; simpl; auto.
Qed.

Lemma or_num_nonneg r di : nonneg di = true -> good_delay (Ret r) ->
  nonneg (or_num r di) = true.
Proof.
  destruct r as [d|]; simpl; auto. unfold n_truthy.
  destruct (n_eqb d (Fin 0)); simpl; auto.
Qed.

Section U.
Context {W : Type} (u : user W) (Hf : forward_only u).

Lemma run_bucket_winv b : forall s w s' w' tr x,
  run_bucket u (s_time s) b s w = (s', w', tr, x) -> winv s ->
  winv s' /\ same_clock s s'.
Proof.
  induction b as [|a b IH]; simpl; intros s w s' w' tr x E H.
  - injection E as <- <- <- <-. split; auto using same_clock_refl.
  - destruct (u_step u s a w) as [[w1 ops] o] eqn:EU.
    destruct (run_ops s ops) as [s1 tr1] eqn:EO.
    destruct (run_ops_winv _ _ _ _ EO H) as [H1 C1].
    pose proof (forward_good _ _ _ _ _ _ _ Hf EU) as G.
    assert (s_time s1 = s_time s) as T1 by apply C1.
    destruct o as [r| |].
    + set (t := n_add (or_num r (s_di s1)) (s_time s)) in *.
      set (s2 := if negb (n_eqb t PInf) then timed_schedule s1 a (Some t) else s1) in *.
      assert (winv s2 /\ same_clock s1 s2) as [H2 C2].
      { subst s2. destruct (n_eqb t PInf); simpl; auto using same_clock_refl.
        destruct (timed_schedule_winv s1 a t H1) as (A&B&_); auto.
        rewrite T1. subst t. rewrite n_add_comm. apply n_add_leb.
        - apply nonneg_is_time, H.
        - apply or_num_nonneg; auto. apply H1. }
      destruct (run_bucket u (s_time s) b s2 w1) as [[[s3 w3] tr3] x3] eqn:EB.
      injection E as <- <- <- <-.
      assert (s_time s2 = s_time s) as T2.
      { destruct C2 as (C2&_). congruence. }
      rewrite <- T2 in EB. destruct (IH _ _ _ _ _ _ EB H2) as [H3 C3].
      eauto using same_clock_trans.
    + destruct (run_bucket u (s_time s) b s1 w1) as [[[s3 w3] tr3] x3] eqn:EB.
      injection E as <- <- <- <-. rewrite <- T1 in EB.
      destruct (IH _ _ _ _ _ _ EB H1) as [H3 C3]. eauto using same_clock_trans.
    + injection E as <- <- <- <-. auto.
Qed.

Lemma timed_step_winv s w s' w' tr x :
  timed_step u s w = (s', w', tr, x) -> winv s ->
  winv s' /\ n_leb (s_time s) (s_time s') = true /\ s_di s' = s_di s.
Proof.
  intros E H. unfold timed_step in E.
  assert (is_time (s_time s) = true) as T by apply nonneg_is_time, H.
  destruct (s_queue s) as [|[k b] q] eqn:EQ.
  - injection E as <- <- <- <-. auto using n_leb_refl.
  - assert (n_leb (s_time s) k = true /\ b <> [] /\ above k q) as (L&B&A).
    { destruct H as (_&_&H). rewrite EQ in H. exact H. }
    assert (is_time k = true) as Tk by (eapply n_leb_is_time; eauto).
    destruct (n_ltb (s_time s) k) eqn:LT.
    + injection E as <- <- <- <-. destruct H as (H1&H2&H3).
      repeat split; simpl; auto.
      * unfold nonneg. eapply n_leb_trans; [exact H1|exact L].
      * rewrite EQ. simpl. auto using n_leb_refl.
    + assert (k = s_time s) as ->.
      { apply n_leb_antisym; auto. apply n_total; auto. }
      destruct (if s_shuffle s then u_shuffle u b w else (w, b)) as [w0 b0].
      set (s0 := set_queue s q) in *.
      assert (winv s0) as H0.
      { destruct H as (H1&H2&H3). repeat split; auto. simpl. apply above_wfq; auto. }
      destruct (run_bucket u (s_time s) b0 s0 w0) as [[[s1 w1] tr1] x1] eqn:EB.
      destruct (run_bucket_winv _ _ _ _ _ _ _ EB H0) as [H1 C1].
      destruct C1 as (C1&C2&_). simpl in C1, C2.
      destruct x1.
      * injection E as <- <- <- <-. rewrite C1. auto using n_leb_refl.
      * destruct H1 as (I1&I2&I3).
        simpl in E. destruct (s_queue s1) as [|[t b1] q1] eqn:EQ1.
        -- injection E as <- <- <- <-. unfold winv; simpl.
           rewrite C2. destruct H as (H1&H2&H3). rewrite EQ1.
           repeat split; simpl; auto. destruct (s_time s); simpl; auto; discriminate.
        -- injection E as <- <- <- <-. unfold winv; simpl.
           rewrite C2. simpl in I3. destruct I3 as (J1&J2&J3). rewrite EQ1.
           destruct H as (H1&H2&H3). rewrite C1 in *.
           assert (is_time t = true) as Tt by (eapply n_leb_is_time; eauto).
           repeat split; simpl; auto using n_leb_refl.
           unfold nonneg. eapply n_leb_trans; [exact H1|exact J1].
Qed.

Lemma run_cmd_winv c s w s' w' tr : run_cmd u s w c = (s', w', tr) -> winv s ->
  winv s' /\ n_leb (s_time s) (s_time s') = true /\ s_di s' = s_di s.
Proof.
  intros E H. assert (is_time (s_time s) = true) as T by apply nonneg_is_time, H.
  destruct c as [|a when|a|f]; cbn [run_cmd] in E.
  - destruct (timed_step u s w) as [[[s1 w1] tr1] x1] eqn:ES. injection E as <- <- <-.
    eapply timed_step_winv; eauto.
  - destruct (run_op s (SAdd a when)) as [s1 tr1] eqn:EO. injection E as <- <- <-.
    destruct (run_op_winv _ _ _ _ EO H) as [H1 (C1&C2&_)]. rewrite C1. auto using n_leb_refl.
  - destruct (run_op s (SRem a)) as [s1 tr1] eqn:EO. injection E as <- <- <-.
    destruct (run_op_winv _ _ _ _ EO H) as [H1 (C1&C2&_)]. rewrite C1. auto using n_leb_refl.
  - injection E as <- <- <-. auto using n_leb_refl.
Qed.

Lemma run_hist_winv h : forall s w s' w' tr, run_hist u h s w = (s', w', tr) -> winv s ->
  winv s' /\ n_leb (s_time s) (s_time s') = true /\ s_di s' = s_di s.
Proof.
  induction h as [|c h IH]; simpl; intros s w s' w' tr E H.
  - injection E as <- <- <-. repeat split; auto; try apply H.
    apply n_leb_refl, nonneg_is_time, H.
  - destruct (run_cmd u s w c) as [[s1 w1] tr1] eqn:E1.
    destruct (run_hist u h s1 w1) as [[s2 w2] tr2] eqn:E2. injection E as <- <- <-.
    destruct (run_cmd_winv _ _ _ _ _ _ E1 H) as (H1&L1&D1).
    destruct (IH _ _ _ _ _ E2 H1) as (H2&L2&D2).
    repeat split; try apply H2; [eapply n_leb_trans; eauto | congruence].
Qed.
End U.

Lemma run_hist_app {W} (u : user W) h1 h2 s w :
  run_hist u (h1 ++ h2) s w =
  (let '(s1, w1, t1) := run_hist u h1 s w in
   let '(s2, w2, t2) := run_hist u h2 s1 w1 in (s2, w2, t1 ++ t2)).
Proof.
  revert s w. induction h1 as [|c h1 IH]; simpl; intros s w.
  - destruct (run_hist u h2 s w) as [[s2 w2] t2]; reflexivity.
  - destruct (run_cmd u s w c) as [[s1 w1] t1]. rewrite IH.
    destruct (run_hist u h1 s1 w1) as [[s2 w2] t2].
    destruct (run_hist u h2 s2 w2) as [[s3 w3] t3]. now rewrite app_assoc.
Qed.

Lemma winv_init sh di : nonneg di = true -> winv (timed_init sh di).
Proof. intros; repeat split; auto. Qed.

Lemma clock_monotone W (u : user W) sh di h1 h2 w :
  forward_only u -> nonneg di = true ->
  n_leb (s_time (fst (fst (run_hist u h1 (timed_init sh di) w))))
        (s_time (fst (fst (run_hist u (h1 ++ h2) (timed_init sh di) w)))) = true.
Proof.
  intros F D. rewrite run_hist_app.
  destruct (run_hist u h1 (timed_init sh di) w) as [[s1 w1] t1] eqn:E1.
  destruct (run_hist u h2 s1 w1) as [[s2 w2] t2] eqn:E2. simpl.
  destruct (run_hist_winv u F h1 _ _ _ _ _ E1 (winv_init _ _ D)) as (H1&_).
  destruct (run_hist_winv u F h2 _ _ _ _ _ E2 H1) as (H2&L&_). exact L.
Qed.

(** ** Invariant with the agenda *)

Lemma due_at_app k l1 l2 : due_at k (l1 ++ l2) = due_at k l1 ++ due_at k l2.
Proof. unfold due_at. now rewrite filter_app, map_app. Qed.

Lemma due_at_one k t a : due_at k [(t, a)] = if n_eqb t k then [a] else [].
Proof. unfold due_at; simpl. destruct (n_eqb t k); reflexivity. Qed.

Lemma agenda_app di ag t1 t2 : agenda di ag (t1 ++ t2) = agenda di (agenda di ag t1) t2.
Proof.
  revert ag. induction t1 as [|[t a|t a o] t1 IH]; simpl; intros; auto.
Qed.

Lemma punctual_app di ag t1 t2 :
  punctual di ag (t1 ++ t2) <-> punctual di ag t1 /\ punctual di (agenda di ag t1) t2.
Proof.
  revert ag. induction t1 as [|[t a|t a o] t1 IH]; simpl; intros ag.
  - tauto.
  - rewrite IH. tauto.
  - rewrite IH. tauto.
Qed.

Definition times_ok (ag : list (num * aid)) : Prop :=
  Forall (fun p => is_time (fst p) = true) ag.

Lemma remove1_times x ag : times_ok ag -> times_ok (remove1 x ag).
Proof.
  unfold times_ok. induction 1; simpl; auto. destruct (due_eqb _ _); auto.
Qed.

Lemma in_due_at t a ag : is_time t = true -> In (t, a) ag <-> In a (due_at t ag).
Proof.
  intros T. unfold due_at. rewrite in_map_iff. split.
  - intros H. exists (t, a). split; auto. apply filter_In. split; auto.
    simpl. apply n_eqb_refl; auto.
  - intros [[t' a'] [E H]]. simpl in E; subst. apply filter_In in H.
    destruct H as [H E]. simpl in E. apply n_eqb_eq in E. subst; auto.
Qed.

Fixpoint rem1n (a : aid) (l : list aid) : list aid :=
  match l with [] => [] | b :: l' => if Nat.eqb a b then l' else b :: rem1n a l' end.

Lemma due_at_remove1 k t a ag : is_time t = true ->
  due_at k (remove1 (t, a) ag) = if n_eqb t k then rem1n a (due_at k ag) else due_at k ag.
Proof.
  intros T. induction ag as [|[t' a'] ag IH]; simpl.
  - destruct (n_eqb t k); reflexivity.
  - unfold due_eqb; simpl. destruct (n_eqb t t') eqn:E; simpl.
    + apply n_eqb_eq in E; subst t'.
      destruct (Nat.eqb a a') eqn:Ea.
      * apply Nat.eqb_eq in Ea; subst a'. unfold due_at at 2 3; simpl.
        destruct (n_eqb t k) eqn:Ek; simpl; auto.
        rewrite Nat.eqb_refl. reflexivity.
      * change ((t, a') :: remove1 (t, a) ag) with ([(t, a')] ++ remove1 (t, a) ag).
        change ((t, a') :: ag) with ([(t, a')] ++ ag).
        rewrite !due_at_app, due_at_one, IH.
        destruct (n_eqb t k) eqn:Ek; simpl; auto. now rewrite Ea.
    + change ((t', a') :: remove1 (t, a) ag) with ([(t', a')] ++ remove1 (t, a) ag).
      change ((t', a') :: ag) with ([(t', a')] ++ ag).
      rewrite !due_at_app, due_at_one, IH.
      destruct (n_eqb t k) eqn:Ek; simpl; auto.
      apply n_eqb_eq in Ek; subst k.
      destruct (n_eqb t' t) eqn:E'; simpl; auto.
      apply n_eqb_eq in E'; subst. rewrite n_eqb_refl in E; congruence.
Qed.

Lemma rem1n_app a l1 l2 : In a l1 -> rem1n a (l1 ++ l2) = rem1n a l1 ++ l2.
Proof.
  induction l1 as [|b l1 IH]; simpl; [tauto|].
  destruct (Nat.eqb a b) eqn:E; simpl; auto.
  intros [->|H]; [rewrite Nat.eqb_refl in E; discriminate|]. now rewrite IH.
Qed.

Lemma rem1n_perm a l l' : Permutation l (a :: l') -> Permutation (rem1n a l) l'.
Proof.
  assert (forall m, In a m -> Permutation m (a :: rem1n a m)) as K.
  { induction m as [|b m IH]; simpl; [tauto|].
    destruct (Nat.eqb a b) eqn:E.
    - apply Nat.eqb_eq in E; subst; auto.
    - intros [->|H]; [rewrite Nat.eqb_refl in E; discriminate|].
      rewrite (IH H) at 1. apply perm_swap. }
  intros P. assert (In a l) as I.
  { eapply Permutation_in; [symmetry; exact P|]. left; auto. }
  apply (Permutation_cons_inv (a := a)). rewrite <- (K _ I). exact P.
Qed.

(** Agenda invariant in the middle of a bucket: [rb] are the agents of the bucket that
    have not run yet, [now] is the clock. *)
Definition binv (rb : list aid) (s : sched) (ag : list (num * aid)) : Prop :=
  winv s /\ times_ok ag /\
  (exists old, Permutation old rb /\
     due_at (s_time s) ag = old ++ bucket_of (s_time s) (s_queue s)) /\
  (forall k, is_time k = true -> n_eqb k (s_time s) = false ->
     due_at k ag = bucket_of k (s_queue s)).

Definition inv (s : sched) (ag : list (num * aid)) : Prop :=
  winv s /\ times_ok ag /\
  (forall k, is_time k = true -> due_at k ag = bucket_of k (s_queue s)).

Lemma inv_binv s ag : inv s ag -> binv [] s ag.
Proof.
  intros (H1&H2&H3). repeat split; try apply H1; auto.
  exists []. split; auto. simpl. apply H3. apply nonneg_is_time, H1.
Qed.

Lemma binv_inv s ag : binv [] s ag -> inv s ag.
Proof.
  intros (H1&H2&(old&P&H3)&H4). split; [auto|split; auto].
  intros k T. destruct (n_eqb k (s_time s)) eqn:E; auto.
  apply n_eqb_eq in E; subst k. symmetry in P; apply Permutation_nil in P; subst old.
  exact H3.
Qed.

Lemma run_op_binv rb s op s' tr ag : run_op s op = (s', tr) -> binv rb s ag ->
  binv rb s' (agenda (s_di s) ag tr) /\ punctual (s_di s) ag tr /\ acts tr = [].
Proof.
  intros E (H1&H2&(old&P&H3)&H4).
  destruct (run_op_winv _ _ _ _ E H1) as [H1' C].
  destruct op as [a when|a]; simpl in E; injection E as <- <-; simpl.
  - split; [|auto]. destruct C as (C1&C2&_).
    assert (is_time (s_time s) = true) as T by apply nonneg_is_time, H1.
    split; [auto|split]; [|split].
    + apply Forall_app; split; auto.
    + exists old. split; auto. rewrite C1, timed_add_queue.
      rewrite (insert_bucket_of (s_time s)); auto using n_leb_refl; [|apply H1].
      rewrite due_at_app, due_at_one, H3, n_eqb_refl; auto. now rewrite app_assoc.
    + intros k Tk Nk. rewrite C1 in Nk. rewrite timed_add_queue.
      rewrite (insert_bucket_of (s_time s)); auto using n_leb_refl; [|apply H1].
      rewrite due_at_app, due_at_one, H4; auto.
  - split; [|auto]. split; [auto|split; [auto|split; [exists old; auto|auto]]].
Qed.

Lemma run_ops_binv rb ops : forall s s' tr ag, run_ops s ops = (s', tr) -> binv rb s ag ->
  binv rb s' (agenda (s_di s) ag tr) /\ punctual (s_di s) ag tr /\ acts tr = [] /\
  same_clock s s'.
Proof.
  induction ops as [|op ops IH]; simpl; intros s s' tr ag E H.
  - injection E as <- <-. simpl. auto using same_clock_refl.
  - destruct (run_op s op) as [s1 e1] eqn:E1.
    destruct (run_ops s1 ops) as [s2 e2] eqn:E2. injection E as <- <-.
    destruct (run_op_binv _ _ _ _ _ _ E1 H) as (H1&P1&A1).
    destruct (run_op_winv _ _ _ _ E1 (proj1 H)) as [_ C1].
    destruct (IH _ _ _ _ E2 H1) as (H2&P2&A2&C2).
    assert (s_di s1 = s_di s) as D by apply C1. rewrite D in *.
    split; [|split; [|split]].
    + rewrite agenda_app. auto.
    + rewrite punctual_app. auto.
    + unfold acts in *. rewrite flat_map_app, A1, A2. reflexivity.
    + eauto using same_clock_trans.
Qed.

(** Performing the pending activation of [a] at the current instant. *)
Lemma act_binv a rb s ag o : binv (a :: rb) s ag -> good_delay o ->
  match next_due (s_di s) (s_time s) o with
  | None => binv rb s (agenda (s_di s) ag [EvAct (s_time s) a o])
  | Some t => binv rb (timed_schedule s a (Some t))
                   (agenda (s_di s) ag [EvAct (s_time s) a o])
  end /\ In (s_time s, a) ag.
Proof.
  intros (H1&H2&(old&P&H3)&H4) G.
  assert (is_time (s_time s) = true) as T by apply nonneg_is_time, H1.
  assert (In a old) as Ia.
  { eapply Permutation_in; [symmetry; exact P|left; auto]. }
  assert (In (s_time s, a) ag) as I.
  { apply in_due_at; auto. rewrite H3. apply in_or_app; auto. }
  split; [|exact I]. simpl.
  assert (binv rb s (remove1 (s_time s, a) ag)) as B.
  { split; [auto|split; [apply remove1_times; auto|split]].
    - exists (rem1n a old). split; [apply rem1n_perm; auto|].
      rewrite due_at_remove1, n_eqb_refl, H3; auto. apply rem1n_app; auto.
    - intros k Tk Nk. rewrite due_at_remove1; auto.
      destruct (n_eqb (s_time s) k) eqn:E; auto.
      apply n_eqb_eq in E; subst k. rewrite n_eqb_refl in Nk; congruence. }
  destruct (next_due (s_di s) (s_time s) o) as [t|] eqn:ND; simpl.
  - assert (n_leb (s_time s) t = true) as L.
    { unfold next_due in ND. destruct o as [r| |]; try discriminate.
      set (d := match r with None => s_di s | Some v => if n_eqb v (Fin 0) then s_di s else v end) in *.
      destruct (n_eqb (n_add (s_time s) d) PInf); inversion ND; subst t.
      apply n_add_leb; auto. subst d. destruct r as [v|]; [|apply H1].
      destruct (n_eqb v (Fin 0)); [apply H1|exact G]. }
    destruct (timed_schedule_winv s a t H1 L) as (W1&C1&Q1).
    destruct B as (B1&B2&(old'&B3&B4)&B5).
    assert (s_time (timed_schedule s a (Some t)) = s_time s) as Tm by apply C1.
    split; [auto|split; [|split]].
    + apply Forall_app; split; auto. repeat constructor. simpl.
      eapply n_leb_is_time; eauto.
    + exists old'. split; auto. rewrite Tm, Q1.
      rewrite (insert_bucket_of (s_time s)); auto; [|apply H1].
      rewrite due_at_app, due_at_one, B4. now rewrite app_assoc.
    + intros k Tk Nk. rewrite Tm in Nk. rewrite Q1.
      rewrite (insert_bucket_of (s_time s)); auto; [|apply H1].
      rewrite due_at_app, due_at_one, B5; auto.
  - rewrite app_nil_r. exact B.
Qed.

Lemma next_due_when di now r :
  next_due di now (Ret r) =
  (let t := n_add (or_num r di) now in
   if negb (n_eqb t PInf) then Some t else None).
Proof.
  unfold next_due, or_num, n_truthy. rewrite n_add_comm. simpl.
  replace (match r with
           | Some v => if n_eqb v (Fin 0) then di else v
           | None => di
           end) with (match r with
           | Some v => if negb (n_eqb v (Fin 0)) then v else di
           | None => di
           end) by (destruct r as [v|]; auto; destruct (n_eqb v (Fin 0)); auto).
  destruct (n_eqb _ PInf); reflexivity.
Qed.

Section U2.
Context {W : Type} (u : user W) (Hf : forward_only u).

Lemma no_exc_app t1 t2 : no_exc (t1 ++ t2) <-> no_exc t1 /\ no_exc t2.
Proof. unfold no_exc. rewrite forallb_app, andb_true_iff. tauto. Qed.

Lemma acts_app t1 t2 : acts (t1 ++ t2) = acts t1 ++ acts t2.
Proof. unfold acts. apply flat_map_app. Qed.

Lemma run_bucket_binv_gen b : forall s w s' w' tr x ag,
  run_bucket u (s_time s) b s w = (s', w', tr, x) -> binv b s ag ->
  exists ran rb, b = ran ++ rb /\ binv rb s' (agenda (s_di s) ag tr) /\
  punctual (s_di s) ag tr /\ acts tr = map (pair (s_time s)) ran /\ same_clock s s' /\
  (x = false -> rb = []) /\ (no_exc tr -> x = false).
Proof.
  induction b as [|a b IH]; simpl; intros s w s' w' tr x ag E H.
  - injection E as <- <- <- <-. simpl. exists [], []. auto 10 using same_clock_refl.
  - destruct (u_step u s a w) as [[w1 ops] o] eqn:EU.
    destruct (run_ops s ops) as [s1 tr1] eqn:EO.
    destruct (run_ops_binv _ _ _ _ _ _ EO H) as (H1&P1&A1&C1).
    pose proof (forward_good _ _ _ _ _ _ _ Hf EU) as G.
    assert (s_time s1 = s_time s) as T1 by apply C1.
    assert (s_di s1 = s_di s) as D1 by apply C1.
    destruct (act_binv _ _ _ _ _ H1 G) as [H2 I2].
    rewrite D1, T1 in H2. rewrite T1 in I2.
    assert (forall s2 w2 s3 w3 tr3 x3,
      same_clock s1 s2 ->
      binv b s2 (agenda (s_di s) (agenda (s_di s) ag tr1) [EvAct (s_time s) a o]) ->
      run_bucket u (s_time s) b s2 w2 = (s3, w3, tr3, x3) ->
      exists ran rb, a :: b = ran ++ rb /\
      binv rb s3 (agenda (s_di s) ag ((tr1 ++ [EvAct (s_time s) a o]) ++ tr3))
      /\ punctual (s_di s) ag ((tr1 ++ [EvAct (s_time s) a o]) ++ tr3)
      /\ acts ((tr1 ++ [EvAct (s_time s) a o]) ++ tr3) = map (pair (s_time s)) ran
      /\ same_clock s s3 /\ (x3 = false -> rb = []) /\
      (no_exc ((tr1 ++ [EvAct (s_time s) a o]) ++ tr3) -> x3 = false)) as K.
    { intros s2 w2 s3 w3 tr3 x3 C2 B2 EB.
      assert (s_time s2 = s_time s) as T2 by (destruct C2 as (C2&_); congruence).
      assert (s_di s2 = s_di s) as D2 by (destruct C2 as (_&C2&_); congruence).
      rewrite <- T2 in EB.
      destruct (IH _ _ _ _ _ _ _ EB B2) as (ran&rb&Eb&B3&P3&A3&C3&X3&N3).
      rewrite T2, D2 in *. exists (a :: ran), rb.
      split; [simpl; congruence|]. split; [rewrite !agenda_app; exact B3|].
      split; [rewrite !punctual_app, !agenda_app; simpl; auto|].
      split; [rewrite !acts_app, A1, A3; reflexivity|].
      split; [eauto using same_clock_trans|]. split; [auto|].
      rewrite no_exc_app. tauto. }
    destruct o as [r| |].
    + rewrite D1 in E. set (t := n_add (or_num r (s_di s)) (s_time s)) in *.
      set (s2 := if negb (n_eqb t PInf) then timed_schedule s1 a (Some t) else s1) in *.
      destruct (run_bucket u (s_time s) b s2 w1) as [[[s3 w3] tr3] x3] eqn:EB.
      injection E as <- <- <- <-.
      eapply (K s2); eauto.
      * subst s2. destruct (n_eqb t PInf); simpl; auto using same_clock_refl.
        repeat split.
      * rewrite next_due_when in H2. cbv zeta in H2. fold t in H2. subst s2.
        destruct (n_eqb t PInf); simpl; auto.
    + destruct (run_bucket u (s_time s) b s1 w1) as [[[s3 w3] tr3] x3] eqn:EB.
      injection E as <- <- <- <-.
      eapply (K s1); eauto using same_clock_refl.
    + injection E as <- <- <- <-. exists [a], b. simpl in H2.
      split; [auto|]. split; [rewrite agenda_app; exact H2|].
      split; [rewrite punctual_app; simpl; auto|].
      split; [rewrite acts_app, A1; reflexivity|].
      split; [auto|]. split; [discriminate|].
      rewrite no_exc_app. intros [_ N]. discriminate N.
Qed.

Lemma run_bucket_binv b s w s' w' tr x ag :
  run_bucket u (s_time s) b s w = (s', w', tr, x) -> binv b s ag -> no_exc tr ->
  x = false /\ binv [] s' (agenda (s_di s) ag tr) /\ punctual (s_di s) ag tr /\
  acts tr = map (pair (s_time s)) b /\ same_clock s s'.
Proof.
  intros E B N. destruct (run_bucket_binv_gen _ _ _ _ _ _ _ _ E B)
    as (ran&rb&Eb&B3&P3&A3&C3&X3&N3).
  specialize (N3 N). specialize (X3 N3). subst rb. rewrite app_nil_r in Eb. subst ran. auto.
Qed.

(** The next instant of the agenda, and the effect of a step, in terms of the agenda. *)
Lemma bucket_head k b q : is_time k = true -> above k q -> bucket_of k ((k, b) :: q) = b.
Proof.
  intros T A. simpl. rewrite n_eqb_refl; auto.
  rewrite (above_bucket _ _ _ A); auto using n_leb_refl. now rewrite app_nil_r.
Qed.

Lemma timed_step_inv s w s' w' tr x ag :
  (s_shuffle s = true -> fair_shuffle u) ->
  timed_step u s w = (s', w', tr, x) -> inv s ag -> no_exc tr ->
  x = false /\ inv s' (agenda (s_di s) ag tr) /\ punctual (s_di s) ag tr.
Proof.
  intros FS E H NE. pose proof H as (HW&HT&HB). unfold timed_step in E.
  assert (is_time (s_time s) = true) as T by apply nonneg_is_time, HW.
  destruct (s_queue s) as [|[k b] q] eqn:EQ.
  - injection E as <- <- <- <-. simpl. auto.
  - assert (n_leb (s_time s) k = true /\ b <> [] /\ above k q) as (L&B&A).
    { destruct HW as (_&_&HW). rewrite EQ in HW. exact HW. }
    assert (is_time k = true) as Tk by (eapply n_leb_is_time; eauto).
    destruct (n_ltb (s_time s) k) eqn:LT.
    + injection E as <- <- <- <-. simpl. split; [auto|split; [|auto]].
      destruct HW as (H1&H2&H3).
      split; [|split; [auto|intros; simpl; rewrite EQ; auto]].
      split; [|split; [auto|]]; simpl.
      * unfold nonneg. eapply n_leb_trans; [exact H1|exact L].
      * rewrite EQ. simpl. auto using n_leb_refl.
    + assert (k = s_time s) as ->.
      { apply n_leb_antisym; auto. apply n_total; auto. }
      destruct (if s_shuffle s then u_shuffle u b w else (w, b)) as [w0 b0] eqn:ESH.
      assert (Permutation b b0) as PB.
      { destruct (s_shuffle s).
        - specialize (FS eq_refl b w). rewrite ESH in FS. exact FS.
        - injection ESH as <- <-. auto. }
      set (s0 := set_queue s q) in *.
      assert (binv b0 s0 ag) as B0.
      { split; [|split; [auto|split]].
        - destruct HW as (H1&H2&H3). repeat split; auto. simpl. apply above_wfq; auto.
        - exists b. split; auto. simpl. rewrite HB; auto.
          rewrite (above_bucket _ _ _ A); auto using n_leb_refl.
          rewrite app_nil_r. apply bucket_head; auto.
        - intros k' Tk' N. simpl in *. rewrite HB; auto. simpl.
          destruct (n_eqb (s_time s) k') eqn:E'; auto.
          apply n_eqb_eq in E'; subst. rewrite n_eqb_refl in N; congruence. }
      destruct (run_bucket u (s_time s) b0 s0 w0) as [[[s1 w1] tr1] x1] eqn:EB.
      assert (tr1 = tr) as ->.
      { destruct x1; [|simpl in E; destruct (s_queue s1) as [|[? ?] ?]];
        injection E as _ _ E _; auto. }
      destruct (run_bucket_binv _ _ _ _ _ _ _ _ EB B0 NE) as (X&B1&P1&_&C1).
      simpl in *. subst x1. destruct C1 as (C1&C2&_). simpl in C1, C2.
      apply binv_inv in B1. destruct B1 as (H1&H2&H3). destruct H1 as (I1&I2&I3).
      destruct (s_queue s1) as [|[t b1] q1] eqn:EQ1.
      * injection E as <- <- <-. split; [auto|split; [|auto]].
        split; [|split; [auto|]]; simpl.
        -- repeat split; simpl; auto. rewrite EQ1. simpl; auto.
        -- intros. rewrite EQ1. auto.
      * injection E as <- <- <-. split; [auto|split; [|auto]].
        simpl in I3. destruct I3 as (J1&J2&J3). rewrite C1 in *.
        assert (is_time t = true) as Tt by (eapply n_leb_is_time; eauto).
        split; [|split; [auto|]]; simpl.
        -- repeat split; simpl; auto using n_leb_refl.
           ++ unfold nonneg. eapply n_leb_trans; [exact I1|exact J1].
           ++ rewrite EQ1. simpl. auto using n_leb_refl.
        -- intros. rewrite EQ1. auto.
Qed.

Lemma run_cmd_inv c s w s' w' tr ag :
  (s_shuffle s = true -> fair_shuffle u) ->
  run_cmd u s w c = (s', w', tr) -> inv s ag -> no_exc tr ->
  inv s' (agenda (s_di s) ag tr) /\ punctual (s_di s) ag tr.
Proof.
  intros FS E H NE. destruct c as [|a when|a|f]; cbn [run_cmd] in E.
  - destruct (timed_step u s w) as [[[s1 w1] tr1] x1] eqn:ES. injection E as <- <- <-.
    eapply timed_step_inv; eauto.
  - destruct (run_op s (SAdd a when)) as [s1 tr1] eqn:EO. injection E as <- <- <-.
    destruct (run_op_binv _ _ _ _ _ _ EO (inv_binv _ _ H)) as (H1&P1&_).
    auto using binv_inv.
  - destruct (run_op s (SRem a)) as [s1 tr1] eqn:EO. injection E as <- <- <-.
    destruct (run_op_binv _ _ _ _ _ _ EO (inv_binv _ _ H)) as (H1&P1&_).
    auto using binv_inv.
  - injection E as <- <- <-. simpl; auto.
Qed.

Lemma run_bucket_shuffle b : forall now s w s' w' tr x,
  run_bucket u now b s w = (s', w', tr, x) -> s_shuffle s' = s_shuffle s /\ s_di s' = s_di s.
Proof.
  assert (forall ops s s' tr, run_ops s ops = (s', tr) ->
          s_shuffle s' = s_shuffle s /\ s_di s' = s_di s) as K.
  { induction ops as [|op ops IH]; simpl; intros s s' tr E.
    - injection E as <- <-; auto.
    - destruct op as [a when|a]; simpl in E.
      + destruct (run_ops (timed_add s a when) ops) as [s2 e2] eqn:E2.
        injection E as <- <-. destruct (timed_add_clock s a when) as (_&C1&C2&_).
        destruct (IH _ _ _ E2). split; congruence.
      + destruct (run_ops (reg_rem s a) ops) as [s2 e2] eqn:E2. injection E as <- <-.
        destruct (IH _ _ _ E2). auto. }
  induction b as [|a b IH]; simpl; intros now s w s' w' tr x E.
  - injection E as <- <- <- <-; auto.
  - destruct (u_step u s a w) as [[w1 ops] o].
    destruct (run_ops s ops) as [s1 tr1] eqn:EO. apply K in EO.
    destruct o as [r| |].
    + match type of E with context [run_bucket u now b ?s2 w1] =>
        destruct (run_bucket u now b s2 w1) as [[[s3 w3] tr3] x3] eqn:EB end.
      injection E as <- <- <- <-. apply IH in EB.
      destruct (negb _) in EB; simpl in EB; intuition congruence.
    + destruct (run_bucket u now b s1 w1) as [[[s3 w3] tr3] x3] eqn:EB.
      injection E as <- <- <- <-. apply IH in EB. intuition congruence.
    + injection E as <- <- <- <-. auto.
Qed.

Lemma run_cmd_shuffle c s w s' w' tr : run_cmd u s w c = (s', w', tr) ->
  s_shuffle s' = s_shuffle s /\ s_di s' = s_di s.
Proof.
  intros E. destruct c as [|a when|a|f]; cbn [run_cmd run_op] in E.
  - unfold timed_step in E. destruct (s_queue s) as [|[k b] q].
    + injection E as <- <- <-; auto.
    + destruct (n_ltb (s_time s) k).
      * injection E as <- <- <-; auto.
      * destruct (if s_shuffle s then u_shuffle u b w else (w, b)) as [w0 b0].
        destruct (run_bucket u (s_time s) b0 (set_queue s q) w0) as [[[s1 w1] tr1] x1] eqn:EB.
        apply run_bucket_shuffle in EB. simpl in EB. destruct x1.
        -- injection E as <- <- <-; auto.
        -- injection E as <- <- <-. simpl.
           destruct (s_queue s1) as [|[? ?] ?]; simpl; auto.
  - injection E as <- <- <-. destruct (timed_add_clock s a when) as (_&C1&C2&_). auto.
  - injection E as <- <- <-. auto.
  - injection E as <- <- <-. auto.
Qed.

Lemma run_hist_inv h : forall s w s' w' tr ag,
  (s_shuffle s = true -> fair_shuffle u) ->
  run_hist u h s w = (s', w', tr) -> inv s ag -> no_exc tr ->
  inv s' (agenda (s_di s) ag tr) /\ punctual (s_di s) ag tr /\
  s_shuffle s' = s_shuffle s /\ s_di s' = s_di s.
Proof.
  induction h as [|c h IH]; simpl; intros s w s' w' tr ag FS E H NE.
  - injection E as <- <- <-. simpl; auto.
  - destruct (run_cmd u s w c) as [[s1 w1] tr1] eqn:E1.
    destruct (run_hist u h s1 w1) as [[s2 w2] tr2] eqn:E2. injection E as <- <- <-.
    apply no_exc_app in NE. destruct NE as [NE1 NE2].
    destruct (run_cmd_inv _ _ _ _ _ _ _ FS E1 H NE1) as [H1 P1].
    destruct (run_cmd_shuffle _ _ _ _ _ _ E1) as [S1 D1].
    rewrite <- S1 in FS.
    destruct (IH _ _ _ _ _ _ FS E2 H1 NE2) as (H2&P2&S2&D2). rewrite D1 in *.
    rewrite agenda_app, punctual_app. repeat split; auto; try apply H2; congruence.
Qed.
End U2.

Lemma inv_init sh di : nonneg di = true -> inv (timed_init sh di) [].
Proof. intros; repeat split; auto. constructor. Qed.

Lemma inv_not_late s ag : inv s ag -> forall t a, In (t, a) ag -> n_leb (s_time s) t = true.
Proof.
  intros (H1&H2&H3) t a I.
  assert (is_time t = true) as T.
  { unfold times_ok in H2. rewrite Forall_forall in H2. apply (H2 _ I). }
  assert (is_time (s_time s) = true) as Ts by apply nonneg_is_time, H1.
  destruct (n_ltb t (s_time s)) eqn:L; [|apply n_total; auto].
  apply in_due_at in I; auto. rewrite H3 in I; auto.
  rewrite (wfq_bucket_lt _ _ _ (proj2 (proj2 H1)) L) in I. contradiction.
Qed.

Lemma agenda_punctual W (u : user W) sh di h w s' w' tr :
  forward_only u -> (sh = true -> fair_shuffle u) -> nonneg di = true ->
  run_hist u h (timed_init sh di) w = (s', w', tr) -> no_exc tr ->
  punctual di [] tr /\
  forall t a, In (t, a) (agenda di [] tr) -> n_leb (s_time s') t = true.
Proof.
  intros F FS D E NE.
  destruct (run_hist_inv u F h (timed_init sh di) w s' w' tr [] FS E (inv_init _ _ D) NE) as (H&P&_).
  split; auto. apply inv_not_late. exact H.
Qed.

(** From the agenda to the timetable of one agent. *)

Definition due_of (a : aid) (ag : list (num * aid)) : list num :=
  map fst (filter (fun p => Nat.eqb a (snd p)) ag).

Lemma due_of_app a l1 l2 : due_of a (l1 ++ l2) = due_of a l1 ++ due_of a l2.
Proof. unfold due_of. now rewrite filter_app, map_app. Qed.

Lemma due_of_remove1_other a t b ag : a <> b -> due_of a (remove1 (t, b) ag) = due_of a ag.
Proof.
  intros N. induction ag as [|[t' c] ag IH]; simpl; auto.
  unfold due_eqb; simpl. destruct (n_eqb t t' && Nat.eqb b c) eqn:E.
  - apply andb_true_iff in E. destruct E as [_ E]. apply Nat.eqb_eq in E; subst c.
    unfold due_of; simpl. destruct (Nat.eqb a b) eqn:E2; auto.
    apply Nat.eqb_eq in E2; congruence.
  - unfold due_of in *; simpl. destruct (Nat.eqb a c); simpl; congruence.
Qed.

Lemma due_of_remove1 a t ag : is_time t = true -> In (t, a) ag -> due_of a ag = [t] ->
  due_of a (remove1 (t, a) ag) = [].
Proof.
  intros T. induction ag as [|[t' c] ag IH]; simpl; [tauto|].
  unfold due_eqb; simpl. intros I E.
  destruct (Nat.eqb a c) eqn:Ec.
  - unfold due_of in E; simpl in E. rewrite Ec in E. simpl in E. injection E as E1 E2.
    subst t'. rewrite n_eqb_refl; auto.
  - rewrite andb_false_r. unfold due_of in *; simpl in *. rewrite Ec in *. simpl.
    apply IH; auto. destruct I as [I|I]; auto. injection I as -> ->.
    rewrite Nat.eqb_refl in Ec; discriminate.
Qed.

Lemma due_of_in a t ag : In (t, a) ag -> In t (due_of a ag).
Proof.
  intros I. unfold due_of. apply in_map_iff. exists (t, a). split; auto.
  apply filter_In. split; auto. simpl. apply Nat.eqb_refl.
Qed.

Lemma opt_due_of a b t : due_of a (opt_due b t) =
  if Nat.eqb a b then match t with Some t => [t] | None => [] end else [].
Proof.
  destruct t; unfold due_of; simpl; destruct (Nat.eqb a b); auto.
Qed.

(** No pending appointment, no addition: no activation. *)
Lemma timetable_none di a tr : forall ag,
  punctual di ag tr -> due_of a ag = [] -> adds_of a tr = 0%nat ->
  filter (about a) tr = [] /\ due_of a (agenda di ag tr) = [].
Proof.
  induction tr as [|e tr IH]; simpl; intros ag P D A; [auto|].
  unfold adds_of in *. destruct e as [t b|t b o]; simpl in *.
  - destruct (Nat.eqb a b) eqn:E; simpl in *; [discriminate|].
    apply IH; auto. rewrite due_of_app, D. unfold due_of; simpl. now rewrite E.
  - destruct P as [I P]. destruct (Nat.eqb a b) eqn:E; simpl.
    + apply Nat.eqb_eq in E; subst b. apply due_of_in in I. rewrite D in I. contradiction.
    + apply IH; auto. rewrite due_of_app, opt_due_of, E, app_nil_r.
      rewrite due_of_remove1_other; auto. apply Nat.eqb_neq in E; auto.
Qed.

(** One pending appointment, no addition: the timetable. *)
Lemma timetable_one di a tr : forall ag due,
  times_ok ag -> is_time due = true ->
  punctual di ag tr -> due_of a ag = [due] -> adds_of a tr = 0%nat ->
  (forall t b, In (EvAdd t b) tr -> is_time t = true) ->
  (forall t b o t', In (EvAct t b o) tr -> next_due di t o = Some t' -> is_time t' = true) ->
  exists pend, timetable di a due (filter (about a) tr) pend /\
    due_of a (agenda di ag tr) = match pend with Some t => [t] | None => [] end.
Proof.
  induction tr as [|e tr IH]; simpl; intros ag due TO T P D A HA HN.
  - exists (Some due). split; auto. constructor.
  - unfold adds_of in *. destruct e as [t b|t b o]; simpl in *.
    + destruct (Nat.eqb a b) eqn:E; simpl in *; [discriminate|].
      apply (IH (ag ++ [(t, b)]) due); auto.
      * apply Forall_app; split; auto. repeat constructor. simpl. eauto.
      * rewrite due_of_app, D. unfold due_of; simpl. now rewrite E.
      * intros; eauto.
      * intros; eauto.
    + destruct P as [I P].
      assert (times_ok (remove1 (t, b) ag ++ opt_due b (next_due di t o))) as TO'.
      { apply Forall_app; split; [apply remove1_times; auto|].
        destruct (next_due di t o) as [t'|] eqn:ND; simpl; auto.
        repeat constructor; simpl. eauto. }
      destruct (Nat.eqb a b) eqn:E; simpl.
      * apply Nat.eqb_eq in E; subst b.
        assert (t = due) as ->.
        { pose proof (due_of_in _ _ _ I) as I'. rewrite D in I'.
          destruct I' as [->|[]]; auto. }
        assert (due_of a (remove1 (due, a) ag ++ opt_due a (next_due di due o)) =
                match next_due di due o with Some t => [t] | None => [] end) as D'.
        { rewrite due_of_app, due_of_remove1, opt_due_of, Nat.eqb_refl; auto. }
        destruct (next_due di due o) as [t'|] eqn:ND.
        -- destruct (IH _ t' TO' (HN _ _ _ _ (or_introl eq_refl) ND) P D' A) as (pend&TT&DD).
           ++ intros; eauto.
           ++ intros; eauto.
           ++ exists pend. split; auto. econstructor; eauto.
        -- destruct (timetable_none di a tr _ P D' A) as [F1 F2].
           exists None. rewrite F1. split; auto. constructor; auto.
      * apply (IH _ due); auto.
        -- rewrite due_of_app, opt_due_of, E, app_nil_r.
           rewrite due_of_remove1_other; auto. apply Nat.eqb_neq in E; auto.
        -- intros; eauto.
        -- intros; eauto.
Qed.

Lemma timetable_added di a tr : forall ag,
  times_ok ag -> punctual di ag tr -> due_of a ag = [] -> adds_of a tr = 1%nat ->
  (forall t b, In (EvAdd t b) tr -> is_time t = true) ->
  (forall t b o t', In (EvAct t b o) tr -> next_due di t o = Some t' -> is_time t' = true) ->
  exists t0 rest pend, filter (about a) tr = EvAdd t0 a :: rest /\
    timetable di a t0 rest pend /\
    due_of a (agenda di ag tr) = match pend with Some t => [t] | None => [] end.
Proof.
  induction tr as [|e tr IH]; simpl; intros ag TO P D A HA HN; [discriminate|].
  unfold adds_of in *. destruct e as [t b|t b o]; simpl in *.
  - assert (times_ok (ag ++ [(t, b)])) as TO'.
    { apply Forall_app; split; auto. repeat constructor. simpl. eauto. }
    destruct (Nat.eqb a b) eqn:E; simpl in *.
    + apply Nat.eqb_eq in E; subst b. injection A as A.
      destruct (timetable_one di a tr (ag ++ [(t, a)]) t) as (pend&TT&DD); auto.
      * eauto.
      * rewrite due_of_app, D. unfold due_of; simpl. now rewrite Nat.eqb_refl.
      * intros; eauto.
      * intros; eauto.
      * exists t, (filter (about a) tr), pend. auto.
    + apply IH; auto.
      * rewrite due_of_app, D. unfold due_of; simpl. now rewrite E.
      * intros; eauto.
      * intros; eauto.
  - destruct P as [I P].
    assert (times_ok (remove1 (t, b) ag ++ opt_due b (next_due di t o))) as TO'.
    { apply Forall_app; split; [apply remove1_times; auto|].
      destruct (next_due di t o) as [t'|] eqn:ND; simpl; auto.
      repeat constructor; simpl. eauto. }
    destruct (Nat.eqb a b) eqn:E; simpl.
    + apply Nat.eqb_eq in E; subst b. apply due_of_in in I. rewrite D in I. contradiction.
    + apply IH; auto.
      * rewrite due_of_app, opt_due_of, E, app_nil_r.
        rewrite due_of_remove1_other; auto. apply Nat.eqb_neq in E; auto.
      * intros; eauto.
      * intros; eauto.
Qed.

(** All instants of a trace are proper. *)
Definition ev_ok (e : ev) : Prop :=
  match e with
  | EvAdd t _ => is_time t = true
  | EvAct t _ o => is_time t = true /\ good_delay o
  end.

Section U3.
Context {W : Type} (u : user W) (Hf : forward_only u).

Lemma run_ops_evok ops : forall s s' tr, run_ops s ops = (s', tr) -> winv s -> Forall ev_ok tr.
Proof.
  induction ops as [|op ops IH]; simpl; intros s s' tr E H.
  - injection E as <- <-. auto.
  - destruct (run_op s op) as [s1 e1] eqn:E1.
    destruct (run_ops s1 ops) as [s2 e2] eqn:E2. injection E as <- <-.
    destruct (run_op_winv _ _ _ _ E1 H) as [H1 C1].
    apply Forall_app. split; eauto.
    destruct op; simpl in E1; injection E1 as <- <-; auto.
    repeat constructor. simpl. apply nonneg_is_time, H.
Qed.

Lemma run_bucket_evok b : forall s w s' w' tr x,
  run_bucket u (s_time s) b s w = (s', w', tr, x) -> winv s -> Forall ev_ok tr.
Proof.
  induction b as [|a b IH]; simpl; intros s w s' w' tr x E H.
  - injection E as <- <- <- <-. auto.
  - destruct (u_step u s a w) as [[w1 ops] o] eqn:EU.
    destruct (run_ops s ops) as [s1 tr1] eqn:EO.
    destruct (run_ops_winv _ _ _ _ EO H) as [H1 C1].
    pose proof (run_ops_evok _ _ _ _ EO H) as V1.
    pose proof (forward_good _ _ _ _ _ _ _ Hf EU) as G.
    assert (s_time s1 = s_time s) as T1 by apply C1.
    assert (Forall ev_ok (tr1 ++ [EvAct (s_time s) a o])) as V2.
    { apply Forall_app; split; auto. repeat constructor; auto.
      apply nonneg_is_time, H. }
    destruct o as [r| |].
    + set (t := n_add (or_num r (s_di s1)) (s_time s)) in *.
      set (s2 := if negb (n_eqb t PInf) then timed_schedule s1 a (Some t) else s1) in *.
      assert (winv s2 /\ same_clock s1 s2) as [H2 C2].
      { subst s2. destruct (n_eqb t PInf); simpl; auto using same_clock_refl.
        destruct (timed_schedule_winv s1 a t H1) as (A&B&_); auto.
        rewrite T1. subst t. rewrite n_add_comm. apply n_add_leb.
        - apply nonneg_is_time, H.
        - apply or_num_nonneg; auto. apply H1. }
      destruct (run_bucket u (s_time s) b s2 w1) as [[[s3 w3] tr3] x3] eqn:EB.
      injection E as <- <- <- <-.
      assert (s_time s2 = s_time s) as T2 by (destruct C2 as (C2&_); congruence).
      rewrite <- T2 in EB. apply Forall_app; split; eauto.
    + destruct (run_bucket u (s_time s) b s1 w1) as [[[s3 w3] tr3] x3] eqn:EB.
      injection E as <- <- <- <-. rewrite <- T1 in EB. apply Forall_app; split; eauto.
    + injection E as <- <- <- <-. auto.
Qed.

Lemma run_cmd_evok c s w s' w' tr : run_cmd u s w c = (s', w', tr) -> winv s ->
  Forall ev_ok tr.
Proof.
  intros E H. assert (is_time (s_time s) = true) as T by apply nonneg_is_time, H.
  destruct c as [|a when|a|f]; cbn [run_cmd run_op] in E.
  - unfold timed_step in E. destruct (s_queue s) as [|[k b] q] eqn:EQ.
    + injection E as <- <- <-; auto.
    + destruct (n_ltb (s_time s) k) eqn:LT.
      * injection E as <- <- <-; auto.
      * destruct (if s_shuffle s then u_shuffle u b w else (w, b)) as [w0 b0].
        set (s0 := set_queue s q) in *.
        assert (winv s0) as H0.
        { destruct H as (H1&H2&H3). rewrite EQ in H3. destruct H3 as (L&_&A).
          repeat split; auto. simpl. eapply wfq_weaken; eauto using above_wfq. }
        destruct (run_bucket u (s_time s) b0 s0 w0) as [[[s1 w1] tr1] x1] eqn:EB.
        pose proof (run_bucket_evok _ _ _ _ _ _ _ EB H0).
        destruct x1; injection E as <- <- <-; auto.
  - injection E as <- <- <-. repeat constructor. auto.
  - injection E as <- <- <-. auto.
  - injection E as <- <- <-. auto.
Qed.

Lemma run_hist_evok h : forall s w s' w' tr, run_hist u h s w = (s', w', tr) -> winv s ->
  Forall ev_ok tr.
Proof.
  induction h as [|c h IH]; simpl; intros s w s' w' tr E H.
  - injection E as <- <- <-. auto.
  - destruct (run_cmd u s w c) as [[s1 w1] tr1] eqn:E1.
    destruct (run_hist u h s1 w1) as [[s2 w2] tr2] eqn:E2. injection E as <- <- <-.
    destruct (run_cmd_winv u Hf _ _ _ _ _ _ E1 H) as (H1&_).
    apply Forall_app; split; eauto using run_cmd_evok.
Qed.
End U3.

Lemma evok_next_due di t a o t' : nonneg di = true -> ev_ok (EvAct t a o) ->
  next_due di t o = Some t' -> is_time t' = true.
Proof.
  intros D [T G] E. destruct o as [r| |]; try discriminate.
  rewrite next_due_when in E. cbv zeta in E.
  destruct (n_eqb _ PInf); inversion E; subst. rewrite n_add_comm.
  apply n_add_time; auto. apply or_num_nonneg; auto.
Qed.

Lemma exact_wakeup W (u : user W) sh di h w s' w' tr a :
  forward_only u -> (sh = true -> fair_shuffle u) -> nonneg di = true ->
  run_hist u h (timed_init sh di) w = (s', w', tr) -> no_exc tr ->
  adds_of a tr = 1%nat ->
  exists t0 rest pend,
    filter (about a) tr = EvAdd t0 a :: rest /\
    timetable di a t0 rest pend /\
    match pend with Some t => n_leb (s_time s') t = true | None => True end.
Proof.
  intros F FS D E NE A.
  destruct (run_hist_inv u F h (timed_init sh di) w s' w' tr [] FS E (inv_init _ _ D) NE)
    as (H&P&_). simpl in H, P.
  pose proof (run_hist_evok u F h _ _ _ _ _ E (winv_init _ _ D)) as V.
  rewrite Forall_forall in V.
  destruct (timetable_added di a tr []) as (t0&rest&pend&F1&TT&DD); auto.
  - constructor.
  - intros t b I. exact (V _ I).
  - intros t b o t' I ND. eapply evok_next_due; eauto.
  - exists t0, rest, pend. split; [auto|split; [auto|]].
    destruct pend as [t|]; auto.
    apply (inv_not_late _ _ H t a).
    assert (In t (due_of a (agenda di [] tr))) as I by (rewrite DD; left; auto).
    unfold due_of in I. apply in_map_iff in I. destruct I as [[t1 a1] [E1 I]].
    apply filter_In in I. destruct I as [I E2]. simpl in *.
    apply Nat.eqb_eq in E2. subst. exact I.
Qed.

(** ** The effect of one step, in terms of the agenda *)

Lemma bucket_nonempty_in k q : is_time k = true -> bucket_of k q <> [] ->
  exists b, In (k, b) q.
Proof.
  intros T. induction q as [|[k' b] q IH]; simpl; [congruence|].
  destruct (n_eqb k' k) eqn:E.
  - apply n_eqb_eq in E; subst. eauto.
  - simpl. intros H. destruct (IH H) as [b' I]. eauto.
Qed.

Lemma inv_empty s ag : inv s ag -> s_queue s = [] <-> ag = [].
Proof.
  intros (HW&HT&HB). split; intros E.
  - destruct ag as [|[t a] ag]; auto. exfalso.
    assert (is_time t = true) as T by (inversion HT; auto).
    assert (In a (due_at t ((t, a) :: ag))) as I by (apply in_due_at; simpl; auto).
    rewrite HB, E in I; auto.
  - subst. destruct (s_queue s) as [|[k b] q] eqn:EQ; auto. exfalso.
    destruct HW as (H1&H2&H3). rewrite EQ in H3. destruct H3 as (L&B&A).
    assert (is_time k = true) as T by (eapply n_leb_is_time; [|exact L]; apply nonneg_is_time, H1).
    specialize (HB k T). rewrite bucket_head in HB; auto.
Qed.

Lemma inv_head s ag k b q : inv s ag -> s_queue s = (k, b) :: q ->
  earliest ag k /\ due_at k ag = b.
Proof.
  intros (HW&HT&HB) EQ. destruct HW as (H1&H2&H3). rewrite EQ in H3.
  destruct H3 as (L&B&A).
  assert (is_time k = true) as T by (eapply n_leb_is_time; [|exact L]; apply nonneg_is_time, H1).
  assert (due_at k ag = b) as D by (rewrite HB, EQ by auto; apply bucket_head; auto).
  split; auto. split.
  - destruct b as [|a b]; [congruence|]. exists a. apply in_due_at; auto.
    rewrite D. left; auto.
  - intros t' a I. assert (is_time t' = true) as T'.
    { unfold times_ok in HT. rewrite Forall_forall in HT. apply (HT _ I). }
    apply n_total; auto. destruct (n_ltb t' k) eqn:Lt; auto.
    apply in_due_at in I; auto. rewrite HB, EQ in I; auto. simpl in I.
    rewrite (n_ltb_neq' _ _ Lt) in I. simpl in I.
    rewrite (above_bucket _ _ _ A) in I by auto using n_ltb_leb. contradiction.
Qed.

Section U4.
Context {W : Type} (u : user W) (Hf : forward_only u).

Lemma step_effect s w s' w' tr x ag :
  (s_shuffle s = true -> fair_shuffle u) ->
  timed_step u s w = (s', w', tr, x) -> inv s ag -> no_exc tr ->
  (ag = [] /\ s' = s /\ w' = w /\ tr = []) \/
  (due_at (s_time s) ag = [] /\ earliest ag (s_time s') /\
   n_ltb (s_time s) (s_time s') = true /\
   s_steps s' = s_steps s /\ w' = w /\ tr = []) \/
  (due_at (s_time s) ag <> [] /\
   (exists order, acts tr = map (pair (s_time s)) order /\
      if s_shuffle s then Permutation (due_at (s_time s) ag) order
      else order = due_at (s_time s) ag) /\
   s_steps s' = S (s_steps s) /\
   (agenda (s_di s) ag tr = [] /\ s_time s' = PInf \/
    earliest (agenda (s_di s) ag tr) (s_time s'))).
Proof.
  intros FS E H NE. pose proof H as (HW&HT&HB).
  pose proof (timed_step_inv u Hf _ _ _ _ _ _ _ FS E H NE) as (X&H'&P').
  unfold timed_step in E.
  assert (is_time (s_time s) = true) as T by apply nonneg_is_time, HW.
  destruct (s_queue s) as [|[k b] q] eqn:EQ.
  - injection E as <- <- <- <-. left. apply (inv_empty _ _ H) in EQ. auto.
  - destruct (inv_head _ _ _ _ _ H EQ) as [HE HD].
    assert (n_leb (s_time s) k = true /\ b <> [] /\ above k q) as (L&B&A).
    { destruct HW as (_&_&HW). rewrite EQ in HW. exact HW. }
    assert (is_time k = true) as Tk by (eapply n_leb_is_time; eauto).
    destruct (n_ltb (s_time s) k) eqn:LT.
    + injection E as <- <- <- <-. right; left. simpl. repeat split; auto; try apply HE.
      rewrite HB; auto. simpl. rewrite (n_ltb_neq' _ _ LT). simpl.
      apply (above_bucket k); auto.
    + assert (k = s_time s) as ->.
      { apply n_leb_antisym; auto. apply n_total; auto. }
      right; right. split; [congruence|].
      destruct (if s_shuffle s then u_shuffle u b w else (w, b)) as [w0 b0] eqn:ESH.
      set (s0 := set_queue s q) in *.
      assert (Permutation b b0) as PB.
      { destruct (s_shuffle s).
        - specialize (FS eq_refl b w). rewrite ESH in FS. exact FS.
        - injection ESH as <- <-. auto. }
      assert (binv b0 s0 ag) as B0.
      { split; [|split; [auto|split]].
        - destruct HW as (H1&H2&H3). repeat split; auto. simpl. apply above_wfq; auto.
        - exists b. split; auto. simpl. rewrite HB; auto.
          rewrite (above_bucket _ _ _ A); auto using n_leb_refl.
          rewrite app_nil_r. apply bucket_head; auto.
        - intros k' Tk' N. simpl in *. rewrite HB; auto. simpl.
          destruct (n_eqb (s_time s) k') eqn:E'; auto.
          apply n_eqb_eq in E'; subst. rewrite n_eqb_refl in N; congruence. }
      destruct (run_bucket u (s_time s) b0 s0 w0) as [[[s1 w1] tr1] x1] eqn:EB.
      assert (tr1 = tr) as ->.
      { destruct x1; [|simpl in E; destruct (s_queue s1) as [|[? ?] ?]];
        injection E as _ _ E _; auto. }
      destruct (run_bucket_binv u Hf _ _ _ _ _ _ _ _ EB B0 NE) as (X1&B1&P1&A1&C1).
      subst x1. simpl in A1. destruct C1 as (C1&C2&C3&C4). simpl in C4.
      split; [|split].
      * exists b0. split; auto. rewrite HD. destruct (s_shuffle s); auto.
        injection ESH as _ <-. auto.
      * injection E as <- _ _. simpl. destruct (s_queue s1) as [|[? ?] ?]; simpl; auto.
      * simpl in E. destruct (s_queue s1) as [|[t b1] q1] eqn:EQ1.
        -- injection E as <- _ _. left. split; auto.
           apply (inv_empty _ _ H'). simpl. auto.
        -- injection E as <- _ _. right. simpl.
           apply (inv_head _ _ t b1 q1 H'). simpl. auto.
Qed.

(** After a crash: the appointments at other instants survive. *)
Lemma crash_inv s w s' w' tr ag :
  (s_shuffle s = true -> fair_shuffle u) ->
  timed_step u s w = (s', w', tr, true) -> inv s ag ->
  exists ag', inv s' ag' /\
    forall k, is_time k = true -> n_eqb k (s_time s) = false ->
      due_at k ag' = due_at k (agenda (s_di s) ag tr).
Proof.
  intros FS E H. pose proof H as (HW&HT&HB). unfold timed_step in E.
  assert (is_time (s_time s) = true) as T by apply nonneg_is_time, HW.
  destruct (s_queue s) as [|[k b] q] eqn:EQ; [discriminate|].
  assert (n_leb (s_time s) k = true /\ b <> [] /\ above k q) as (L&B&A).
  { destruct HW as (_&_&HW). rewrite EQ in HW. exact HW. }
  assert (is_time k = true) as Tk by (eapply n_leb_is_time; eauto).
  destruct (n_ltb (s_time s) k) eqn:LT; [discriminate|].
  assert (k = s_time s) as ->.
  { apply n_leb_antisym; auto. apply n_total; auto. }
  destruct (if s_shuffle s then u_shuffle u b w else (w, b)) as [w0 b0] eqn:ESH.
  set (s0 := set_queue s q) in *.
  assert (Permutation b b0) as PB.
  { destruct (s_shuffle s).
    - specialize (FS eq_refl b w). rewrite ESH in FS. exact FS.
    - injection ESH as <- <-. auto. }
  assert (binv b0 s0 ag) as B0.
  { split; [|split; [auto|split]].
    - destruct HW as (H1&H2&H3). repeat split; auto. simpl. apply above_wfq; auto.
    - exists b. split; auto. simpl. rewrite HB; auto.
      rewrite (above_bucket _ _ _ A); auto using n_leb_refl.
      rewrite app_nil_r. apply bucket_head; auto.
    - intros k' Tk' N. simpl in *. rewrite HB; auto. simpl.
      destruct (n_eqb (s_time s) k') eqn:E'; auto.
      apply n_eqb_eq in E'; subst. rewrite n_eqb_refl in N; congruence. }
  destruct (run_bucket u (s_time s) b0 s0 w0) as [[[s1 w1] tr1] x1] eqn:EB.
  destruct (run_bucket_binv_gen u Hf _ _ _ _ _ _ _ _ EB B0)
    as (ran&rb&Eb&B1&P1&A1&C1&_&_). simpl in *.
  destruct x1; [|discriminate]. injection E as <- <- <-.
  destruct B1 as (H1&H2&_&H4). destruct C1 as (C1&C2&_). simpl in *. rewrite C1 in *.
  set (AG := agenda (s_di s) ag tr1) in *.
  exists (filter (fun p => negb (n_eqb (fst p) (s_time s))) AG ++
          map (pair (s_time s)) (bucket_of (s_time s) (s_queue s1))).
  assert (forall l k, n_eqb (s_time s) k = false -> due_at k (map (pair (s_time s)) l) = []) as Z1.
  { induction l as [|c l IH]; intros k Ek; auto. unfold due_at in *; simpl. rewrite Ek. auto. }
  assert (forall l, due_at (s_time s) (map (pair (s_time s)) l) = l) as Z2.
  { induction l as [|c l IH]; auto. unfold due_at in *; simpl. rewrite n_eqb_refl; auto.
    simpl. congruence. }
  assert (forall l, due_at (s_time s)
     (filter (fun p => negb (n_eqb (fst p) (s_time s))) l) = []) as Z3.
  { induction l as [|[t c] l IH]; auto. simpl. destruct (n_eqb t (s_time s)) eqn:E; simpl; auto.
    unfold due_at in *; simpl. rewrite E. auto. }
  assert (forall l k, is_time k = true -> n_eqb k (s_time s) = false -> due_at k
     (filter (fun p => negb (n_eqb (fst p) (s_time s))) l) = due_at k l) as Z4.
  { induction l as [|[t c] l IH]; intros k T' N; auto. simpl.
    destruct (n_eqb t (s_time s)) eqn:E; simpl.
    - rewrite IH; auto. unfold due_at; simpl.
      destruct (n_eqb t k) eqn:E'; auto. apply n_eqb_eq in E. apply n_eqb_eq in E'.
      assert (k = s_time s) as Ek by congruence. rewrite Ek in N.
      rewrite n_eqb_refl in N; congruence.
    - specialize (IH k T' N). unfold due_at in *; simpl. destruct (n_eqb t k); simpl; congruence. }
  assert (forall k, is_time k = true -> n_eqb k (s_time s) = false -> n_eqb (s_time s) k = false) as SY.
  { intros k T' N. destruct (n_eqb (s_time s) k) eqn:E'; auto.
    apply n_eqb_eq in E'. subst. rewrite n_eqb_refl in N; congruence. }
  split.
  - split; [auto|split].
    + apply Forall_app; split.
      * unfold times_ok in H2. rewrite Forall_forall in *. intros p I. apply filter_In in I.
        apply H2, I.
      * rewrite Forall_forall. intros p I. apply in_map_iff in I. destruct I as (c&<-&_). auto.
    + intros k Tk'. rewrite due_at_app. destruct (n_eqb k (s_time s)) eqn:E.
      * apply n_eqb_eq in E; subst k. rewrite Z3, Z2. reflexivity.
      * rewrite Z4, Z1, app_nil_r; auto.
  - intros k Tk' N. rewrite due_at_app, Z4, Z1, app_nil_r; auto.
Qed.
End U4.

(** ** Exhaustion *)

Lemma step_empty W (u : user W) s w : s_queue s = [] -> timed_step u s w = (s, w, [], false).
Proof. unfold timed_step. intros ->. reflexivity. Qed.

Lemma steps_empty W (u : user W) n s w : s_queue s = [] ->
  run_hist u (repeat CStep n) s w = (s, w, []).
Proof.
  intros Q. induction n as [|n IH]; simpl; auto.
  rewrite step_empty, IH; auto.
Qed.

Lemma insert_not_nil q t a : insert_bucket q t a <> [].
Proof.
  destruct q as [|[k b] q]; simpl; try discriminate.
  destruct (n_eqb k t); try discriminate. destruct (n_ltb t k); discriminate.
Qed.

Lemma run_bucket_exc W (u : user W) now b : forall s w s' w' tr,
  run_bucket u now b s w = (s', w', tr, true) -> no_exc tr -> False.
Proof.
  induction b as [|a b IH]; simpl; intros s w s' w' tr E NE; [discriminate|].
  destruct (u_step u s a w) as [[w4 ops] o].
  destruct (run_ops s ops) as [s4 tr4].
  destruct o as [r| |].
  - match type of E with context [run_bucket u ?n b ?s5 w4] =>
      destruct (run_bucket u n b s5 w4) as [[[s6 w6] tr6] x6] eqn:EB2 end.
    injection E as <- <- <- ->. apply no_exc_app in NE.
    eapply IH; eauto. apply NE.
  - destruct (run_bucket u now b s4 w4) as [[[s6 w6] tr6] x6] eqn:EB2.
    injection E as <- <- <- ->. apply no_exc_app in NE.
    eapply IH; eauto. apply NE.
  - injection E as <- <- <-. apply no_exc_app in NE. destruct NE as [_ N].
    discriminate N.
Qed.

Lemma exhausted_hist W (u : user W) h : forall s w s' w' tr,
  run_hist u h s w = (s', w', tr) -> no_exc tr ->
  s_queue s' = [] -> (s_queue s = [] -> s_time s = PInf) \/ acts tr <> [] ->
  s_time s' = PInf.
Proof.
  induction h as [|c h IH]; simpl; intros s w s' w' tr E NE Q HH.
  - injection E as <- <- <-. destruct HH as [HH|HH]; auto. now elim HH.
  - destruct (run_cmd u s w c) as [[s1 w1] tr1] eqn:E1.
    destruct (run_hist u h s1 w1) as [[s2 w2] tr2] eqn:E2. injection E as <- <- <-.
    apply no_exc_app in NE. destruct NE as [NE1 NE2].
    eapply (IH _ _ _ _ _ E2); auto.
    rewrite acts_app in HH.
    destruct c as [|a when|a|f]; cbn [run_cmd run_op] in E1.
    + unfold timed_step in E1. destruct (s_queue s) as [|[k b] q] eqn:EQ.
      * injection E1 as <- <- <-. simpl in HH. rewrite EQ. tauto.
      * destruct (n_ltb (s_time s) k).
        -- injection E1 as <- <- <-. left. simpl. rewrite EQ. discriminate.
        -- destruct (if s_shuffle s then u_shuffle u b w else (w, b)) as [w0 b0].
           destruct (run_bucket u (s_time s) b0 (set_queue s q) w0)
             as [[[s3 w3] tr3] x3] eqn:EB.
           destruct x3.
           ++ injection E1 as <- <- <-. exfalso.
              eapply run_bucket_exc; eauto.
           ++ injection E1 as <- <- <-. left. simpl.
              destruct (s_queue s3) as [|[? ?] ?] eqn:EQ3; simpl; auto.
              intros; congruence.
    + injection E1 as <- <- <-. left. rewrite timed_add_queue. intros Q1.
      elim (insert_not_nil _ _ _ Q1).
    + injection E1 as <- <- <-. simpl in HH. simpl. tauto.
    + injection E1 as <- <- <-. simpl in HH. tauto.
Qed.

(** ** Statements about whole histories *)

Lemma step_effect_hist W (u : user W) sh di h w s w1 tr s' w2 tr2 x :
  forward_only u -> (sh = true -> fair_shuffle u) -> nonneg di = true ->
  run_hist u h (timed_init sh di) w = (s, w1, tr) -> no_exc tr ->
  timed_step u s w1 = (s', w2, tr2, x) -> no_exc tr2 ->
  let ag := agenda di [] tr in
  (ag = [] /\ s' = s /\ w2 = w1 /\ tr2 = []) \/
  (due_at (s_time s) ag = [] /\ earliest ag (s_time s') /\
   n_ltb (s_time s) (s_time s') = true /\
   s_steps s' = s_steps s /\ w2 = w1 /\ tr2 = []) \/
  (due_at (s_time s) ag <> [] /\
   (exists order, acts tr2 = map (pair (s_time s)) order /\
      if sh then Permutation (due_at (s_time s) ag) order
      else order = due_at (s_time s) ag) /\
   s_steps s' = S (s_steps s) /\
   (agenda di ag tr2 = [] /\ s_time s' = PInf \/
    earliest (agenda di ag tr2) (s_time s'))).
Proof.
  intros F FS D E NE ES NE2 ag.
  destruct (run_hist_inv u F h (timed_init sh di) w s w1 tr [] FS E (inv_init _ _ D) NE)
    as (H&P&S1&D1). simpl in *.
  assert (s_shuffle s = true -> fair_shuffle u) as FS' by (rewrite S1; auto).
  pose proof (step_effect u F _ _ _ _ _ _ _ FS' ES H NE2) as K.
  rewrite S1, D1 in K. exact K.
Qed.

Lemma crash_hist W (u : user W) sh di h w s w1 tr s' w2 tr2 :
  forward_only u -> (sh = true -> fair_shuffle u) -> nonneg di = true ->
  run_hist u h (timed_init sh di) w = (s, w1, tr) -> no_exc tr ->
  timed_step u s w1 = (s', w2, tr2, true) ->
  exists ag',
    (forall k, is_time k = true -> n_eqb k (s_time s) = false ->
      due_at k ag' = due_at k (agenda di [] (tr ++ tr2))) /\
    forall h3 s3 w3 tr3, run_hist u h3 s' w2 = (s3, w3, tr3) -> no_exc tr3 ->
      punctual di ag' tr3 /\
      forall t a, In (t, a) (agenda di ag' tr3) -> n_leb (s_time s3) t = true.
Proof.
  intros F FS D E NE ES.
  destruct (run_hist_inv u F h (timed_init sh di) w s w1 tr [] FS E (inv_init _ _ D) NE)
    as (H&P&S1&D1). simpl in *.
  assert (s_shuffle s = true -> fair_shuffle u) as FS' by (rewrite S1; auto).
  destruct (crash_inv u F _ _ _ _ _ _ FS' ES H) as (ag'&H'&K).
  exists ag'. rewrite D1 in K. split.
  - rewrite agenda_app. exact K.
  - intros h3 s3 w3 tr3 E3 NE3.
    assert (run_cmd u s w1 CStep = (s', w2, tr2)) as EC by (simpl; rewrite ES; reflexivity).
    destruct (run_cmd_shuffle u _ _ _ _ _ _ EC) as [S2 D2].
    assert (s_shuffle s' = true -> fair_shuffle u) as FS2 by (rewrite S2; auto).
    destruct (run_hist_inv u F h3 s' w2 s3 w3 tr3 ag' FS2 E3 H' NE3) as (H3&P3&_).
    rewrite D2, D1 in *. split; auto. apply inv_not_late; auto.
Qed.

Lemma exhausted W (u : user W) sh di h w s w1 tr :
  forward_only u -> (sh = true -> fair_shuffle u) -> nonneg di = true ->
  run_hist u h (timed_init sh di) w = (s, w1, tr) -> no_exc tr ->
  acts tr <> [] -> agenda di [] tr = [] ->
  s_time s = PInf /\
  forall n, run_hist u (repeat CStep n) s w1 = (s, w1, []).
Proof.
  intros F FS D E NE A AG.
  destruct (run_hist_inv u F h (timed_init sh di) w s w1 tr [] FS E (inv_init _ _ D) NE)
    as (H&P&S1&D1). simpl in *. rewrite AG in H.
  assert (s_queue s = []) as Q by (apply (inv_empty _ _ H); auto).
  split.
  - eapply exhausted_hist; eauto.
  - intros n. apply steps_empty; auto.
Qed.

Lemma when_ignored W (u : user W) h1 h2 a when s w :
  run_hist u (h1 ++ CAdd a when :: h2) s w = run_hist u (h1 ++ CAdd a None :: h2) s w.
Proof. rewrite !run_hist_app. reflexivity. Qed.
End Arith.
