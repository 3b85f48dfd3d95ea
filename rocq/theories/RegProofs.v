(** Proofs about the registry of the schedulers. *)
From Coq Require Import ZArith List Bool Arith.
From Verif Require Import Num TimedModel PQueueModel RegSpec.
Import ListNotations.

Lemma registered_app a l1 l2 b : registered a (l1 ++ l2) b = registered a l2 (registered a l1 b).
Proof. revert b. induction l1 as [|[c wh|c] l1 IH]; intros b; cbn; auto. Qed.

Lemma existsb_nat a l : existsb (Nat.eqb a) l = true <-> In a l.
Proof.
  rewrite existsb_exists. split.
  - intros (x & I & E). apply Nat.eqb_eq in E. now subst.
  - intros I. exists a. split; auto. apply Nat.eqb_refl.
Qed.

(** [r] is the registry [r0] changed by the calls. *)
Definition reg_ok (r0 : list aid) (calls : list sop) (r : list aid) : Prop :=
  (NoDup r0 -> NoDup r) /\
  forall a, In a r <-> registered a calls (existsb (Nat.eqb a) r0) = true.

Lemma reg_ok_nil r : reg_ok r [] r.
Proof. split; auto. intros a. cbn. now rewrite existsb_nat. Qed.

Lemma bool_iff (a b : bool) : (a = true <-> b = true) -> a = b.
Proof. destruct a, b; intuition; try (symmetry; tauto); tauto. Qed.

Lemma reg_ok_app r0 c1 r1 c2 r2 : reg_ok r0 c1 r1 -> reg_ok r1 c2 r2 -> reg_ok r0 (c1 ++ c2) r2.
Proof.
  intros (N1 & H1) (N2 & H2). split; [auto|]. intros a. rewrite H2, registered_app.
  assert (E : existsb (Nat.eqb a) r1 = registered a c1 (existsb (Nat.eqb a) r0)).
  { apply bool_iff. now rewrite existsb_nat. }
  now rewrite E.
Qed.

Definition add_to (r : list aid) a := if existsb (Nat.eqb a) r then r else r ++ [a].
Definition rem_from (r : list aid) a := filter (fun b => negb (Nat.eqb a b)) r.

Lemma NoDup_snoc {A} (l : list A) a : NoDup l -> ~ In a l -> NoDup (l ++ [a]).
Proof.
  induction l as [|b l IH]; cbn; intros D N.
  - constructor; auto.
  - inversion_clear D. constructor.
    + rewrite in_app_iff. cbn. intros [I|[E|[]]]; auto.
    + apply IH; auto.
Qed.

Lemma reg_ok_add r a when : reg_ok r [SAdd a when] (add_to r a).
Proof.
  unfold add_to. destruct (existsb (Nat.eqb a) r) eqn:E.
  - split; auto. intros b. cbn. destruct (Nat.eqb_spec b a) as [->|]; cbn.
    + apply existsb_nat in E. tauto.
    + now rewrite existsb_nat.
  - assert (N : ~ In a r) by (intros I; apply existsb_nat in I; congruence).
    split.
    + intros D. now apply NoDup_snoc.
    + intros b. rewrite in_app_iff. cbn. destruct (Nat.eqb_spec b a) as [->|Q]; cbn.
      * tauto.
      * rewrite existsb_nat. intuition congruence.
Qed.

Lemma reg_ok_rem r a : reg_ok r [SRem a] (rem_from r a).
Proof.
  unfold rem_from. split.
  - intros D. now apply NoDup_filter.
  - intros b. rewrite filter_In. cbn. destruct (Nat.eqb_spec b a) as [->|Q]; cbn.
    + rewrite Nat.eqb_refl. cbn. intuition discriminate.
    + rewrite existsb_nat. destruct (Nat.eqb_spec a b); [congruence|]. cbn. tauto.
Qed.

Lemma timed_add_reg s a when : s_reg (timed_add s a when) = add_to (s_reg s) a.
Proof. unfold timed_add, reg_add, add_to. cbn. now destruct (existsb (Nat.eqb a) (s_reg s)). Qed.

Lemma run_op_reg s op s' tr : run_op s op = (s', tr) -> reg_ok (s_reg s) [op] (s_reg s').
Proof.
  destruct op as [a wh|a]; cbn; intros [= <- <-].
  - rewrite timed_add_reg. apply reg_ok_add.
  - apply reg_ok_rem.
Qed.

Lemma run_ops_reg ops : forall s s' tr, run_ops s ops = (s', tr) -> reg_ok (s_reg s) ops (s_reg s').
Proof.
  induction ops as [|op ops IH]; cbn [run_ops]; intros s s' tr.
  - intros [= <- <-]. apply reg_ok_nil.
  - destruct (run_op s op) as [s1 e1] eqn:E1. destruct (run_ops s1 ops) as [s2 e2] eqn:E2.
    intros [= <- <-]. change (op :: ops) with ([op] ++ ops).
    eapply reg_ok_app; [eapply run_op_reg; eauto|eapply IH; eauto].
Qed.

Section Rec.
Context {AR : Arith} {W : Type}.
Variable u : user W.

Lemma run_bucket_reg b : forall now s w c s' w' c' tr x,
  run_bucket (recording u) now b s (w, c) = (s', (w', c'), tr, x) ->
  run_bucket u now b s w = (s', w', tr, x) /\
  exists c1, c' = c ++ c1 /\ reg_ok (s_reg s) c1 (s_reg s').
Proof.
  induction b as [|a b IH]; cbn [run_bucket]; intros now s w c s' w' c' tr x.
  - intros [= <- <- <- <- <-]. split; auto. exists []. rewrite app_nil_r. split; auto.
    apply reg_ok_nil.
  - cbn [recording u_step fst snd]. destruct (u_step u s a w) as [[w1 ops] o].
    destruct (run_ops s ops) as [s1 tr1] eqn:E1. apply run_ops_reg in E1.
    destruct o as [r| |].
    + match goal with |- context [if ?g then timed_schedule _ _ _ else _] =>
        set (s2 := if g then timed_schedule s1 a (Some (n_add (or_num r (s_di s1)) now)) else s1) end.
      assert (R2 : s_reg s2 = s_reg s1).
      { unfold s2. destruct (negb _); reflexivity. }
      destruct (run_bucket (recording u) now b s2 (w1, c ++ ops)) as [[[s3 [w3 c3]] tr3] x3] eqn:E3.
      apply IH in E3 as (-> & c4 & -> & R3). intros [= <- <- <- <- <-].
      split; auto. exists (ops ++ c4). rewrite app_assoc. split; auto.
      eapply reg_ok_app; eauto. now rewrite <- R2.
    + destruct (run_bucket (recording u) now b s1 (w1, c ++ ops)) as [[[s3 [w3 c3]] tr3] x3] eqn:E3.
      apply IH in E3 as (-> & c4 & -> & R3). intros [= <- <- <- <- <-].
      split; auto. exists (ops ++ c4). rewrite app_assoc. split; auto.
      eapply reg_ok_app; eauto.
    + intros [= <- <- <- <- <-]. split; auto. exists ops. auto.
Qed.

Lemma timed_step_reg s w c s' w' c' tr x :
  timed_step (recording u) s (w, c) = (s', (w', c'), tr, x) ->
  timed_step u s w = (s', w', tr, x) /\
  exists c1, c' = c ++ c1 /\ reg_ok (s_reg s) c1 (s_reg s').
Proof.
  unfold timed_step. destruct (s_queue s) as [|[nt b] q].
  - intros [= <- <- <- <- <-]. split; auto. exists []. rewrite app_nil_r. split; auto.
    apply reg_ok_nil.
  - destruct (n_ltb (s_time s) nt).
    + intros [= <- <- <- <- <-]. split; auto. exists []. rewrite app_nil_r. split; auto.
      apply reg_ok_nil.
    + assert (G : forall w0 b0 s' w' c' tr x,
        (let '(s1, w1, tr, x) :=
           run_bucket (recording u) (s_time s) b0 (set_queue s q) (w0, c) in
         if x then (s1, w1, tr, true)
         else
           let s2 := set_steps s1 (S (s_steps s1)) in
           let s3 := match s_queue s2 with
                     | [] => set_time s2 PInf
                     | (t, _) :: _ => set_time s2 t
                     end in
           (s3, w1, tr, false)) = (s', (w', c'), tr, x) ->
        (let '(s1, w1, tr, x) := run_bucket u (s_time s) b0 (set_queue s q) w0 in
         if x then (s1, w1, tr, true)
         else
           let s2 := set_steps s1 (S (s_steps s1)) in
           let s3 := match s_queue s2 with
                     | [] => set_time s2 PInf
                     | (t, _) :: _ => set_time s2 t
                     end in
           (s3, w1, tr, false)) = (s', w', tr, x) /\
        exists c1, c' = c ++ c1 /\ reg_ok (s_reg s) c1 (s_reg s')).
      { clear. intros w0 b0 s' w' c' tr x.
        destruct (run_bucket (recording u) (s_time s) b0 (set_queue s q) (w0, c))
          as [[[s1 [w1 c1]] tr1] x1] eqn:E.
        apply run_bucket_reg in E as (-> & c2 & -> & R). cbn in R.
        destruct x1.
        - intros [= <- <- <- <- <-]. split; eauto.
        - intros [= <- <- <- <- <-]. split; auto. exists c2. split; auto. cbn.
          destruct (s_queue s1) as [|[t l] q1]; exact R. }
      destruct (s_shuffle s).
      * cbn [recording u_shuffle fst snd]. destruct (u_shuffle u b w) as [w0 b0]. apply G.
      * apply G.
Qed.

Lemma run_cmd_app h1 : forall h2 s (w : W * list sop),
  run_hist (recording u) (h1 ++ h2) s w =
  (let '(s1, w1, tr1) := run_hist (recording u) h1 s w in
   let '(s2, w2, tr2) := run_hist (recording u) h2 s1 w1 in (s2, w2, tr1 ++ tr2)).
Proof.
  induction h1 as [|c h1 IH]; intros h2 s w; cbn [app run_hist].
  - now destruct (run_hist _ _ _ _) as [[? ?] ?].
  - destruct (run_cmd _ s w c) as [[s1 w1] tr1]. rewrite IH.
    destruct (run_hist (recording u) h1 s1 w1) as [[s2 w2] tr2].
    destruct (run_hist (recording u) h2 s2 w2) as [[s3 w3] tr3]. now rewrite app_assoc.
Qed.

Lemma run_hist_reg h : forall s w c s' w' c' tr,
  run_hist (recording u) (noted h) s (w, c) = (s', (w', c'), tr) ->
  run_hist u h s w = (s', w', tr) /\
  exists c1, c' = c ++ c1 /\ reg_ok (s_reg s) c1 (s_reg s').
Proof.
  induction h as [|cm h IH]; intros s w c s' w' c' tr.
  - cbn. intros [= <- <- <- <-]. split; auto. exists []. rewrite app_nil_r. split; auto.
    apply reg_ok_nil.
  - unfold noted. cbn [flat_map]. fold (noted h). rewrite run_cmd_app. cbn [run_hist].
    destruct cm as [|a wh|a|f]; cbn [run_hist run_cmd app].
    + destruct (timed_step (recording u) s (w, c)) as [[[s1 [w1 c1]] tr1] x] eqn:E.
      apply timed_step_reg in E as (-> & c2 & -> & R).
      destruct (run_hist (recording u) (noted h) s1 (w1, c ++ c2)) as [[s3 [w3 c3]] tr3] eqn:E3.
      apply IH in E3 as (-> & c4 & -> & R3). intros [= <- <- <- <-].
      rewrite app_nil_r. split; auto. exists (c2 ++ c4). rewrite app_assoc. split; auto.
      eapply reg_ok_app; eauto.
    + cbn [run_op fst snd].
      destruct (run_hist (recording u) (noted h) (timed_add s a wh) (w, c ++ [SAdd a wh]))
        as [[s3 [w3 c3]] tr3] eqn:E3.
      apply IH in E3 as (-> & c4 & -> & R3). intros [= <- <- <- <-].
      split; auto. exists ([SAdd a wh] ++ c4). rewrite app_assoc. split; auto.
      eapply reg_ok_app; eauto. rewrite timed_add_reg. apply reg_ok_add.
    + cbn [run_op fst snd].
      destruct (run_hist (recording u) (noted h) (reg_rem s a) (w, c ++ [SRem a]))
        as [[s3 [w3 c3]] tr3] eqn:E3.
      apply IH in E3 as (-> & c4 & -> & R3). intros [= <- <- <- <-].
      split; auto. exists ([SRem a] ++ c4). rewrite app_assoc. split; auto.
      eapply reg_ok_app; eauto. apply reg_ok_rem.
    + cbn [fst snd].
      destruct (run_hist (recording u) (noted h) s (f w, c)) as [[s3 [w3 c3]] tr3] eqn:E3.
      apply IH in E3 as (-> & c4 & -> & R3). intros [= <- <- <- <-].
      split; auto. exists c4. auto.
Qed.

Lemma registry_hist sh di h w s' w' calls tr :
  run_hist (recording u) (noted h) (timed_init sh di) (w, []) = (s', (w', calls), tr) ->
  run_hist u h (timed_init sh di) w = (s', w', tr) /\
  NoDup (s_reg s') /\ forall a, In a (s_reg s') <-> registered a calls false = true.
Proof.
  intros E. apply run_hist_reg in E as (H & c1 & E & N & R). cbn in *. subst c1.
  split; auto. split; [apply N; constructor|exact R].
Qed.

(** Removal has no influence on anything but the registry. *)
Definition same_but_reg (s s' : sched) : Prop :=
  s_time s = s_time s' /\ s_steps s = s_steps s' /\ s_queue s = s_queue s' /\
  s_shuffle s = s_shuffle s' /\ s_di s = s_di s'.

Lemma same_refl s : same_but_reg s s.
Proof. repeat split. Qed.

Ltac same := repeat match goal with H : same_but_reg _ _ |- _ =>
  destruct H as (? & ? & ? & ? & ?) end.

Lemma timed_schedule_same s s' a when : same_but_reg s s' ->
  same_but_reg (timed_schedule s a when) (timed_schedule s' a when).
Proof. intros (A & B & C & D & E). repeat split; cbn; auto. now rewrite A, C. Qed.

Lemma reg_add_same s a : same_but_reg (reg_add s a) s.
Proof. unfold reg_add. destruct (existsb _ _); repeat split. Qed.

Lemma same_trans s1 s2 s3 : same_but_reg s1 s2 -> same_but_reg s2 s3 -> same_but_reg s1 s3.
Proof. unfold same_but_reg. intuition congruence. Qed.

Lemma same_sym s1 s2 : same_but_reg s1 s2 -> same_but_reg s2 s1.
Proof. unfold same_but_reg. intuition congruence. Qed.

Lemma run_op_same s s' op s1 tr : same_but_reg s s' -> run_op s op = (s1, tr) ->
  exists s1', run_op s' op = (s1', tr) /\ same_but_reg s1 s1'.
Proof.
  intros S. destruct op as [a wh|a]; cbn; intros [= <- <-].
  - destruct S as (T & S). rewrite T. eexists. split; [reflexivity|]. unfold timed_add.
    eapply same_trans; [apply reg_add_same|]. eapply same_trans.
    + eapply timed_schedule_same. split; eauto.
    + apply same_sym, reg_add_same.
  - eexists. split; [reflexivity|]. exact S.
Qed.

Lemma run_ops_same ops : forall s s' s1 tr, same_but_reg s s' -> run_ops s ops = (s1, tr) ->
  exists s1', run_ops s' ops = (s1', tr) /\ same_but_reg s1 s1'.
Proof.
  induction ops as [|op ops IH]; cbn [run_ops]; intros s s' s1 tr S.
  - intros [= <- <-]. eauto.
  - destruct (run_op s op) as [s2 e1] eqn:E1. destruct (run_ops s2 ops) as [s3 e2] eqn:E2.
    intros [= <- <-]. destruct (run_op_same _ _ _ _ _ S E1) as (s2' & -> & S2).
    destruct (IH _ _ _ _ S2 E2) as (s3' & -> & S3). eauto.
Qed.

Hypothesis blind : ignores_registry u.

Lemma run_bucket_same b : forall now s s' w s1 w1 tr x, same_but_reg s s' ->
  run_bucket u now b s w = (s1, w1, tr, x) ->
  exists s1', run_bucket u now b s' w = (s1', w1, tr, x) /\ same_but_reg s1 s1'.
Proof.
  induction b as [|a b IH]; cbn [run_bucket]; intros now s s' w s1 w1 tr x S.
  - intros [= <- <- <- <-]. eauto.
  - assert (Q : u_step u s a w = u_step u s' a w).
    { destruct S as (? & ? & ? & ? & ?). now apply blind. }
    rewrite <- Q. destruct (u_step u s a w) as [[w2 ops] o].
    destruct (run_ops s ops) as [s2 tr2] eqn:E2.
    destruct (run_ops_same _ _ _ _ _ S E2) as (s2' & -> & S2).
    destruct o as [r| |].
    + assert (D : s_di s2 = s_di s2') by (destruct S2; intuition).
      rewrite <- D.
      match goal with |- context [if ?g then timed_schedule s2 _ _ else _] => destruct g end.
      * destruct (run_bucket u now b (timed_schedule s2 a _) w2) as [[[s3 w3] tr3] x3] eqn:E3.
        intros [= <- <- <- <-].
        destruct (IH _ _ _ _ _ _ _ _ (timed_schedule_same _ _ a _ S2) E3) as (s3' & -> & S3).
        eauto.
      * destruct (run_bucket u now b s2 w2) as [[[s3 w3] tr3] x3] eqn:E3.
        intros [= <- <- <- <-].
        destruct (IH _ _ _ _ _ _ _ _ S2 E3) as (s3' & -> & S3). eauto.
    + destruct (run_bucket u now b s2 w2) as [[[s3 w3] tr3] x3] eqn:E3.
      intros [= <- <- <- <-].
      destruct (IH _ _ _ _ _ _ _ _ S2 E3) as (s3' & -> & S3). eauto.
    + intros [= <- <- <- <-]. eauto.
Qed.

Lemma timed_step_same s s' w s1 w1 tr x : same_but_reg s s' ->
  timed_step u s w = (s1, w1, tr, x) ->
  exists s1', timed_step u s' w = (s1', w1, tr, x) /\ same_but_reg s1 s1'.
Proof.
  intros S. pose proof S as (T & N & Q & SH & D). unfold timed_step. rewrite <- Q, <- T, <- SH.
  pose proof Q as Q0. destruct (s_queue s) as [|[nt b] q] eqn:Qs.
  - intros [= <- <- <- <-]. eauto.
  - rewrite <- Qs in Q0. destruct (n_ltb (s_time s) nt).
    + intros [= <- <- <- <-]. eexists. split; [reflexivity|]. repeat split; cbn; auto.
    + destruct (if s_shuffle s then u_shuffle u b w else (w, b)) as [w0 b0].
      destruct (run_bucket u (s_time s) b0 (set_queue s q) w0) as [[[s2 w2] tr2] x2] eqn:E.
      assert (S0 : same_but_reg (set_queue s q) (set_queue s' q)) by (repeat split; cbn; auto).
      destruct (run_bucket_same _ _ _ _ _ _ _ _ _ S0 E) as (s2' & -> & S2).
      destruct x2.
      * intros [= <- <- <- <-]. eauto.
      * intros [= <- <- <- <-]. eexists. split; [reflexivity|]. cbn.
        destruct S2 as (T2 & N2 & Q2 & SH2 & D2). rewrite <- Q2.
        pose proof Q2 as Q3. destruct (s_queue s2) as [|[t l] q2] eqn:E2; rewrite <- E2 in Q3;
          repeat split; cbn; auto.
Qed.

Lemma removals_ignored h : forall s s' w s1 w1 tr, same_but_reg s s' ->
  run_hist u h s w = (s1, w1, tr) ->
  exists s1', run_hist u (without_removals h) s' w = (s1', w1, tr) /\ same_but_reg s1 s1'.
Proof.
  induction h as [|c h IH]; intros s s' w s1 w1 tr S; cbn [run_hist without_removals filter].
  - intros [= <- <- <-]. eauto.
  - fold (without_removals h).
    assert (K : forall s2 s2' w2 tr2,
      same_but_reg s2 s2' ->
      (let '(s3, w3, tr3) := run_hist u h s2 w2 in (s3, w3, tr2 ++ tr3)) = (s1, w1, tr) ->
      exists s1', (let '(s3, w3, tr3) := run_hist u (without_removals h) s2' w2 in
        (s3, w3, tr2 ++ tr3)) = (s1', w1, tr) /\ same_but_reg s1 s1').
    { intros s2 s2' w2 tr2 S2. destruct (run_hist u h s2 w2) as [[s3 w3] tr3] eqn:E3.
      intros [= <- <- <-]. destruct (IH _ _ _ _ _ _ S2 E3) as (s3' & -> & S3). eauto. }
    destruct c as [|a wh|a|f]; cbn [run_cmd run_hist].
    + destruct (timed_step u s w) as [[[s2 w2] tr2] x2] eqn:E.
      destruct (timed_step_same _ _ _ _ _ _ _ S E) as (s2' & -> & S2). apply K. exact S2.
    + destruct (run_op s (SAdd a wh)) as [s2 tr2] eqn:E.
      destruct (run_op_same _ _ _ _ _ S E) as (s2' & -> & S2). apply K. exact S2.
    + cbn [run_op]. intros H. apply (K (reg_rem s a) s' w []) in H; [|exact S].
      destruct H as (s1' & H & S1). exists s1'. split; auto.
      destruct (run_hist u (without_removals h) s' w) as [[? ?] ?]. exact H.
    + apply K. exact S.
Qed.

Lemma removals_ignored_init sh di h w :
  forall s1 w1 tr, run_hist u h (timed_init sh di) w = (s1, w1, tr) ->
  exists s2, run_hist u (without_removals h) (timed_init sh di) w = (s2, w1, tr) /\
    s_time s2 = s_time s1 /\ s_steps s2 = s_steps s1.
Proof.
  intros s1 w1 tr H. destruct (removals_ignored _ _ _ _ _ _ _ (same_refl _) H) as (s2 & E & S).
  exists s2. split; auto. destruct S as (A & B & _). auto.
Qed.
End Rec.

Section PRec.
Context {AR : Arith} {W : Type}.
Variable u : puser W.

Lemma pq_schedule_reg s w c a when r s' wc x :
  pq_schedule (p_recording u) s (w, c) a when r = (s', wc, x) ->
  exists w', wc = (w', c) /\ pq_schedule u s w a when r = (s', w', x) /\ p_reg s' = p_reg s.
Proof.
  unfold pq_schedule. cbn [p_recording p_draw fst snd].
  destruct (p_shuffle s); [destruct (p_draw u w) as [w1 z]|];
    (destruct r; [destruct (p_heap s) as [|e h]|]); intros [= <- <- <-];
    eexists; split; eauto.
Qed.

Lemma pq_add_reg s w c a when s' wc x :
  pq_add (p_recording u) s (w, c) a when = (s', wc, x) ->
  exists w', wc = (w', c) /\ pq_add u s w a when = (s', w', x) /\
  p_reg s' = if x then p_reg s else add_to (p_reg s) a.
Proof.
  unfold pq_add.
  destruct (pq_schedule (p_recording u) s (w, c) a None _) as [[s1 wc1] x1] eqn:E.
  apply pq_schedule_reg in E as (w1 & -> & E & R).
  rewrite E. destruct x1; intros [= <- <- <-]; exists w1; split; auto; split; auto.
  unfold preg_add, add_to. rewrite R. destruct (existsb _ _); [exact R|reflexivity].
Qed.

Lemma pq_run_ops_reg ops : forall s w c s' wc tr x,
  pq_run_ops (p_recording u) s (w, c) ops = (s', wc, tr, x) ->
  exists w', wc = (w', c) /\ pq_run_ops u s w ops = (s', w', tr, x) /\
  (NoDup (p_reg s) -> NoDup (p_reg s')) /\
  (x = false -> reg_ok (p_reg s) ops (p_reg s')).
Proof.
  induction ops as [|[a wh|a] ops IH]; cbn [pq_run_ops]; intros s w c s' wc tr x.
  - intros [= <- <- <- <-]. exists w. repeat split; auto; apply reg_ok_nil; auto.
  - destruct (pq_add (p_recording u) s (w, c) a wh) as [[s1 wc1] x1] eqn:E.
    apply pq_add_reg in E as (w1 & -> & E & R). rewrite E.
    destruct x1.
    + intros [= <- <- <- <-]. exists w1. rewrite R. split; auto. split; auto. split; auto.
      discriminate.
    + destruct (pq_run_ops (p_recording u) s1 (w1, c) ops) as [[[s2 wc2] tr2] x2] eqn:E2.
      apply IH in E2 as (w2 & -> & -> & N & G). intros [= <- <- <- <-].
      exists w2. split; auto. split; auto. rewrite R in N, G. split.
      * intros D. apply N. now apply (proj1 (reg_ok_add (p_reg s) a wh)).
      * intros X. change (SAdd a wh :: ops) with ([SAdd a wh] ++ ops).
        eapply reg_ok_app; [apply reg_ok_add|auto].
  - intros E. apply IH in E as (w1 & -> & E & N & G). exists w1. split; auto. split; auto.
    cbn [preg_rem pset_reg p_reg] in N, G. split.
    + intros D. apply N. now apply (proj1 (reg_ok_rem (p_reg s) a)).
    + intros X. change (SRem a :: ops) with ([SRem a] ++ ops).
      eapply reg_ok_app; [apply reg_ok_rem|apply G; auto].
Qed.

Definition res_ok (r0 : list aid) (c : list sop) (r : pres (W := W * list sop)) (r' : pres (W := W)) :=
  match r, r' with
  | PDone s wc tr t, PDone s' w' tr' t' =>
      s' = s /\ tr' = tr /\ t' = t /\ w' = fst wc /\
      exists c1, snd wc = c ++ c1 /\ reg_ok r0 c1 (p_reg s)
  | PRaised s wc tr, PRaised s' w' tr' =>
      s' = s /\ tr' = tr /\ w' = fst wc /\ (NoDup r0 -> NoDup (p_reg s))
  | PFuel, PFuel => True
  | _, _ => False
  end.

Lemma res_ok_pre r0 c1 r1 c tr r r' : reg_ok r0 c1 r1 -> res_ok r1 (c ++ c1) r r' ->
  res_ok r0 c (pres_pre tr r) (pres_pre tr r').
Proof.
  intros R0. destruct r as [s wc tr1 t|s wc tr1|], r' as [s' w' tr' t'|s' w' tr'|]; cbn; auto.
  - intros (-> & -> & -> & -> & c2 & E & R). do 4 (split; auto). exists (c1 ++ c2).
    rewrite app_assoc. split; auto. eapply reg_ok_app; eauto.
  - intros (-> & -> & -> & N). do 3 (split; auto). intros D. apply N. now apply R0.
Qed.

Lemma pq_loop_reg fuel : forall now s w c,
  res_ok (p_reg s) c (pq_loop (p_recording u) fuel now s (w, c)) (pq_loop u fuel now s w).
Proof.
  induction fuel as [|fuel IH]; intros now s w c; cbn [pq_loop]; [exact I|].
  destruct (p_heap s) as [|e h].
  - cbn. do 4 (split; auto). exists []. rewrite app_nil_r. split; auto. apply reg_ok_nil.
  - destruct (n_ltb now (e_when e)).
    + cbn. do 4 (split; auto). exists []. rewrite app_nil_r. split; auto. apply reg_ok_nil.
    + cbn [p_recording p_step fst snd].
      destruct (p_step u s (e_agent e) w) as [[w1 ops] o].
      change (PUser (W * list sop) _ _) with (p_recording u).
      destruct (pq_run_ops (p_recording u) s (w1, c ++ ops) ops) as [[[s1 wc1] tr1] x] eqn:E.
      apply pq_run_ops_reg in E as (w2 & -> & -> & N & G).
      destruct x; cbn [negb].
      * cbn. auto.
      * specialize (G eq_refl).
        assert (P : res_ok (p_reg s) c
          (match p_heap s1 with
           | [] => PRaised s1 (w2, c ++ ops) (tr1 ++ [EvAct now (e_agent e) o])
           | _ :: h => pres_pre (tr1 ++ [EvAct now (e_agent e) o])
               (pq_loop (p_recording u) fuel now (pset_heap s1 h) (w2, c ++ ops))
           end)
          (match p_heap s1 with
           | [] => PRaised s1 w2 (tr1 ++ [EvAct now (e_agent e) o])
           | _ :: h => pres_pre (tr1 ++ [EvAct now (e_agent e) o])
               (pq_loop u fuel now (pset_heap s1 h) w2)
           end)).
        { destruct (p_heap s1) as [|e1 h1]; [cbn; auto|].
          eapply res_ok_pre; [exact G|]. apply (IH now (pset_heap s1 h1)). }
        destruct o as [r| |]; [|exact P|cbn; auto].
        destruct (n_eqb (n_add (or_num r (p_di s1)) now) PInf); [exact P|].
        destruct (pq_schedule (p_recording u) s1 (w2, c ++ ops) (e_agent e) _ true)
          as [[s2 wc2] x2] eqn:E2.
        apply pq_schedule_reg in E2 as (w3 & -> & -> & R2).
        destruct x2.
        -- cbn. rewrite R2. auto.
        -- eapply res_ok_pre; [exact G|]. rewrite <- R2. apply IH.
Qed.

Lemma pq_step_reg fuel s w s' w' calls tr :
  pq_step (p_recording u) fuel s (w, []) = Some (s', (w', calls), tr, false) ->
  pq_step u fuel s w = Some (s', w', tr, false) /\ reg_ok (p_reg s) calls (p_reg s').
Proof.
  unfold pq_step. destruct (n_eqb (p_time s) PInf).
  - intros [= <- <- <- <-]. split; auto. apply reg_ok_nil.
  - pose proof (pq_loop_reg fuel (p_time s) s w []) as H.
    destruct (pq_loop (p_recording u) fuel (p_time s) s (w, [])) as [s1 [w1 c1] tr1 t|s1 wc1 tr1|],
             (pq_loop u fuel (p_time s) s w) as [s2 w2 tr2 t2|s2 w2 tr2|]; cbn in H; try easy.
    intros [= <- <- <- <-]. destruct H as (-> & -> & -> & -> & c2 & E & R). subst c1.
    split; auto.
Qed.
End PRec.

Section PNoDup.
Context {AR : Arith} {W : Type}.
Variable u : puser W.

Lemma pq_schedule_reg1 s w a when r s' w' x : pq_schedule u s w a when r = (s', w', x) ->
  p_reg s' = p_reg s.
Proof.
  unfold pq_schedule. destruct (if p_shuffle s then p_draw u w else (w, Z.of_nat a)) as [w1 z].
  destruct r; [destruct (p_heap s)|]; intros [= <- <- <-]; reflexivity.
Qed.

Lemma pq_add_reg1 s w a when s' w' x : pq_add u s w a when = (s', w', x) ->
  p_reg s' = if x then p_reg s else add_to (p_reg s) a.
Proof.
  unfold pq_add. destruct (pq_schedule u s w a None _) as [[s1 w1] x1] eqn:E.
  apply pq_schedule_reg1 in E. destruct x1; intros [= <- <- <-]; auto.
  unfold preg_add, add_to. rewrite E. destruct (existsb _ _); [exact E|reflexivity].
Qed.

Lemma pq_add_effect s w a when s' w' x : pq_add u s w a when = (s', w', x) ->
  (NoDup (p_reg s) -> NoDup (p_reg s')) /\
  forall b, In b (p_reg s') <-> In b (p_reg s) \/ (b = a /\ x = false).
Proof.
  intros E. apply pq_add_reg1 in E. rewrite E. destruct x.
  - split; auto. intros b. intuition discriminate.
  - destruct (reg_ok_add (p_reg s) a when) as (N & R). split; auto.
    intros b. rewrite R. cbn. destruct (Nat.eqb_spec b a) as [->|Q].
    + tauto.
    + rewrite existsb_nat. tauto.
Qed.

Lemma preg_rem_effect s a :
  (NoDup (p_reg s) -> NoDup (p_reg (preg_rem s a))) /\
  forall b, In b (p_reg (preg_rem s a)) <-> In b (p_reg s) /\ b <> a.
Proof.
  destruct (reg_ok_rem (p_reg s) a) as (N & R). split; auto.
  intros b. rewrite (R b). cbn. destruct (Nat.eqb_spec b a) as [->|Q].
  - intuition discriminate.
  - rewrite existsb_nat. tauto.
Qed.
End PNoDup.
