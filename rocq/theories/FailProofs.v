(** Proofs about exceptions that escape from the [step] of the schedulers. *)
From Coq Require Import ZArith List Bool Arith.
From Verif Require Import Num TimedModel TimedSpec TimedProofs PQueueModel PQueueSpec PQueueProofs LockstepModel RegSpec.
Import ListNotations.

Definition ended (x : bool) (tr : list ev) : Prop := if x then fails_last tr else no_exc tr.

Lemma no_exc_nil : no_exc [].
Proof. reflexivity. Qed.

Lemma ended_app tr1 tr2 x : no_exc tr1 -> ended x tr2 -> ended x (tr1 ++ tr2).
Proof.
  intros N. destruct x; cbn.
  - intros (tr0 & t & a & -> & N0). exists (tr1 ++ tr0), t, a. rewrite app_assoc. split; auto.
    now apply no_exc_app.
  - intros N2. now apply no_exc_app.
Qed.

Lemma run_ops_no_exc ops : forall s s' tr, run_ops s ops = (s', tr) -> no_exc tr.
Proof.
  induction ops as [|op ops IH]; cbn [run_ops]; intros s s' tr.
  - intros [= <- <-]. reflexivity.
  - destruct (run_op s op) as [s1 e1] eqn:E1. destruct (run_ops s1 ops) as [s2 e2] eqn:E2.
    intros [= <- <-]. apply no_exc_app. split; [|eauto].
    destruct op; cbn in E1; injection E1 as <- <-; reflexivity.
Qed.

Lemma same_clock_ops ops : forall s s' tr, run_ops s ops = (s', tr) ->
  s_steps s' = s_steps s /\ s_time s' = s_time s.
Proof.
  induction ops as [|op ops IH]; cbn [run_ops]; intros s s' tr.
  - intros [= <- <-]. auto.
  - destruct (run_op s op) as [s1 e1] eqn:E1. destruct (run_ops s1 ops) as [s2 e2] eqn:E2.
    intros [= <- <-]. apply IH in E2 as (-> & ->).
    destruct op; cbn in E1; injection E1 as <- <-; [|auto].
    unfold timed_add, reg_add. destruct (existsb _ _); auto.
Qed.

Section Timed.
Context {AR : Arith} {W : Type}.
Variable u : user W.

Lemma run_bucket_ended now b : forall s w s' w' tr x,
  run_bucket u now b s w = (s', w', tr, x) ->
  ended x tr /\ s_steps s' = s_steps s /\ s_time s' = s_time s.
Proof.
  induction b as [|a b IH]; cbn [run_bucket]; intros s w s' w' tr x.
  - intros [= <- <- <- <-]. repeat split.
  - destruct (u_step u s a w) as [[w1 ops] o]. destruct (run_ops s ops) as [s1 tr1] eqn:E1.
    pose proof (run_ops_no_exc _ _ _ _ E1) as N1. apply same_clock_ops in E1 as (S1 & T1).
    destruct o as [r| |].
    + match goal with |- context [run_bucket u now b ?s2 w1] =>
        destruct (run_bucket u now b s2 w1) as [[[s3 w3] tr3] x3] eqn:E3 end.
      apply IH in E3 as (H & S3 & T3). intros [= <- <- <- <-]. split.
      * apply ended_app; auto. apply no_exc_app. split; auto. reflexivity.
      * rewrite S3, T3. destruct (negb _); auto.
    + destruct (run_bucket u now b s1 w1) as [[[s3 w3] tr3] x3] eqn:E3.
      apply IH in E3 as (H & S3 & T3). intros [= <- <- <- <-]. rewrite S3, T3. split; auto.
      apply ended_app; auto. apply no_exc_app. split; auto. reflexivity.
    + intros [= <- <- <- <-]. split; auto. exists tr1, now, a. auto.
Qed.

Lemma timed_step_ended s w s' w' tr x : timed_step u s w = (s', w', tr, x) ->
  ended x tr /\ (x = true -> s_steps s' = s_steps s /\ s_time s' = s_time s).
Proof.
  unfold timed_step. destruct (s_queue s) as [|[nt b] q].
  - intros [= <- <- <- <-]. split; [reflexivity|discriminate].
  - destruct (n_ltb (s_time s) nt).
    + intros [= <- <- <- <-]. split; [reflexivity|discriminate].
    + destruct (if s_shuffle s then u_shuffle u b w else (w, b)) as [w0 b0].
      destruct (run_bucket u (s_time s) b0 (set_queue s q) w0) as [[[s2 w2] tr2] x2] eqn:E.
      apply run_bucket_ended in E as (H & S2 & T2). destruct x2; intros [= <- <- <- <-].
      * split; auto.
      * split; [auto|discriminate].
Qed.

Lemma lock_loop_ended fuel : forall e s w s' w' tr x,
  lock_loop u fuel e s w = Some (s', w', tr, x) -> ended x tr.
Proof.
  induction fuel as [|fuel IH]; cbn [lock_loop]; intros e s w s' w' tr x; [discriminate|].
  destruct (n_ltb (s_time s) e).
  - destruct (timed_step u s w) as [[[s1 w1] tr1] x1] eqn:E.
    apply timed_step_ended in E as (H & _). destruct x1.
    + now intros [= <- <- <- <-].
    + destruct (lock_loop u fuel e s1 w1) as [[[[s2 w2] tr2] x2]|] eqn:E2; [|discriminate].
      intros [= <- <- <- <-]. apply ended_app; eauto.
  - intros [= <- <- <- <-]. reflexivity.
Qed.

Lemma lock_step_ended fuel l w l' w' tr x : lock_step u fuel l w = Some (l', w', tr, x) ->
  ended x tr /\
  (if x then l_time l' = l_time l /\ l_steps l' = l_steps l
   else l_time l' = n_add (l_time l) (l_interval l) /\ l_steps l' = S (l_steps l)) /\
  l_interval l' = l_interval l.
Proof.
  unfold lock_step.
  destruct (lock_loop u fuel _ (l_sched l) w) as [[[[s2 w2] tr2] x2]|] eqn:E; [|discriminate].
  apply lock_loop_ended in E. destruct x2; intros [= <- <- <- <-]; repeat split; auto.
Qed.
End Timed.

Section PQ.
Context {AR : Arith} {W : Type}.
Variable u : puser W.

Lemma pq_run_ops_no_exc ops : forall s w s' w' tr x, pq_run_ops u s w ops = (s', w', tr, x) ->
  no_exc tr /\ p_steps s' = p_steps s /\ p_time s' = p_time s.
Proof.
  induction ops as [|[a wh|a] ops IH]; cbn [pq_run_ops]; intros s w s' w' tr x.
  - intros [= <- <- <- <-]. repeat split.
  - destruct (pq_add u s w a wh) as [[s1 w1] x1] eqn:E.
    assert (K : p_steps s1 = p_steps s /\ p_time s1 = p_time s).
    { revert E. unfold pq_add, pq_schedule.
      destruct (if p_shuffle s then p_draw u w else (w, Z.of_nat a)) as [w2 z].
      match goal with |- context [n_truthy ?n] => destruct (n_truthy n) end.
      - destruct (p_heap s); intros [= <- <- <-]; auto.
        unfold preg_add. destruct (existsb _ _); auto.
      - intros [= <- <- <-]. unfold preg_add. destruct (existsb _ _); auto. }
    destruct x1.
    + intros [= <- <- <- <-]. split; [reflexivity|auto].
    + destruct (pq_run_ops u s1 w1 ops) as [[[s2 w2] tr2] x2] eqn:E2.
      apply IH in E2 as (N & S2 & T2). intros [= <- <- <- <-].
      split; [exact N|]. destruct K. split; congruence.
  - intros E. apply IH in E as (N & S2 & T2). auto.
Qed.

Lemma pq_run_ops_removals ops : forall s w,
  forallb (fun op => match op with SAdd _ _ => false | SRem _ => true end) ops = true ->
  exists s', pq_run_ops u s w ops = (s', w, [], false) /\ p_heap s' = p_heap s.
Proof.
  induction ops as [|[a wh|a] ops IH]; cbn [pq_run_ops forallb]; intros s w H.
  - eauto.
  - discriminate.
  - destruct (IH (preg_rem s a) w H) as (s' & E & P). eauto.
Qed.

Definition pended (r : pres (W := W)) (s0 : pq) : Prop :=
  match r with
  | PDone s _ tr _ => no_exc tr /\ p_steps s = p_steps s0
  | PRaised s _ tr => fails_last tr /\ p_steps s = p_steps s0 /\ p_time s = p_time s0
  | PFuel => True
  end.

Lemma pended_pre tr r s0 s1 : no_exc tr -> p_steps s1 = p_steps s0 -> p_time s1 = p_time s0 ->
  pended r s1 -> pended (pres_pre tr r) s0.
Proof.
  intros N S1 T1. destruct r as [s w tr' t|s w tr'|]; cbn; auto.
  - intros (N' & S'). split; [now apply no_exc_app|congruence].
  - intros (N' & S' & T'). split; [now apply (ended_app tr tr' true)|]. split; congruence.
Qed.

Hypothesis ADDS : p_adds_nobody u.

Lemma pq_loop_ended fuel : forall now s w, pended (pq_loop u fuel now s w) s.
Proof.
  induction fuel as [|fuel IH]; intros now s w; cbn [pq_loop]; [exact I|].
  destruct (p_heap s) as [|e h] eqn:HS.
  - cbn. repeat split.
  - destruct (n_ltb now (e_when e)); [cbn; repeat split|].
    pose proof (ADDS s (e_agent e) w) as A.
    destruct (p_step u s (e_agent e) w) as [[w1 ops] o].
    destruct (pq_run_ops_removals ops s w1 A) as (s1 & E & P).
    pose proof (pq_run_ops_no_exc _ _ _ _ _ _ _ E) as (_ & S1 & T1).
    rewrite E, P, HS. cbn [app].
    destruct o as [r| |].
    + assert (NE : no_exc [EvAct now (e_agent e) (Ret r)]) by reflexivity.
      destruct (n_eqb (n_add (or_num r (p_di s1)) now) PInf).
      * eapply pended_pre; [exact NE| | |apply IH]; cbn; auto.
      * unfold pq_schedule.
        destruct (if p_shuffle s1 then p_draw u w1 else (w1, Z.of_nat (e_agent e))) as [w2 z].
        rewrite P, HS. eapply pended_pre; [exact NE| | |apply IH]; cbn; auto.
    + eapply pended_pre; [reflexivity| | |apply IH]; cbn; auto.
    + cbn. split; [|auto]. exists [], now, (e_agent e). split; reflexivity.
Qed.

Lemma pq_step_ended fuel s w s' w' tr x : pq_step u fuel s w = Some (s', w', tr, x) ->
  ended x tr /\ (x = true -> p_steps s' = p_steps s /\ p_time s' = p_time s).
Proof.
  unfold pq_step. destruct (n_eqb (p_time s) PInf).
  - intros [= <- <- <- <-]. split; [reflexivity|discriminate].
  - pose proof (pq_loop_ended fuel (p_time s) s w) as H.
    destruct (pq_loop u fuel (p_time s) s w) as [s1 w1 tr1 t|s1 w1 tr1|]; cbn in H.
    + intros [= <- <- <- <-]. split; [apply H|discriminate].
    + intros [= <- <- <- <-]. destruct H as (F & S1 & T1). split; auto.
    + discriminate.
Qed.
End PQ.
