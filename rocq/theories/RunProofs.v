(** Proofs about the runs of an iteration. *)
From Coq Require Import ZArith List Bool Arith String Lia Permutation.
From Verif Require Import Num PyDict TimedModel TimedSpec TimedProofs PQueueProofs2
  LockstepSpec LockstepProofs RunModel RunSpec.
Import ListNotations.

Section Arith.
Context {AR : Arith}.

Section R.
Context {W V : Type} (u : user W) (running : W -> bool).
Notation env := (@env W V).

Lemma step_no_exc s w s' w' tr : timed_step u s w = (s', w', tr, false) -> no_exc tr.
Proof.
  assert (forall ops s s' tr, run_ops s ops = (s', tr) -> no_exc tr) as KO.
  { induction ops as [|[a when|a] ops IH]; simpl; intros s0 s0' tr0 E.
    - injection E as <- <-. reflexivity.
    - destruct (run_ops (timed_add s0 a when) ops) as [s2 e2] eqn:E2.
      injection E as <- <-. unfold no_exc. simpl. eapply IH; eauto.
    - destruct (run_ops (reg_rem s0 a) ops) as [s2 e2] eqn:E2.
      injection E as <- <-. eapply IH; eauto. }
  assert (forall b now s w s' w' tr, run_bucket u now b s w = (s', w', tr, false) -> no_exc tr) as K.
  { induction b as [|a b IH]; simpl; intros now s0 w0 s0' w0' tr0 E.
    - injection E as <- <- <-. reflexivity.
    - destruct (u_step u s0 a w0) as [[w1 ops] o].
      destruct (run_ops s0 ops) as [s1 tr1] eqn:EO. apply KO in EO.
      destruct o as [r| |]; [| |discriminate].
      + match type of E with context [run_bucket u now b ?s2 w1] =>
          destruct (run_bucket u now b s2 w1) as [[[s3 w3] tr3] x3] eqn:EB end.
        injection E as <- <- <- ->. apply no_exc_app. split; [apply no_exc_app; split; auto; reflexivity|eauto].
      + destruct (run_bucket u now b s1 w1) as [[[s3 w3] tr3] x3] eqn:EB.
        injection E as <- <- <- ->. apply no_exc_app. split; [apply no_exc_app; split; auto; reflexivity|eauto]. }
  unfold timed_step. destruct (s_queue s) as [|[t b] q].
  - intros E. injection E as <- <- <-. reflexivity.
  - destruct (n_ltb (s_time s) t).
    + intros E. injection E as <- <- <-. reflexivity.
    + destruct (if s_shuffle s then _ else _) as [w0 b0].
      destruct (run_bucket u (s_time s) b0 (set_queue s q) w0) as [[[s1 w1] tr1] x1] eqn:EB.
      destruct x1; intros E; [discriminate|]. injection E as <- <- <-. eauto.
Qed.

Lemma env_step_inv (e e' : env) tr x : env_step u e = (e', tr, x) ->
  timed_step u (e_sched e) (e_world e) = (e_sched e', e_world e', tr, x) /\
  e_col e' = if x then e_col e else collect (e_col e) (e_sched e') (e_world e').
Proof.
  unfold env_step. destruct (timed_step u (e_sched e) (e_world e)) as [[[s w] tr1] x1].
  destruct x1; intros E; injection E as <- <- <-; auto.
Qed.

Lemma stepped_cons n (e e1 e2 : env) tr1 tr2 :
  env_step u e = (e1, tr1, false) -> stepped u n e1 e2 tr2 -> stepped u (S n) e e2 (tr1 ++ tr2).
Proof.
  intros E H. induction H as [e1|n e1 e2 e3 tr2 tr3 H IH ES].
  - rewrite app_nil_r. rewrite <- (app_nil_l tr1). econstructor; [constructor|auto].
  - rewrite app_assoc. econstructor; eauto.
Qed.

Lemma stepped_det n : forall (e e1 e2 : env) tr1 tr2,
  stepped u n e e1 tr1 -> stepped u n e e2 tr2 -> e1 = e2 /\ tr1 = tr2.
Proof.
  induction n as [|n IH]; intros e e1 e2 tr1 tr2 H1 H2; inversion H1; inversion H2; subst; auto.
  match goal with A : stepped u n e ?x _, B : stepped u n e ?y _ |- _ =>
    destruct (IH _ _ _ _ _ A B) as [-> ->] end.
  match goal with A : env_step u ?x = _, B : env_step u ?x = _ |- _ =>
    rewrite A in B; injection B as -> -> end. auto.
Qed.

Lemma stepped_uncons n (e e2 : env) tr : stepped u (S n) e e2 tr ->
  exists e1 tr1 tr2, env_step u e = (e1, tr1, false) /\ stepped u n e1 e2 tr2 /\ tr = tr1 ++ tr2.
Proof.
  revert e2 tr. induction n as [|n IH]; intros e2 tr H; inversion H; subst.
  - inversion H1; subst. exists e2, tr2, []. rewrite app_nil_r. repeat split; auto. constructor.
  - destruct (IH _ _ H1) as (e3&t1&t2&E1&S1&->).
    exists e3, t1, (t2 ++ tr2). rewrite app_assoc. repeat split; auto. econstructor; eauto.
Qed.

Lemma is_done_reason l (e : env) : is_done running l e = true <-> reason running l e.
Proof.
  unfold is_done, reason, stopped_itself, time_reached, steps_reached.
  rewrite !orb_true_iff, negb_true_iff. split.
  - intros [[H|H]|H]; auto.
    + right. left. destruct (max_time l); [eauto|discriminate].
    + right. right. destruct (max_steps l); [|discriminate]. apply Z.leb_le in H. eauto.
  - intros [H|[(t&E&H)|(m&E&H)]]; auto.
    + rewrite E. auto.
    + rewrite E. rewrite Z.leb_le. auto.
Qed.

Lemma run_loop_stepped fuel l : forall (e e' : env) tr,
  run_loop u running fuel l e = RReturned e' tr ->
  exists n, stepped u n e e' tr /\ reason running l e' /\
    forall m em trm, m < n -> stepped u m e em trm -> ~ reason running l em.
Proof.
  induction fuel as [|fuel IH]; intros e e' tr E; [discriminate|]. cbn [run_loop] in E.
  destruct (is_done running l e) eqn:D.
  - injection E as <- <-. exists 0. split; [constructor|]. split; [now apply is_done_reason|].
    intros; lia.
  - destruct (env_step u e) as [[e1 tr1] x] eqn:ES. destruct x; [discriminate|].
    destruct (run_loop u running fuel l e1) as [|e2 tr2|e2 tr2|] eqn:EL; try discriminate.
    injection E as <- <-. destruct (IH _ _ _ EL) as (n&S1&R1&N1).
    exists (S n). split; [eapply stepped_cons; eauto|]. split; auto.
    intros m em trm L SM R. destruct m as [|m].
    + inversion SM; subst. apply is_done_reason in R. congruence.
    + apply stepped_uncons in SM. destruct SM as (e3&t1&t2&E1&S2&->).
      rewrite ES in E1. injection E1 as <- <-. apply (N1 m em t2); auto. lia.
Qed.

Lemma stepped_run_loop n l : forall (e e' : env) tr,
  stepped u n e e' tr -> reason running l e' ->
  (forall m em trm, m < n -> stepped u m e em trm -> ~ reason running l em) ->
  run_loop u running (S n) l e = RReturned e' tr.
Proof.
  induction n as [|n IH]; intros e e' tr H R N.
  - inversion H; subst. cbn [run_loop]. apply is_done_reason in R. now rewrite R.
  - assert (is_done running l e = false) as D.
    { apply not_true_iff_false. rewrite is_done_reason. apply (N 0 e []); [lia|constructor]. }
    apply stepped_uncons in H. destruct H as (e1&t1&t2&E1&S2&->).
    remember (S n) as k. cbn [run_loop]. rewrite D, E1. subst k.
    rewrite (IH e1 e' t2 S2 R); auto.
    intros m em trm L SM. apply (N (S m) em (t1 ++ trm)); [lia|].
    eapply stepped_cons; eauto.
Qed.

Lemma run_loop_raised fuel l : forall (e e' : env) tr,
  run_loop u running fuel l e = RRaised e' tr ->
  exists n e1 tr1 tr2, stepped u n e e1 tr1 /\ env_step u e1 = (e', tr2, true) /\ tr = tr1 ++ tr2 /\
    forall m em trm, m <= n -> stepped u m e em trm -> ~ reason running l em.
Proof.
  induction fuel as [|fuel IH]; intros e e' tr E; [discriminate|]. cbn [run_loop] in E.
  destruct (is_done running l e) eqn:D; [discriminate|].
  assert (~ reason running l e) as NR by (rewrite <- is_done_reason; congruence).
  destruct (env_step u e) as [[e1 tr1] x] eqn:ES. destruct x.
  - injection E as <- <-. exists 0, e, [], tr1. repeat split; auto; [constructor|].
    intros m em trm L S1. assert (m = 0) as -> by lia. inversion S1; subst. auto.
  - destruct (run_loop u running fuel l e1) as [|e2 tr2|e2 tr2|] eqn:EL; try discriminate.
    injection E as <- <-. destruct (IH _ _ _ EL) as (n&e3&t1&t2&S1&E1&->&N1).
    exists (S n), e3, (tr1 ++ t1), t2. rewrite app_assoc. repeat split; auto.
    { eapply stepped_cons; eauto. }
    intros m em trm L SM. destruct m as [|m].
    + inversion SM; subst. auto.
    + apply stepped_uncons in SM. destruct SM as (e4&t3&t4&E2&S2&->).
      rewrite ES in E2. injection E2 as <- <-. apply (N1 m em t4); auto. lia.
Qed.

(** ** Step counter *)
Lemma timed_step_steps s w s' w' tr x : timed_step u s w = (s', w', tr, x) ->
  s_steps s' = s_steps s \/ s_steps s' = S (s_steps s).
Proof.
  assert (forall ops s s' tr, run_ops s ops = (s', tr) -> s_steps s' = s_steps s) as KO.
  { induction ops as [|[a when|a] ops IH]; simpl; intros s0 s0' tr0 E.
    - injection E as <- <-. reflexivity.
    - destruct (run_ops (timed_add s0 a when) ops) as [s2 e2] eqn:E2.
      injection E as <- <-. rewrite (IH _ _ _ E2). unfold timed_add, reg_add, timed_schedule.
      destruct (existsb _ _); reflexivity.
    - destruct (run_ops (reg_rem s0 a) ops) as [s2 e2] eqn:E2.
      injection E as <- <-. rewrite (IH _ _ _ E2). reflexivity. }
  assert (forall b now s w s' w' tr x, run_bucket u now b s w = (s', w', tr, x) ->
          s_steps s' = s_steps s) as K.
  { induction b as [|a b IH]; simpl; intros now s0 w0 s0' w0' tr0 x0 E.
    - injection E as <- <- <- <-. reflexivity.
    - destruct (u_step u s0 a w0) as [[w1 ops] o].
      destruct (run_ops s0 ops) as [s1 tr1] eqn:EO. apply KO in EO. rewrite <- EO.
      destruct o as [r| |].
      + match type of E with context [run_bucket u now b ?s2 w1] =>
          destruct (run_bucket u now b s2 w1) as [[[s3 w3] tr3] x3] eqn:EB end.
        injection E as <- <- <- ->. rewrite (IH _ _ _ _ _ _ _ EB).
        destruct (negb _); reflexivity.
      + destruct (run_bucket u now b s1 w1) as [[[s3 w3] tr3] x3] eqn:EB.
        injection E as <- <- <- ->. eauto.
      + injection E as <- <- <- <-. auto. }
  unfold timed_step. destruct (s_queue s) as [|[t b] q].
  - intros E. injection E as <- <- <-. auto.
  - destruct (n_ltb (s_time s) t).
    + intros E. injection E as <- <- <-. auto.
    + destruct (if s_shuffle s then _ else _) as [w0 b0].
      destruct (run_bucket u (s_time s) b0 (set_queue s q) w0) as [[[s1 w1] tr1] x1] eqn:EB.
      apply K in EB. simpl in EB.
      destruct x1; intros E; injection E as <- <- <-; simpl; auto.
      destruct (s_queue s1) as [|[? ?] ?]; simpl; auto.
Qed.

Lemma stepped_max_steps l m n : forall (e e' : env) tr,
  max_steps l = Some m -> (Z.of_nat (s_steps (e_sched e)) <= m)%Z ->
  stepped u n e e' tr ->
  (forall k ek trk, k < n -> stepped u k e ek trk -> ~ reason running l ek) ->
  (Z.of_nat (s_steps (e_sched e')) <= m)%Z.
Proof.
  intros e e' tr M S0 H N. destruct H as [e|n e e1 e2 tr1 tr2 H ES]; auto.
  apply env_step_inv in ES. destruct ES as [ES _]. apply timed_step_steps in ES.
  specialize (N n e1 tr1 (Nat.lt_succ_diag_r n) H).
  assert (~ (m <= Z.of_nat (s_steps (e_sched e1)))%Z) as K.
  { intros L. apply N. right. right. exists m. auto. }
  destruct ES as [->| ->]; lia.
Qed.

(** ** Activations and the clock *)
Lemma stepped_acts l T n (e e' : env) tr :
  max_time l = Some T -> stepped u n e e' tr ->
  (forall k ek trk, k < n -> stepped u k e ek trk -> ~ reason running l ek) ->
  forall t a, In (t, a) (acts tr) -> n_leb T t = false.
Proof.
  intros M H. induction H as [e|n e e1 e2 tr1 tr2 H IH ES]; intros N t a I; [contradiction|].
  rewrite acts_app in I. apply in_app_or in I. destruct I as [I|I].
  - eapply IH; eauto.
  - apply env_step_inv in ES. destruct ES as [ES _].
    rewrite (timed_step_acts_now u _ _ _ _ _ _ ES t a I).
    apply not_true_iff_false. intros L. apply (N n e1 tr1); auto.
    right. left. exists T. auto.
Qed.

Context (Hf : forward_only u).

Lemma stepped_inv n (e e' : env) tr ag :
  (s_shuffle (e_sched e) = true -> fair_shuffle u) -> stepped u n e e' tr ->
  inv (e_sched e) ag ->
  inv (e_sched e') (agenda (s_di (e_sched e)) ag tr) /\ punctual (s_di (e_sched e)) ag tr /\
  no_exc tr /\ s_shuffle (e_sched e') = s_shuffle (e_sched e) /\ s_di (e_sched e') = s_di (e_sched e).
Proof.
  intros FS H I. induction H as [e|n e e1 e2 tr1 tr2 H IH ES].
  - simpl. repeat split; auto; apply I.
  - destruct (IH FS I) as (I1&P1&N1&S1&D1).
    apply env_step_inv in ES. destruct ES as [ES _].
    pose proof (step_no_exc _ _ _ _ _ ES) as N2.
    assert (s_shuffle (e_sched e1) = true -> fair_shuffle u) as FS1 by (rewrite S1; auto).
    destruct (timed_step_inv u Hf _ _ _ _ _ _ _ FS1 ES I1 N2) as (_&I2&P2).
    assert (run_cmd u (e_sched e1) (e_world e1) CStep = (e_sched e2, e_world e2, tr2)) as EC
      by (cbn [run_cmd]; rewrite ES; reflexivity).
    destruct (run_cmd_shuffle u _ _ _ _ _ _ EC) as [S2 D2].
    rewrite D1 in *. rewrite agenda_app, punctual_app. repeat split; auto; try apply I2; try congruence.
    apply no_exc_app; auto.
Qed.

Lemma stepped_winv n (e e' : env) tr : stepped u n e e' tr -> winv (e_sched e) ->
  winv (e_sched e') /\ n_leb (s_time (e_sched e)) (s_time (e_sched e')) = true.
Proof.
  intros H I. induction H as [e|n e e1 e2 tr1 tr2 H IH ES].
  - split; auto. apply n_leb_refl, nonneg_is_time, I.
  - destruct (IH I) as [I1 L1]. apply env_step_inv in ES. destruct ES as [ES _].
    destruct (timed_step_winv u Hf _ _ _ _ _ _ ES I1) as (I2&L2&_).
    split; auto. eapply n_leb_trans; eauto.
Qed.
End R.

(** ** Data collection *)
Section Data.
Context {W V : Type} (u : user W).
Notation reporter := (@reporter W V).
Notation collector := (@collector W V).

Definition cinv (c : collector) : Prop :=
  dwf (c_reps c) /\ forall k, dhas k (c_vars c) = dhas k (c_reps c).

Lemma new_reporter_inv (c : collector) name f : cinv c -> cinv (new_reporter c name f).
Proof.
  intros [H1 H2]. split; simpl.
  - apply dset_wf; auto.
  - intros k. rewrite !dhas_set, H2. reflexivity.
Qed.

Lemma new_reporters_inv l : forall c : collector, cinv c ->
  cinv (fold_left (fun c p => new_reporter c (fst p) (snd p)) l c).
Proof. induction l as [|p l IH]; simpl; intros c H; auto using new_reporter_inv. Qed.

Lemma new_reporters_reps l : forall c : collector,
  c_reps (fold_left (fun c p => new_reporter c (fst p) (snd p)) l c) = dupdate (c_reps c) l.
Proof. induction l as [|[k f] l IH]; simpl; intros c; auto. rewrite IH. reflexivity. Qed.

Lemma new_reporters_vars l : forall c : collector, (forall k col, dget k (c_vars c) = Some col -> col = []) ->
  forall k col, dget k (c_vars (fold_left (fun c p => new_reporter c (fst p) (snd p)) l c)) = Some col ->
  col = [].
Proof.
  induction l as [|[k0 f] l IH]; simpl; intros c H; auto.
  apply IH. simpl. intros k col. rewrite dget_set. destruct (eqb k k0); eauto. congruence.
Qed.

Lemma cinv_nil : cinv (Collector [] []).
Proof. split; [apply dwf_nil|reflexivity]. Qed.

Lemma collect_get (c : collector) s w k : dwf (c_reps c) ->
  dget k (c_vars (collect c s w)) =
  match dget k (c_reps c), dget k (c_vars c) with
  | Some f, Some col => Some (col ++ [f s w])
  | _, o => o
  end.
Proof.
  unfold collect. simpl. destruct c as [reps vars]; simpl. unfold dwf.
  revert vars. induction reps as [|[k0 f] reps IH]; simpl; intros vars N.
  - reflexivity.
  - inversion N as [|x l N1 N2]; subst. rewrite IH by auto.
    destruct (eqb k k0) eqn:E.
    + apply eqb_eq in E. subst k0. replace (dget k reps) with (@None reporter).
      2:{ symmetry. apply dget_none. auto. }
      destruct (dget k vars) eqn:G; [now rewrite dget_set_same|auto].
    + assert (dget k (match dget k0 vars with
                      | Some col => dset k0 (col ++ [f s w]) vars
                      | None => vars end) = dget k vars) as ->.
      { destruct (dget k0 vars); auto. rewrite dget_set, E. reflexivity. }
      reflexivity.
Qed.

Lemma collect_reps (c : collector) s w : c_reps (collect c s w) = c_reps c.
Proof. reflexivity. Qed.

Lemma collect_inv (c : collector) s w : cinv c -> cinv (collect c s w).
Proof.
  intros [H1 H2]. split; auto. intros k. rewrite collect_reps, dhas_get, collect_get by auto.
  rewrite <- H2, dhas_get. destruct (dget k (c_reps c)), (dget k (c_vars c)); auto.
Qed.

Lemma make_env_col mr more s w :
  cinv (e_col (@make_env W V mr more s w)) /\
  c_reps (e_col (make_env mr more s w)) = dupdate (dupdate [] (with_defaults mr)) more /\
  forall k f, dget k (c_reps (e_col (make_env mr more s w))) = Some f ->
    dget k (c_vars (e_col (make_env mr more s w))) = Some [f s w].
Proof.
  unfold make_env. cbn [e_col]. unfold soil_collector.
  set (c0 := fold_left _ (with_defaults mr) (Collector [] [])).
  set (c1 := fold_left _ more c0).
  assert (cinv c1) as I1 by (apply new_reporters_inv, new_reporters_inv, cinv_nil).
  assert (forall k col, dget k (c_vars c1) = Some col -> col = []) as V1.
  { apply new_reporters_vars, new_reporters_vars. simpl. discriminate. }
  split; [now apply collect_inv|]. split.
  - rewrite collect_reps. unfold c1, c0. now rewrite !new_reporters_reps.
  - intros k f G. rewrite collect_reps in G. rewrite collect_get by apply I1. rewrite G.
    assert (dhas k (c_vars c1) = true) as HV.
    { destruct I1 as [_ I1]. rewrite I1, dhas_get, G. reflexivity. }
    rewrite dhas_get in HV. destruct (dget k (c_vars c1)) as [col|] eqn:GV; [|discriminate].
    now rewrite (V1 _ _ GV).
Qed.

Lemma stepped_col n (e e' : @env W V) tr : stepped u n e e' tr -> cinv (e_col e) ->
  cinv (e_col e') /\ c_reps (e_col e') = c_reps (e_col e) /\
  forall k f col, dget k (c_reps (e_col e)) = Some f -> dget k (c_vars (e_col e)) = Some col ->
    exists more, dget k (c_vars (e_col e')) = Some (col ++ more) /\ List.length more = n /\
      forall i ei tri, 1 <= i <= n -> stepped u i e ei tri ->
        nth_error more (i - 1) = Some (f (e_sched ei) (e_world ei)).
Proof.
  intros H I. induction H as [e|n e e1 e2 tr1 tr2 H IH ES].
  - split; auto. split; auto. intros k f col _ G. exists []. rewrite app_nil_r.
    repeat split; auto. intros; lia.
  - destruct (IH I) as (I1&R1&C1). pose proof ES as ES0. apply env_step_inv in ES. destruct ES as [_ EC].
    rewrite EC. split; [now apply collect_inv|]. split; [rewrite collect_reps; auto|].
    intros k f col Gf Gc. destruct (C1 k f col Gf Gc) as (more&G1&L1&N1).
    exists (more ++ [f (e_sched e2) (e_world e2)]).
    rewrite collect_get by apply I1. rewrite R1, Gf, G1, app_assoc. split; auto.
    rewrite app_length. simpl. split; [lia|].
    intros i ei tri B SI. destruct (Nat.eq_dec i (S n)) as [->|NE].
    + assert (stepped u (S n) e e2 (tr1 ++ tr2)) as S2 by (econstructor; eauto).
      destruct (stepped_det u _ _ _ _ _ _ SI S2) as [-> _].
      rewrite nth_error_app2 by lia. replace (S n - 1 - List.length more) with 0 by lia. reflexivity.
    + rewrite nth_error_app1 by lia. apply (N1 i ei tri); auto. lia.
Qed.

Lemma stepped_prefix n (e e' : @env W V) tr : stepped u n e e' tr -> forall i, i <= n ->
  exists ei t1 t2, stepped u i e ei t1 /\ tr = t1 ++ t2 /\ stepped u (n - i) ei e' t2.
Proof.
  intros H. induction H as [e|n e e1 e2 tr1 tr2 H IH ES]; intros i L.
  - exists e, [], []. assert (i = 0) as -> by lia. repeat split; constructor.
  - destruct (Nat.eq_dec i (S n)) as [->|N].
    + exists e2, (tr1 ++ tr2), []. rewrite app_nil_r, Nat.sub_diag. repeat split; try constructor.
      econstructor; eauto.
    + destruct (IH i ltac:(lia)) as (ei&t1&t2&S1&->&S2). exists ei, t1, (t2 ++ tr2).
      rewrite app_assoc. repeat split; auto. replace (S n - i) with (S (n - i)) by lia.
      econstructor; eauto.
Qed.

(** The final theorem about data. *)
Lemma columns mr more s w n e' tr :
  stepped u n (@make_env W V mr more s w) e' tr ->
  (forall k f, dget k (c_reps (e_col e')) = Some f ->
    exists col, dget k (c_vars (e_col e')) = Some col /\ List.length col = S n /\
      forall i ei tri, i <= n -> stepped u i (make_env mr more s w) ei tri ->
        nth_error col i = Some (f (e_sched ei) (e_world ei))) /\
  (forall k, dhas k (c_vars (e_col e')) = dhas k (c_reps (e_col e'))) /\
  c_reps (e_col e') = dupdate (dupdate [] (with_defaults mr)) more.
Proof.
  intros H. destruct (make_env_col mr more s w) as (I0&R0&C0).
  destruct (stepped_col _ _ _ _ H I0) as (I1&R1&C1).
  split; [|split; [apply I1|congruence]].
  intros k f G. rewrite R1 in G. specialize (C0 k f G).
  destruct (C1 k f _ G C0) as (m&G1&L1&N1).
  exists ([f s w] ++ m). split; auto. split; [simpl; lia|].
  intros i ei tri B SI. destruct i as [|i].
  - inversion SI; subst. reflexivity.
  - specialize (N1 (S i) ei tri ltac:(lia) SI). replace (S i - 1) with i in N1 by lia. exact N1.
Qed.

Local Open Scope string_scope.
Lemma with_defaults_get (mr : dict string reporter) k : dget k (with_defaults mr) =
  match dget k mr with
  | Some f => Some f
  | None => if eqb k "agent_count" then Some rep_count
            else if eqb k "time" then Some rep_time else None
  end.
Proof.
  unfold with_defaults. rewrite (dhas_get "time").
  destruct (dhas "agent_count" mr) eqn:HA.
  - rewrite dhas_get in HA. destruct (dget "time" mr) eqn:T.
    + destruct (dget k mr) eqn:K; auto.
      destruct (eqb k "agent_count") eqn:E1. { apply eqb_eq in E1. subst. rewrite K in HA. discriminate. }
      destruct (eqb k "time") eqn:E2; auto. apply eqb_eq in E2. subst. congruence.
    + rewrite dget_set. destruct (eqb k "time") eqn:E2.
      * apply eqb_eq in E2. subst. rewrite T. reflexivity.
      * destruct (dget k mr) eqn:K; auto.
        destruct (eqb k "agent_count") eqn:E1; auto. apply eqb_eq in E1. subst. rewrite K in HA. discriminate.
  - rewrite dhas_get in HA. destruct (dget "agent_count" mr) eqn:GA; [discriminate|].
    rewrite dget_set. change (eqb "time" "agent_count") with false. cbn iota.
    destruct (dget "time" mr) eqn:T.
    + rewrite dget_set. destruct (eqb k "agent_count") eqn:E1.
      * apply eqb_eq in E1. subst. now rewrite GA.
      * destruct (dget k mr) eqn:K; auto. destruct (eqb k "time") eqn:E2; auto.
        apply eqb_eq in E2. subst. congruence.
    + rewrite !dget_set. destruct (eqb k "time") eqn:E2.
      * apply eqb_eq in E2. subst. rewrite T. reflexivity.
      * destruct (eqb k "agent_count") eqn:E1.
        -- apply eqb_eq in E1. subst. now rewrite GA.
        -- destruct (dget k mr); auto.
Qed.

Lemma with_defaults_wf mr : dwf mr -> dwf (@with_defaults W V mr).
Proof.
  intros H. unfold with_defaults. destruct (dhas "agent_count" mr).
  - destruct (dhas "time" mr); auto using dset_wf.
  - destruct (dhas "time" (dset "agent_count" rep_count mr)); auto using dset_wf.
Qed.
End Data.

(** ** Termination *)
Section T.
Context {HP : Precise AR} {W V : Type} (u : user W) (running : W -> bool).
Notation env := (@env W V).

(** Histories without steps: what happens before the run. *)
Lemma setup_queue h : forall s w s' w' tr,
  run_hist u h s w = (s', w', tr) -> setup h = true ->
  (s_reg s <> [] -> s_queue s <> []) -> s_reg s' <> [] -> s_queue s' <> [].
Proof.
  induction h as [|c h IH]; simpl; intros s w s' w' tr E B H.
  - injection E as <- <- <-. auto.
  - destruct (run_cmd u s w c) as [[s1 w1] tr1] eqn:E1.
    destruct (run_hist u h s1 w1) as [[s2 w2] tr2] eqn:E2. injection E as <- <- <-.
    apply andb_true_iff in B. destruct B as [B1 B2].
    apply (IH _ _ _ _ _ E2 B2).
    destruct c as [|a when|a|f]; cbn [run_cmd run_op] in E1, B1; try discriminate.
    + injection E1 as <- <- <-. intros _. rewrite timed_add_queue. apply insert_not_nil.
    + injection E1 as <- <- <-. simpl. intros R. apply H. intros X. rewrite X in R. auto.
    + injection E1 as <- <- <-. auto.
Qed.

Lemma after_fuel tr (r : @run_result W V) : r <> RFuel -> after tr r <> RFuel.
Proof. destruct r; simpl; congruence. Qed.

Section ByTime.
Context (Hf : forward_only u) (Hn : adds_none u).

Lemma run_loop_time l T : max_time l = Some (Fin T) -> forall n (e : env),
  winv (e_sched e) -> n_ltb (Fin 0) (s_di (e_sched e)) = true -> alive (e_sched e) ->
  match s_time (e_sched e) with Fin t => Z.to_nat (T - t) <= n | _ => True end ->
  run_loop u running (S n) l e <> RFuel.
Proof.
  intros ML. induction n as [|n IH]; intros e H D A M.
  - cbn [run_loop]. destruct (is_done running l e) eqn:ED; [discriminate|].
    exfalso. apply not_true_iff_false in ED. apply ED. unfold is_done. rewrite ML.
    rewrite !orb_true_iff. left. right.
    destruct H as (HT&_). destruct (s_time (e_sched e)) as [t| | |]; try discriminate; auto.
    unfold n_leb. simpl. rewrite orb_true_iff, Z.ltb_lt, Z.eqb_eq. lia.
  - remember (S n) as m. cbn [run_loop]. destruct (is_done running l e) eqn:ED; [discriminate|].
    assert (n_leb (Fin T) (s_time (e_sched e)) = false) as L.
    { apply not_true_iff_false. intros X. apply not_true_iff_false in ED. apply ED.
      unfold is_done. rewrite ML, X, orb_true_r. reflexivity. }
    assert (n_eqb (s_time (e_sched e)) PInf = false) as NI.
    { destruct (s_time (e_sched e)); try reflexivity. discriminate. }
    destruct (env_step u e) as [[e1 tr1] [|]] eqn:ES; [discriminate|].
    apply env_step_inv in ES. destruct ES as [ES _].
    assert (s_queue (e_sched e) <> []) as Q.
    { destruct A as [A|A]; [auto|]. rewrite A in NI. discriminate. }
    destruct (step_progress u Hf Hn _ _ _ _ _ H D Q NI ES) as (LT&A1&H1&D1). subst m.
    apply after_fuel, IH; auto; try congruence.
    destruct (s_time (e_sched e1)) as [t1| | |] eqn:T1; auto.
    destruct H as (HT&_).
    destruct (s_time (e_sched e)) as [t| | |]; simpl in LT; try discriminate; auto.
    rewrite Z.ltb_lt in LT. unfold n_leb in L. simpl in L.
    rewrite orb_false_iff, Z.ltb_ge, Z.eqb_neq in L. lia.
Qed.
End ByTime.

Section BySteps.
Context (Hi : immortal u).

Definition qfin (q : list (num * list aid)) : Prop := Forall (fun p => exists z, fst p = Fin z) q.
Definition fin (x : num) : Prop := exists z, x = Fin z.
Definition finv (s : sched) : Prop := fin (s_time s) /\ fin (s_di s) /\ qfin (s_queue s).

Lemma insert_qfin q t a : fin t -> qfin q -> qfin (insert_bucket q t a).
Proof.
  intros T H. induction H as [|[k b] q HK H IH]; simpl.
  - constructor; [exact T|constructor].
  - destruct (n_eqb k t); [constructor; auto|].
    destruct (n_ltb t k); constructor; auto.
Qed.

Lemma timed_add_finv s a when : finv s -> finv (timed_add s a when) /\
  s_time (timed_add s a when) = s_time s /\ s_di (timed_add s a when) = s_di s /\
  s_steps (timed_add s a when) = s_steps s /\ s_queue (timed_add s a when) <> [].
Proof.
  intros (H1&H2&H3). unfold timed_add, reg_add, timed_schedule.
  destruct (existsb _ _); (split; [split; [exact H1|split; [exact H2|apply insert_qfin; auto]]|]);
    repeat split; apply insert_not_nil.
Qed.

Lemma run_ops_finv ops : forall s s' tr, run_ops s ops = (s', tr) -> finv s ->
  finv s' /\ s_time s' = s_time s /\ s_di s' = s_di s /\ s_steps s' = s_steps s /\
  (s_queue s <> [] -> s_queue s' <> []).
Proof.
  induction ops as [|[a when|a] ops IH]; simpl; intros s s' tr E H.
  - injection E as <- <-. auto.
  - destruct (run_ops (timed_add s a when) ops) as [s2 e2] eqn:E2. injection E as <- <-.
    destruct (timed_add_finv s a when H) as (A1&A2&A3&A4&A5).
    destruct (IH _ _ _ E2 A1) as (B1&B2&B3&B4&B5).
    repeat split; try apply B1; try congruence. auto.
  - destruct (run_ops (reg_rem s a) ops) as [s2 e2] eqn:E2. injection E as <- <-.
    destruct (IH _ _ _ E2 H) as (B1&B2&B3&B4&B5). auto.
Qed.

Lemma run_bucket_finv b : forall s w s' w' tr x,
  run_bucket u (s_time s) b s w = (s', w', tr, x) -> finv s ->
  x = false /\ finv s' /\ s_time s' = s_time s /\ s_di s' = s_di s /\ s_steps s' = s_steps s /\
  (s_queue s <> [] \/ b <> [] -> s_queue s' <> []).
Proof.
  induction b as [|a b IH]; cbn [run_bucket]; intros s w s' w' tr x E H.
  - injection E as <- <- <- <-. repeat split; auto; try apply H. intros [X|X]; auto.
  - pose proof (Hi s a w) as HI. destruct (u_step u s a w) as [[w1 ops] o].
    destruct (run_ops s ops) as [s1 tr1] eqn:EO.
    destruct (run_ops_finv _ _ _ _ EO H) as (A1&A2&A3&A4&A5).
    destruct o as [r| |]; try contradiction.
    assert (fin (n_add (or_num r (s_di s1)) (s_time s))) as FT.
    { destruct H as ((z&HZ)&_). destruct A1 as (_&(d&HD)&_). rewrite HZ, HD.
      destruct r as [v|]; simpl.
      - destruct HI as (v'&->). destruct (n_truthy (Fin v')); apply precise_fin.
      - apply precise_fin. }
    destruct FT as (ft&FT). rewrite FT in E. cbn [n_eqb negb] in E.
    set (s2 := timed_schedule s1 a (Some (Fin ft))) in *.
    assert (finv s2 /\ s_queue s2 <> []) as [F2 Q2].
    { unfold s2, timed_schedule. destruct A1 as (F1&F2&F3). split; [|apply insert_not_nil].
      split; [|split]; auto. apply insert_qfin; auto.
      unfold or_num. destruct (n_truthy (Fin ft)); auto. eexists; reflexivity. }
    assert (s_time s2 = s_time s) as T2 by exact A2.
    rewrite <- T2 in E.
    destruct (run_bucket u (s_time s2) b s2 w1) as [[[s3 w3] tr3] x3] eqn:EB.
    injection E as <- <- <- <-.
    destruct (IH _ _ _ _ _ _ EB F2) as (B0&B1&B2&B3&B4&B5).
    repeat split; auto; try apply B1; try congruence.
    + rewrite B3. exact A3.
    + rewrite B4. exact A4.
Qed.

Definition due_later (s : sched) : bool :=
  match s_queue s with (t, _) :: _ => n_ltb (s_time s) t | [] => false end.

Lemma timed_step_finv s w s' w' tr x :
  (s_shuffle s = true -> fair_shuffle u) ->
  timed_step u s w = (s', w', tr, x) -> finv s -> s_queue s <> [] ->
  (forall t b q, s_queue s = (t, b) :: q -> b <> []) ->
  x = false /\ finv s' /\ s_queue s' <> [] /\ due_later s' = false /\
  ((s_steps s' = S (s_steps s)) \/ (s_steps s' = s_steps s /\ due_later s = true)).
Proof.
  intros FS E H Q NB. unfold timed_step in E. unfold due_later.
  destruct (s_queue s) as [|[t b] q] eqn:EQ; [congruence|].
  destruct H as (H1&H2&H3). rewrite EQ in H3. inversion H3 as [|p l HT HQ]; subst.
  destruct (n_ltb (s_time s) t) eqn:LT.
  - injection E as <- <- <- <-. split; auto. split; [|simpl; rewrite EQ; split; [congruence|split]].
    + split; [exact HT|split; [auto|]]. simpl. rewrite EQ. auto.
    + apply n_ltb_irrefl.
    + right. auto.
  - destruct (if s_shuffle s then u_shuffle u b w else (w, b)) as [w0 b0] eqn:ESH.
    assert (b0 <> []) as NB0.
    { specialize (NB _ _ _ eq_refl). destruct (s_shuffle s).
      - specialize (FS eq_refl b w). rewrite ESH in FS. simpl in FS. intros ->.
        apply Permutation_sym, Permutation_nil in FS. auto.
      - injection ESH as <- <-. auto. }
    destruct (run_bucket u (s_time s) b0 (set_queue s q) w0) as [[[s1 w1] tr1] x1] eqn:EB.
    change (s_time s) with (s_time (set_queue s q)) in EB.
    destruct (run_bucket_finv _ _ _ _ _ _ _ EB) as (A0&A1&A2&A3&A4&A5).
    { split; [exact H1|split; [exact H2|exact HQ]]. }
    subst x1. destruct A1 as (F1&F2&F3).
    cbn [s_queue set_steps] in E. specialize (A5 (or_intror NB0)).
    destruct (s_queue s1) as [|[t1 b1] q1] eqn:EQ1; [congruence|].
    injection E as <- <- <- <-. inversion F3 as [|p l HT1 HQ1]; subst.
    split; auto. split; [|simpl; rewrite EQ1; split; [congruence|split; [apply n_ltb_irrefl|]]].
    + split; [exact HT1|split; [exact F2|]]. simpl. rewrite EQ1. exact F3.
    + left. simpl in A4. congruence.
Qed.

Context (Hf : forward_only u).

Lemma run_loop_steps l m : max_steps l = Some m -> forall n (e : env),
  (s_shuffle (e_sched e) = true -> fair_shuffle u) ->
  winv (e_sched e) -> finv (e_sched e) -> s_queue (e_sched e) <> [] ->
  2 * Z.to_nat (m - Z.of_nat (s_steps (e_sched e))) + (if due_later (e_sched e) then 1 else 0) <= n ->
  run_loop u running (S n) l e <> RFuel.
Proof.
  intros ML. induction n as [|n IH]; intros e FS HW H Q M.
  - cbn [run_loop]. destruct (is_done running l e) eqn:ED; [discriminate|].
    exfalso. apply not_true_iff_false in ED. apply ED. unfold is_done. rewrite ML.
    rewrite orb_true_iff. right. apply Z.leb_le. lia.
  - remember (S n) as k. cbn [run_loop]. destruct (is_done running l e) eqn:ED; [discriminate|].
    assert (Z.of_nat (s_steps (e_sched e)) < m)%Z as L.
    { apply Z.nle_gt. intros X. apply not_true_iff_false in ED. apply ED.
      unfold is_done. rewrite ML. apply Z.leb_le in X. rewrite X, orb_true_r. reflexivity. }
    destruct (env_step u e) as [[e1 tr1] x] eqn:ES.
    apply env_step_inv in ES. destruct ES as [ES _].
    assert (forall t b q, s_queue (e_sched e) = (t, b) :: q -> b <> []) as NB.
    { intros t b q EQ. destruct HW as (_&_&HW). rewrite EQ in HW. apply HW. }
    destruct (timed_step_finv _ _ _ _ _ _ FS ES H Q NB) as (X&H1&Q1&D1&ST). subst x k.
    destruct (timed_step_winv u Hf _ _ _ _ _ _ ES HW) as (HW1&_).
    assert (run_cmd u (e_sched e) (e_world e) CStep = (e_sched e1, e_world e1, tr1)) as EC
      by (cbn [run_cmd]; rewrite ES; reflexivity).
    destruct (run_cmd_shuffle u _ _ _ _ _ _ EC) as [S2 _].
    apply after_fuel, IH; auto.
    + rewrite S2. auto.
    + rewrite D1. destruct ST as [ST|[ST DL]]; [|rewrite DL in M]; rewrite ST in *; lia.
Qed.

Lemma setup_finv h : forall s w s' w' tr,
  run_hist u h s w = (s', w', tr) -> setup h = true ->
  finv s -> finv s'.
Proof.
  induction h as [|c h IH]; simpl; intros s w s' w' tr E B H.
  - injection E as <- <- <-. auto.
  - destruct (run_cmd u s w c) as [[s1 w1] tr1] eqn:E1.
    destruct (run_hist u h s1 w1) as [[s2 w2] tr2] eqn:E2. injection E as <- <- <-.
    apply andb_true_iff in B. destruct B as [B1 B2].
    apply (IH _ _ _ _ _ E2 B2).
    destruct c as [|a when|a|f]; cbn [run_cmd run_op] in E1, B1; try discriminate.
    + injection E1 as <- <- <-. apply timed_add_finv; auto.
    + injection E1 as <- <- <-. exact H.
    + injection E1 as <- <- <-. auto.
Qed.
End BySteps.
End T.

Section Final.
Context {W V : Type} (u : user W) (running : W -> bool).

Lemma run_model_loop fuel l (e : @env W V) r : run_model u running fuel l e = r ->
  r = RNoAgents \/ run_loop u running fuel l e = r.
Proof. unfold run_model. destruct (s_reg (e_sched e)); auto. Qed.

Lemma no_late_activation fuel l T (e e' : @env W V) tr :
  max_time l = Some T ->
  run_model u running fuel l e = RReturned e' tr \/ run_model u running fuel l e = RRaised e' tr ->
  forall t a, In (t, a) (acts tr) -> n_leb T t = false.
Proof.
  intros M [E|E] t a I; apply run_model_loop in E; destruct E as [E|E]; try discriminate.
  - destruct (run_loop_stepped _ _ _ _ _ _ _ E) as (n&S1&_&N1).
    eapply stepped_acts; eauto.
  - destruct (run_loop_raised _ _ _ _ _ _ _ E) as (n&e1&t1&t2&S1&E1&->&N1).
    rewrite acts_app in I. apply in_app_or in I. destruct I as [I|I].
    + eapply stepped_acts; eauto. intros k ek trk L. apply N1. lia.
    + apply env_step_inv in E1. destruct E1 as [E1 _].
      rewrite (timed_step_acts_now u _ _ _ _ _ _ E1 t a I).
      apply not_true_iff_false. intros L. apply (N1 n e1 t1); auto.
      right. left. exists T. auto.
Qed.

Lemma pending_after_run fuel l T h sh di w0 s w tr0 mr more (e' : @env W V) tr :
  forward_only u -> (sh = true -> fair_shuffle u) -> nonneg di = true ->
  run_hist u h (timed_init sh di) w0 = (s, w, tr0) -> no_exc tr0 ->
  max_time l = Some T ->
  run_model u running fuel l (make_env mr more s w) = RReturned e' tr ->
  ~ stopped_itself running e' -> ~ steps_reached l e' ->
  forall t a, In (t, a) (agenda di [] (tr0 ++ tr)) -> n_leb T t = true.
Proof.
  intros HF FS D E0 N0 M E NS NR t a I.
  apply run_model_loop in E. destruct E as [E|E]; [discriminate|].
  destruct (run_loop_stepped _ _ _ _ _ _ _ E) as (n&S1&[R|[R|R]]&_); try contradiction.
  destruct (run_hist_inv u HF h (timed_init sh di) _ _ _ _ _ FS E0 (inv_init sh di D) N0)
    as (I0&_&SH&DI). cbn [s_di s_shuffle timed_init] in *.
  assert (s_shuffle (e_sched (@make_env W V mr more s w)) = true -> fair_shuffle u) as FS1
    by (cbn [e_sched make_env]; rewrite SH; auto).
  destruct (stepped_inv u HF _ _ _ _ _ FS1 S1 I0) as (I1&_).
  cbn [e_sched make_env] in I1. rewrite DI in I1. rewrite agenda_app in I.
  pose proof (inv_not_late _ _ I1 t a I) as L.
  destruct R as (T'&M'&R). rewrite M in M'. injection M' as <-.
  eapply n_leb_trans; eauto.
Qed.

Lemma run_stops fuel l (e e' : @env W V) tr :
  run_model u running fuel l e = RReturned e' tr ->
  (exists n, stepped u n e e' tr /\ reason running l e' /\
    forall m em trm, m < n -> stepped u m e em trm -> ~ reason running l em) /\
  (forall m, max_steps l = Some m -> (Z.of_nat (s_steps (e_sched e)) <= m)%Z ->
     (Z.of_nat (s_steps (e_sched e')) <= m)%Z).
Proof.
  intros E. apply run_model_loop in E. destruct E as [E|E]; [discriminate|].
  destruct (run_loop_stepped _ _ _ _ _ _ _ E) as (n&S1&R&N). split; [eauto|].
  intros m M L. eapply stepped_max_steps; eauto.
Qed.

Lemma run_returns n l (e e' : @env W V) tr :
  s_reg (e_sched e) <> [] ->
  stepped u n e e' tr -> reason running l e' ->
  (forall m em trm, m < n -> stepped u m e em trm -> ~ reason running l em) ->
  run_model u running (S n) l e = RReturned e' tr.
Proof.
  intros NR H R N. unfold run_model. destruct (s_reg (e_sched e)) eqn:ER; [congruence|].
  apply stepped_run_loop; auto.
Qed.

Lemma finishes_by_time {HP : Precise AR} l T h sh di w0 s w tr0 mr more :
  forward_only u -> adds_none u -> n_ltb (Fin 0) di = true ->
  run_hist u h (timed_init sh di) w0 = (s, w, tr0) -> setup h = true ->
  max_time l = Some (Fin T) ->
  exists fuel, run_model u running fuel l (@make_env W V mr more s w) <> RFuel.
Proof.
  intros HF HN D E0 B M.
  destruct (run_hist_winv u HF h _ _ _ _ _ E0 (winv_init sh di (n_ltb_nonneg _ D))) as (H&_&DI).
  unfold run_model. cbn [e_sched make_env]. destruct (s_reg s) eqn:ER; [exists 0; discriminate|].
  assert (s_queue s <> []) as Q.
  { eapply setup_queue; eauto; simpl; congruence. }
  exists (S (match s_time s with Fin k => Z.to_nat (T - k) | _ => 0 end)).
  apply run_loop_time with (T := T); auto; cbn [e_sched make_env].
  - rewrite DI. exact D.
  - left. auto.
  - destruct (s_time s); auto.
Qed.

Lemma finishes_by_steps {HP : Precise AR} l m h sh di w0 s w tr0 mr more :
  forward_only u -> immortal u -> (sh = true -> fair_shuffle u) -> (0 <= di)%Z ->
  run_hist u h (timed_init sh (Fin di)) w0 = (s, w, tr0) -> setup h = true ->
  max_steps l = Some m ->
  exists fuel, run_model u running fuel l (@make_env W V mr more s w) <> RFuel.
Proof.
  intros HF HI FS D E0 B M.
  assert (nonneg (Fin di) = true) as ND.
  { unfold nonneg, n_leb. simpl. apply orb_true_iff. rewrite Z.ltb_lt, Z.eqb_eq. lia. }
  destruct (run_hist_winv u HF h _ _ _ _ _ E0 (winv_init sh _ ND)) as (H&_&DI).
  assert (no_exc tr0) as N0.
  { clear - E0 B. revert E0 B. generalize (timed_init sh (Fin di)). revert w0 tr0.
    induction h as [|c h IH]; simpl; intros w0 tr0 s0 E B.
    - injection E as <- <- <-. reflexivity.
    - destruct (run_cmd u s0 w0 c) as [[s1 w1] tr1] eqn:E1.
      destruct (run_hist u h s1 w1) as [[s2 w2] tr2] eqn:E2. injection E as <- <- <-.
      apply andb_true_iff in B. destruct B as [B1 B2]. apply no_exc_app. split; eauto.
      destruct c; cbn [run_cmd run_op] in E1; try discriminate; injection E1 as <- <- <-; reflexivity. }
  destruct (run_hist_inv u HF h (timed_init sh (Fin di)) _ _ _ _ _ FS E0 (inv_init sh _ ND) N0)
    as (_&_&SH&_). cbn [s_shuffle timed_init] in SH.
  unfold run_model. cbn [e_sched make_env]. destruct (s_reg s) eqn:ER; [exists 0; discriminate|].
  assert (s_queue s <> []) as Q.
  { eapply setup_queue; eauto; simpl; congruence. }
  assert (finv s) as F.
  { eapply setup_finv; eauto. repeat split; simpl; try (eexists; reflexivity). constructor. }
  eexists. eapply run_loop_steps; eauto; cbn [e_sched make_env]; auto.
Qed.

(** The column of the clock. *)
Lemma time_column mr more s w n (e' : @env W V) tr col :
  forward_only u -> winv s ->
  dget "time"%string mr = None -> dhas "time"%string more = false -> dwf mr ->
  stepped u n (make_env mr more s w) e' tr ->
  dget "time"%string (c_vars (e_col e')) = Some col ->
  exists ts, col = map CTime ts /\ non_decreasing ts /\ List.length ts = S n /\
    hd_error ts = Some (s_time s).
Proof.
  intros HF HW G1 G2 WF H GC.
  assert (forall n (e e' : @env W V) tr, stepped u n e e' tr -> winv (e_sched e) ->
    cinv (e_col e) -> dget "time"%string (c_reps (e_col e)) = Some rep_time ->
    forall ts, dget "time"%string (c_vars (e_col e)) = Some (map CTime (ts ++ [s_time (e_sched e)])) ->
    non_decreasing (ts ++ [s_time (e_sched e)]) ->
    exists ts', dget "time"%string (c_vars (e_col e')) = Some (map CTime (ts' ++ [s_time (e_sched e')])) /\
      non_decreasing (ts' ++ [s_time (e_sched e')]) /\ List.length ts' = List.length ts + n /\
      hd_error (ts' ++ [s_time (e_sched e')]) = hd_error (ts ++ [s_time (e_sched e)])) as K.
  { clear - HF. intros n e e' tr H. induction H as [e|n e e1 e2 tr1 tr2 H IH ES]; intros I C R ts G ND.
    - exists ts. repeat split; auto.
    - destruct (IH I C R ts G ND) as (ts1&G1&N1&L1&H1).
      destruct (stepped_winv u HF _ _ _ _ H I) as [I1 _].
      destruct (stepped_col u _ _ _ _ H C) as (C1&R1&_).
      apply env_step_inv in ES. destruct ES as [ES EC].
      destruct (timed_step_winv u HF _ _ _ _ _ _ ES I1) as (I2&LE&_).
      exists (ts1 ++ [s_time (e_sched e1)]).
      rewrite EC, collect_get by apply C1. rewrite R1, R, G1.
      split; [rewrite !map_app; reflexivity|]. split; [|split].
      + revert LE N1. generalize (s_time (e_sched e1)), (s_time (e_sched e2)). clear.
        intros a b LE. induction ts1 as [|x ts1 IH]; [simpl; auto|].
        destruct ts1 as [|y ts1]; [simpl in *; tauto|].
        intros N. change (n_leb x y = true /\ non_decreasing ((y :: ts1) ++ [a])) in N.
        change (n_leb x y = true /\ non_decreasing (((y :: ts1) ++ [a]) ++ [b])). tauto.
      + rewrite app_length. simpl. lia.
      + rewrite <- H1. destruct ts1; reflexivity. }
  destruct (make_env_col mr more s w) as (C0&R0&V0).
  assert (dget "time"%string (c_reps (e_col (make_env mr more s w))) = Some rep_time) as RT.
  { rewrite R0, dget_update. replace (dget "time"%string (rev more)) with (@None (@reporter W V)).
    2:{ symmetry. apply dget_none. intros I. apply not_true_iff_false in G2. apply G2.
        apply dhas_in. unfold dkeys in *. rewrite map_rev in I. apply in_rev in I. exact I. }
    rewrite dget_update_wf by (apply with_defaults_wf; auto).
    rewrite with_defaults_get, G1. reflexivity. }
  destruct (K _ _ _ _ H HW C0 RT [] (V0 _ _ RT) I) as (ts&G3&N3&L3&H3).
  rewrite GC in G3. injection G3 as ->. exists (ts ++ [s_time (e_sched e')]).
  repeat split; auto.
  - rewrite app_length. simpl in *. lia.
Qed.
End Final.
End Arith.
