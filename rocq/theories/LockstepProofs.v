(** Proofs about [Lockstepper]. *)
From Coq Require Import ZArith List Bool Arith Lia Permutation.
From Verif Require Import Num TimedModel TimedSpec TimedProofs PQueueProofs2 LockstepModel LockstepSpec.
Import ListNotations.

Section Arith.
Context {AR : Arith}.

Section L.
Context {W : Type} (u : user W) (Hf : forward_only u).

Definition linv (l : lock) (ag : list (num * aid)) : Prop :=
  inv (l_sched l) ag /\ n_leb (l_time l) (s_time (l_sched l)) = true.

Definition before (t : num) (tr : list ev) : Prop :=
  forall k a, In (k, a) (acts tr) -> n_ltb k t = true.

Lemma before_app t tr1 tr2 : before t (tr1 ++ tr2) <-> before t tr1 /\ before t tr2.
Proof.
  unfold before. split.
  - intros H. split; intros k a I; apply (H k a); rewrite acts_app; apply in_or_app; auto.
  - intros [H1 H2] k a I. rewrite acts_app in I. apply in_app_or in I. destruct I; eauto.
Qed.

Lemma timed_step_acts_now s w s' w' tr x : timed_step u s w = (s', w', tr, x) ->
  forall k a, In (k, a) (acts tr) -> k = s_time s.
Proof.
  assert (forall b now s w s' w' tr x, run_bucket u now b s w = (s', w', tr, x) ->
    forall k a, In (k, a) (acts tr) -> k = now) as K.
  { assert (forall ops s s' tr, run_ops s ops = (s', tr) -> acts tr = []) as KO.
    { induction ops as [|[a when|a] ops IH]; simpl; intros s0 s0' tr0 E.
      - injection E as <- <-. reflexivity.
      - destruct (run_ops (timed_add s0 a when) ops) as [s2 e2] eqn:E2.
        injection E as <- <-. simpl. eapply IH; eauto.
      - destruct (run_ops (reg_rem s0 a) ops) as [s2 e2] eqn:E2.
        injection E as <- <-. simpl. eapply IH; eauto. }
    induction b as [|a b IH]; simpl; intros now s0 w0 s0' w0' tr0 x0 E k c I.
    - injection E as <- <- <- <-. contradiction.
    - destruct (u_step u s0 a w0) as [[w1 ops] o].
      destruct (run_ops s0 ops) as [s1 tr1] eqn:EO. apply KO in EO.
      destruct o as [r| |].
      + match type of E with context [run_bucket u now b ?s2 w1] =>
          destruct (run_bucket u now b s2 w1) as [[[s3 w3] tr3] x3] eqn:EB end.
        injection E as <- <- <- <-. rewrite !acts_app, EO in I. simpl in I.
        destruct I as [I|I]; [congruence|]. eapply IH; eauto.
      + destruct (run_bucket u now b s1 w1) as [[[s3 w3] tr3] x3] eqn:EB.
        injection E as <- <- <- <-. rewrite !acts_app, EO in I. simpl in I.
        destruct I as [I|I]; [congruence|]. eapply IH; eauto.
      + injection E as <- <- <- <-. rewrite acts_app, EO in I. simpl in I.
        destruct I as [I|[]]; congruence. }
  unfold timed_step. destruct (s_queue s) as [|[t b] q].
  - intros E k a I. injection E as <- <- <- <-. contradiction.
  - destruct (n_ltb (s_time s) t).
    + intros E k a I. injection E as <- <- <- <-. contradiction.
    + destruct (if s_shuffle s then _ else _) as [w0 b0].
      destruct (run_bucket u (s_time s) b0 (set_queue s q) w0) as [[[s1 w1] tr1] x1] eqn:EB.
      intros E k a I. eapply K; [exact EB|].
      destruct x1; injection E as <- <- <- <-; eauto.
Qed.

Lemma lock_loop_inv fuel e : forall s w s' w' tr x ag,
  (s_shuffle s = true -> fair_shuffle u) ->
  lock_loop u fuel e s w = Some (s', w', tr, x) -> inv s ag -> no_exc tr ->
  x = false /\ inv s' (agenda (s_di s) ag tr) /\ punctual (s_di s) ag tr /\
  s_di s' = s_di s /\ s_shuffle s' = s_shuffle s /\
  before e tr /\ (n_ltb (s_time s') e = false).
Proof.
  induction fuel as [|fuel IH]; cbn [lock_loop]; intros s w s' w' tr x ag FS E H NE; [discriminate|].
  destruct (n_ltb (s_time s) e) eqn:L.
  - destruct (timed_step u s w) as [[[s1 w1] tr1] x1] eqn:ES.
    destruct x1.
    + injection E as <- <- <- <-.
      destruct (timed_step_inv u Hf _ _ _ _ _ _ _ FS ES H NE) as (X&_). discriminate.
    + destruct (lock_loop u fuel e s1 w1) as [[[[s2 w2] tr2] x2]|] eqn:EL; [|discriminate].
      injection E as <- <- <- <-. apply no_exc_app in NE. destruct NE as [NE1 NE2].
      destruct (timed_step_inv u Hf _ _ _ _ _ _ _ FS ES H NE1) as (_&H1&P1).
      assert (run_cmd u s w CStep = (s1, w1, tr1)) as EC by (simpl; rewrite ES; reflexivity).
      destruct (run_cmd_shuffle u _ _ _ _ _ _ EC) as [S1 D1].
      assert (s_shuffle s1 = true -> fair_shuffle u) as FS1 by (rewrite S1; auto).
      destruct (IH _ _ _ _ _ _ _ FS1 EL H1 NE2) as (X&H2&P2&D2&S2&B2&L2).
      rewrite D1 in *. split; auto. rewrite agenda_app, punctual_app. repeat split; auto; try apply H2; try congruence.
      apply before_app. split; auto. intros k a I.
      rewrite (timed_step_acts_now _ _ _ _ _ _ ES k a I). auto.
  - injection E as <- <- <- <-. simpl. repeat split; auto; try apply H. intros k a [].
Qed.

Lemma before_weaken t t' tr : n_leb t t' = true -> before t tr -> before t' tr.
Proof. intros L B k a I. eapply n_ltb_leb_trans; [eapply B; eauto|auto]. Qed.

Lemma before_nil t : before t [].
Proof. intros k a []. Qed.

(** The whole history. *)
Lemma lock_hist_inv fuel h : forall l w l' w' tr ag,
  (s_shuffle (l_sched l) = true -> fair_shuffle u) ->
  nonneg (l_time l) = true -> nonneg (l_interval l) = true ->
  lock_hist u fuel h l w = Some (l', w', tr) -> linv l ag -> no_exc tr ->
  linv l' (agenda (s_di (l_sched l)) ag tr) /\ punctual (s_di (l_sched l)) ag tr /\
  l_interval l' = l_interval l /\ l_time l' = grid (l_time l) (l_interval l) (nsteps h) /\
  l_steps l' = l_steps l + nsteps h /\
  n_leb (l_time l) (l_time l') = true /\ before (l_time l') tr.
Proof.
  induction h as [|c h IH]; cbn [lock_hist]; intros l w l' w' tr ag FS NT NI E H NE.
  - injection E as <- <- <-. simpl. repeat split; auto; try apply H.
    + apply n_leb_refl, nonneg_is_time; auto.
    + apply before_nil.
  - destruct (lock_cmd u fuel l w c) as [[[l1 w1] tr1]|] eqn:EC; [|discriminate].
    destruct (lock_hist u fuel h l1 w1) as [[[l2 w2] tr2]|] eqn:EH; [|discriminate].
    injection E as <- <- <-. apply no_exc_app in NE. destruct NE as [NE1 NE2].
    assert (linv l1 (agenda (s_di (l_sched l)) ag tr1) /\
            punctual (s_di (l_sched l)) ag tr1 /\ l_interval l1 = l_interval l /\
            s_shuffle (l_sched l1) = s_shuffle (l_sched l) /\
            s_di (l_sched l1) = s_di (l_sched l) /\
            l_time l1 = (if is_step c then n_add (l_time l) (l_interval l) else l_time l) /\
            l_steps l1 = (if is_step c then S (l_steps l) else l_steps l) /\
            before (l_time l1) tr1) as (H1&P1&I1&S1&D1&T1&N1&B1).
    { assert (n_leb (l_time l) (n_add (l_time l) (l_interval l)) = true) as LE
        by (apply n_add_leb; auto using nonneg_is_time).
      destruct H as [H HL].
      destruct c as [|a when|a|f].
      - cbn [lock_cmd] in EC. destruct (lock_step u fuel l w) as [[[[l3 w3] tr3] x]|] eqn:ES; [|discriminate].
        injection EC as <- <- <-. unfold lock_step in ES.
        destruct (lock_loop u fuel _ (l_sched l) w) as [[[[s3 w4] tr4] x3]|] eqn:EL; [|discriminate].
        assert (tr4 = tr3) as -> by (destruct x3; congruence).
        destruct (lock_loop_inv _ _ _ _ _ _ _ _ _ FS EL H NE1) as (X&H2&P2&D2&S2&B2&L2).
        subst x3. injection ES as <- <- <-. simpl. repeat split; auto; try apply H2.
        apply n_total; auto.
        + destruct H2 as [H2 _]. apply nonneg_is_time. apply H2.
        + apply (n_leb_is_time (l_time l)); auto using nonneg_is_time.
      - cbn [lock_cmd] in EC. destruct (run_cmd u (l_sched l) w (CAdd a when)) as [[s3 w3] tr3] eqn:ER.
        injection EC as <- <- <-.
        destruct (run_cmd_inv u Hf _ _ _ _ _ _ _ FS ER H NE1) as [H2 P2].
        destruct (run_cmd_shuffle u _ _ _ _ _ _ ER) as [S2 D2].
        cbn [run_cmd run_op] in ER. injection ER as <- <- <-.
        destruct (timed_add_clock (l_sched l) a when) as (C1&_).
        cbn [l_sched l_time l_steps l_interval is_step].
        split; [split; [exact H2|cbn [l_sched l_time]; rewrite C1; exact HL]|].
        repeat split; auto. intros k b [].
      - cbn [lock_cmd] in EC. destruct (run_cmd u (l_sched l) w (CRem a)) as [[s3 w3] tr3] eqn:ER.
        injection EC as <- <- <-.
        destruct (run_cmd_inv u Hf _ _ _ _ _ _ _ FS ER H NE1) as [H2 P2].
        cbn [run_cmd run_op] in ER. injection ER as <- <- <-.
        simpl. repeat split; auto; try apply H2. intros k b [].
      - cbn [lock_cmd run_cmd] in EC. injection EC as <- <- <-.
        simpl. repeat split; auto; try apply H. intros k b []. }
    assert (n_leb (l_time l) (l_time l1) = true) as LE.
    { rewrite T1. destruct (is_step c); [apply n_add_leb|apply n_leb_refl];
        auto using nonneg_is_time. }
    assert (nonneg (l_time l1) = true) as NT1.
    { unfold nonneg. eapply n_leb_trans; [exact NT|exact LE]. }
    assert (s_shuffle (l_sched l1) = true -> fair_shuffle u) as FS1 by (rewrite S1; auto).
    destruct (IH l1 w1 l2 w2 tr2 _ FS1 NT1 ltac:(rewrite I1; auto) EH H1 NE2)
      as (H2&P2&I2&T2&N2&L2&B2).
    rewrite D1 in *. split; [rewrite agenda_app; exact H2|].
    split; [rewrite punctual_app; auto|]. split; [congruence|].
    assert (forall n x, grid (n_add x (l_interval l)) (l_interval l) n = grid x (l_interval l) (S n)) as G.
    { induction n as [|n IHn]; intros x; [reflexivity|]. simpl. rewrite IHn. reflexivity. }
    rewrite I1, T1 in T2.
    split; [|split; [|split]].
    + rewrite T2. unfold nsteps. cbn [filter]. destruct (is_step c); [|reflexivity].
      rewrite G. reflexivity.
    + rewrite N2, N1. unfold nsteps. cbn [filter]. destruct (is_step c); simpl; lia.
    + eapply n_leb_trans; eauto.
    + apply before_app. split; auto. eapply before_weaken; eauto.
Qed.

(** ** Termination *)

Context {HP : Precise AR} (Hn : adds_none u).

Lemma run_ops_none ops : forall s, 
  forallb (fun op => match op with SAdd _ _ => false | SRem _ => true end) ops = true ->
  exists s1, run_ops s ops = (s1, []) /\ s_queue s1 = s_queue s /\ s_time s1 = s_time s /\
    s_di s1 = s_di s /\ s_shuffle s1 = s_shuffle s.
Proof.
  induction ops as [|[a when|a] ops IH]; simpl; intros s E; try discriminate.
  - exists s. auto.
  - destruct (IH (reg_rem s a) E) as (s1&E1&K). rewrite E1. exists s1. auto.
Qed.

Lemma run_bucket_above b : forall s w s' w' tr x,
  nonneg (s_time s) = true -> n_eqb (s_time s) PInf = false -> n_ltb (Fin 0) (s_di s) = true ->
  run_bucket u (s_time s) b s w = (s', w', tr, x) -> above (s_time s) (s_queue s) ->
  above (s_time s) (s_queue s') /\ s_time s' = s_time s /\ s_di s' = s_di s.
Proof.
  induction b as [|a b IH]; cbn [run_bucket]; intros s w s' w' tr x T NI D E A.
  - injection E as <- <- <- <-. auto.
  - destruct (u_step u s a w) as [[w1 ops] o] eqn:EU.
    assert (forallb (fun op => match op with SAdd _ _ => false | SRem _ => true end) ops = true) as NO
      by (specialize (Hn s a w); rewrite EU in Hn; exact Hn).
    pose proof (forward_good _ _ _ _ _ _ _ Hf EU) as G.
    destruct (run_ops_none ops s NO) as (s1&EO&Q1&T1&D1&_). rewrite EO in E.
    destruct o as [r| |].
    + set (t := n_add (or_num r (s_di s1)) (s_time s)) in *.
      set (s2 := if negb (n_eqb t PInf) then timed_schedule s1 a (Some t) else s1) in *.
      destruct (run_bucket u (s_time s) b s2 w1) as [[[s3 w3] tr3] x3] eqn:EB.
      injection E as <- <- <- <-.
      assert (n_ltb (s_time s) t = true) as LT.
      { unfold t. apply later_ltb; auto using nonneg_is_time. rewrite D1. apply or_num_pos; auto. }
      assert (s_time s2 = s_time s /\ s_di s2 = s_di s /\ above (s_time s) (s_queue s2)) as (T2&D2&A2).
      { subst s2. destruct (negb (n_eqb t PInf)); [|rewrite Q1; auto].
        unfold timed_schedule. rewrite T1, Q1, or_num_later by auto using n_ltb_leb.
        cbn [s_time s_di s_queue set_queue]. rewrite T1, D1. repeat split; auto.
        apply insert_above; auto using nonneg_is_time. }
      rewrite <- T2 in EB.
      destruct (IH s2 w1 s3 w3 tr3 x3 ltac:(congruence) ltac:(congruence) ltac:(congruence) EB ltac:(congruence))
        as (A3&T3&D3). rewrite T2 in *. repeat split; congruence.
    + destruct (run_bucket u (s_time s) b s1 w1) as [[[s3 w3] tr3] x3] eqn:EB.
      injection E as <- <- <- <-. rewrite <- T1 in EB.
      destruct (IH s1 w1 s3 w3 tr3 x3 ltac:(congruence) ltac:(congruence) ltac:(congruence) EB ltac:(congruence))
        as (A3&T3&D3). rewrite T1 in *. repeat split; congruence.
    + injection E as <- <- <- <-. rewrite Q1. auto.
Qed.

Definition alive (s : sched) : Prop := s_queue s <> [] \/ s_time s = PInf.

Lemma step_progress s w s' w' tr : winv s -> n_ltb (Fin 0) (s_di s) = true ->
  s_queue s <> [] -> n_eqb (s_time s) PInf = false ->
  timed_step u s w = (s', w', tr, false) ->
  n_ltb (s_time s) (s_time s') = true /\ alive s' /\ winv s' /\ s_di s' = s_di s.
Proof.
  intros H D Q NI E. destruct (timed_step_winv u Hf _ _ _ _ _ _ E H) as (H'&_).
  assert (run_cmd u s w CStep = (s', w', tr)) as EC by (simpl; rewrite E; reflexivity).
  destruct (run_cmd_shuffle u _ _ _ _ _ _ EC) as [_ DI].
  unfold timed_step in E.
  destruct H as (HT&HD&HW).
  destruct (s_queue s) as [|[k b] q] eqn:EQ; [congruence|].
  assert (n_leb (s_time s) k = true /\ b <> [] /\ above k q) as (L&B&A) by exact HW.
  destruct (n_ltb (s_time s) k) eqn:LK.
  - injection E as <- <- <-. simpl. repeat split; auto; try apply H'. left. simpl. congruence.
  - assert (s_time s = k) as <-.
    { unfold n_leb in L. rewrite LK in L. simpl in L. apply n_eqb_eq in L. auto. }
    destruct (if s_shuffle s then _ else _) as [w0 b0].
    destruct (run_bucket u (s_time s) b0 (set_queue s q) w0) as [[[s1 w1] tr1] x1] eqn:EB.
    destruct x1; [discriminate|]. injection E as <- <- <-.
    change (s_time s) with (s_time (set_queue s q)) in EB at 1.
    destruct (run_bucket_above _ (set_queue s q) _ _ _ _ _ HT NI D EB A) as (A1&T1&D1).
    cbn [s_time s_queue set_queue] in *.
    cbn [s_queue set_steps] in *. destruct (s_queue s1) as [|[t c] q1] eqn:Q1.
    + cbn. repeat split; auto; try apply H'; [|right; reflexivity].
      apply nonneg_is_time in HT. destruct (s_time s); simpl in *; congruence.
    + cbn. destruct A1 as (A1&_). repeat split; auto; try apply H'. left. cbn. congruence.
Qed.

Lemma lock_loop_terminates : forall n (e : Z) s w,
  winv s -> n_ltb (Fin 0) (s_di s) = true -> alive s ->
  match s_time s with Fin t => Z.to_nat (e - t) <= n | _ => True end ->
  exists r, lock_loop u (S n) (Fin e) s w = Some r.
Proof.
  induction n as [|n IH]; intros e s w H D A M.
  - cbn [lock_loop]. destruct (n_ltb (s_time s) (Fin e)) eqn:L; [|eauto].
    destruct H as (HT&_). destruct (s_time s) as [t| | |]; try discriminate.
    simpl in L. rewrite Z.ltb_lt in L. lia.
  - remember (S n) as m. cbn [lock_loop]. destruct (n_ltb (s_time s) (Fin e)) eqn:L; [|eauto].
    assert (n_eqb (s_time s) PInf = false) as NI
      by (destruct H as (HT&_); destruct (s_time s); try discriminate; reflexivity).
    destruct (timed_step u s w) as [[[s1 w1] tr1] [|]] eqn:ES; [eauto|].
    assert (s_queue s <> []) as Q.
    { destruct A as [A|A]; [auto|]. rewrite A in NI. discriminate. }
    destruct (step_progress _ _ _ _ _ H D Q NI ES) as (LT&A1&H1&D1). subst m.
    destruct (IH e s1 w1 H1 ltac:(congruence) A1) as [[[[s2 w2] tr2] x2] E2].
    + destruct (s_time s1) as [t1| | |] eqn:T1; auto.
      destruct H as (HT&_).
      destruct (s_time s) as [t| | |]; simpl in LT, L; try discriminate; auto.
      rewrite Z.ltb_lt in LT, L. lia.
    + rewrite E2. eauto.
Qed.
End L.

(** A wrapped scheduler without agents never reaches the next point of the grid. *)
Lemma lock_loop_empty W (u : user W) fuel e : forall s w,
  s_queue s = [] -> n_ltb (s_time s) e = true -> lock_loop u fuel e s w = None.
Proof.
  induction fuel as [|fuel IH]; simpl; intros s w Q L; [reflexivity|].
  rewrite L, (step_empty _ u _ _ Q), IH; auto.
Qed.

Lemma lock_hist_main W (u : user W) fuel h0 h sh di i w0 s w tr0 l' w' tr :
  forward_only u -> (sh = true -> fair_shuffle u) -> nonneg di = true -> nonneg i = true ->
  run_hist u h0 (timed_init sh di) w0 = (s, w, tr0) -> no_exc tr0 ->
  lock_hist u fuel h (lock_init s i) w = Some (l', w', tr) -> no_exc tr ->
  l_time l' = grid (s_time s) i (nsteps h) /\
  l_steps l' = nsteps h /\
  punctual di (agenda di [] tr0) tr /\
  (forall t a, In (t, a) (acts tr) -> n_ltb t (l_time l') = true) /\
  (forall t a, In (t, a) (agenda di [] (tr0 ++ tr)) -> n_leb (l_time l') t = true).
Proof.
  intros HF FS D I E0 N0 E NE.
  destruct (run_hist_inv u HF h0 (timed_init sh di) _ _ _ _ _ FS E0 (inv_init sh di D) N0) as (H0&P0&SH&DI).
  pose proof (run_hist_winv u HF h0 _ _ _ _ _ E0 (winv_init sh di D)) as (W0&_).
  cbn [s_di s_shuffle timed_init] in *.
  assert (linv (lock_init s i) (agenda di [] tr0)) as HL.
  { split; [exact H0|]. simpl. apply n_leb_refl, nonneg_is_time. apply W0. }
  assert (s_shuffle (l_sched (lock_init s i)) = true -> fair_shuffle u) as FS'
    by (simpl; rewrite SH; auto).
  destruct (lock_hist_inv u HF fuel h _ _ _ _ _ _ FS' (proj1 W0) I E HL NE)
    as (H2&P2&I2&T2&N2&L2&B2).
  cbn [lock_init l_sched l_time l_steps l_interval] in *. rewrite DI in *.
  repeat split; auto.
  intros t a IN. rewrite agenda_app in IN. destruct H2 as [H2 LE].
  eapply n_leb_trans; [exact LE|]. eapply inv_not_late; eauto.
Qed.

Lemma n_ltb_nonneg d : n_ltb (Fin 0) d = true -> nonneg d = true.
Proof. apply n_ltb_leb. Qed.

Lemma lock_step_returns {HP : Precise AR} W (u : user W) h sh di w0 s w tr t i steps :
  forward_only u -> adds_none u -> n_ltb (Fin 0) di = true ->
  run_hist u h (timed_init sh di) w0 = (s, w, tr) ->
  s_queue s <> [] \/ s_time s = PInf ->
  exists fuel r, lock_step u fuel (Lock s (Fin t) steps (Fin i)) w = Some r.
Proof.
  intros HF HN D E A.
  destruct (run_hist_winv u HF h _ _ _ _ _ E (winv_init sh di (n_ltb_nonneg _ D))) as (H&_&DI).
  cbn [s_di timed_init] in DI.
  destruct (precise_fin t i) as [c EC].
  destruct (lock_loop_terminates u HF HN
              (match s_time s with Fin k => Z.to_nat (c - k) | _ => 0 end)
              c s w H ltac:(congruence) A) as [r ER].
  { destruct (s_time s); auto. }
  eexists. unfold lock_step. cbn [l_time l_interval l_sched]. rewrite EC, ER.
  destruct r as [[[s2 w2] tr2] [|]]; eauto.
Qed.
End Arith.
