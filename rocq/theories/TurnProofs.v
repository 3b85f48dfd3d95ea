(** Proofs for TurnProps.v: liveness and rate of activations. *)
From Coq Require Import ZArith List Bool Arith Lia Permutation.
From Verif Require Import Num TimedModel TimedSpec TimedProofs LockstepSpec LockstepProofs TurnSpec.
From Verif Require RunProofs.
Import ListNotations.

Section T.
Context {AR : Arith} {W : Type} (u : user W).

(** ** What the trace shows of one agent *)
Lemma run_ops_acts ops : forall s s' tr t a o, run_ops s ops = (s', tr) -> ~ In (EvAct t a o) tr.
Proof.
  induction ops as [|op ops IH]; intros s s' tr t a o E; cbn in E.
  - injection E as <- <-. auto.
  - destruct (run_op s op) as [s1 e1] eqn:E1. destruct (run_ops s1 ops) as [s2 e2] eqn:E2. injection E as <- <-.
    rewrite in_app_iff. intros [I|I].
    + destruct op; cbn in E1; injection E1 as <- <-; cbn in I; intuition discriminate.
    + eapply IH; eauto.
Qed.

Lemma run_bucket_outcome now b : forall s w s' w' tr x t a o,
  run_bucket u now b s w = (s', w', tr, x) -> In (EvAct t a o) tr ->
  exists s0 w0, o = snd (u_step u s0 a w0).
Proof.
  induction b as [|a0 b IH]; intros s w s' w' tr x t a o E I; cbn in E.
  - injection E as <- <- <- <-. contradiction.
  - destruct (u_step u s a0 w) as [[w1 ops] o0] eqn:US. destruct (run_ops s ops) as [s1 tr1] eqn:RO.
    assert (H0 : forall l, In (EvAct t a o) ((tr1 ++ [EvAct now a0 o0]) ++ l) ->
              (exists s0 w0, o = snd (u_step u s0 a w0)) \/ In (EvAct t a o) l).
    { intros l. rewrite !in_app_iff. intros [[I1|[I1|[]]]|I1]; auto.
      - exfalso. eapply run_ops_acts; eauto.
      - injection I1 as -> -> ->. left. exists s, w. rewrite US. reflexivity. }
    destruct o0 as [r| |].
    + destruct (run_bucket u now b _ w1) as [[[s3 w3] tr3] x3] eqn:E3 in E. injection E as <- <- <- <-.
      destruct (H0 _ I) as [?|I1]; auto. eapply IH; eauto.
    + destruct (run_bucket u now b s1 w1) as [[[s3 w3] tr3] x3] eqn:E3 in E. injection E as <- <- <- <-.
      destruct (H0 _ I) as [?|I1]; auto. eapply IH; eauto.
    + injection E as <- <- <- <-. destruct (H0 []) as [?|[]]; auto. rewrite app_nil_r. exact I.
Qed.

Lemma timed_step_outcome s w s' w' tr x t a o :
  timed_step u s w = (s', w', tr, x) -> In (EvAct t a o) tr -> exists s0 w0, o = snd (u_step u s0 a w0).
Proof.
  intros E I. unfold timed_step in E. destruct (s_queue s) as [|[k b] q].
  - injection E as <- <- <- <-. contradiction.
  - destruct (n_ltb (s_time s) k).
    + injection E as <- <- <- <-. contradiction.
    + destruct (if s_shuffle s then u_shuffle u b w else (w, b)) as [w0 b0].
      destruct (run_bucket u (s_time s) b0 (set_queue s q) w0) as [[[s1 w1] tr1] [|]] eqn:RB; injection E as <- <- <- <-;
        eapply run_bucket_outcome; eauto.
Qed.

Lemma run_hist_outcome h : forall s w s' w' tr t a o,
  run_hist u h s w = (s', w', tr) -> In (EvAct t a o) tr -> exists s0 w0, o = snd (u_step u s0 a w0).
Proof.
  induction h as [|c h IH]; intros s w s' w' tr t a o E I; cbn in E.
  - injection E as <- <- <-. contradiction.
  - destruct (run_cmd u s w c) as [[s1 w1] tr1] eqn:E1. destruct (run_hist u h s1 w1) as [[s2 w2] tr2] eqn:E2.
    injection E as <- <- <-. apply in_app_iff in I as [I|I]; [|eapply IH; eauto].
    destruct c; cbn in E1.
    + destruct (timed_step u s w) as [[[s3 w3] tr3] x] eqn:TS. injection E1 as <- <- <-. eapply timed_step_outcome; eauto.
    + injection E1 as <- <- <-. cbn in I. intuition discriminate.
    + injection E1 as <- <- <-. contradiction.
    + injection E1 as <- <- <-. contradiction.
Qed.

(** Steps of agents that never fail do not fail. *)
Lemma run_bucket_calm now b : never_fails u -> forall s w s' w' tr x, run_bucket u now b s w = (s', w', tr, x) -> x = false.
Proof.
  intros N. induction b as [|a b IH]; intros s w s' w' tr x E; cbn in E.
  - now injection E as <- <- <- <-.
  - specialize (N s a w). destruct (u_step u s a w) as [[w1 ops] o0]. destruct (run_ops s ops) as [s1 tr1]. cbn in N.
    destruct o0 as [r| |]; [| |congruence];
      match type of E with context [run_bucket u now b ?s2 w1] =>
        destruct (run_bucket u now b s2 w1) as [[[s3 w3] tr3] x3] eqn:E3 end;
      injection E as <- <- <- <-; eapply IH; eauto.
Qed.
Lemma timed_step_calm s w s' w' tr x : never_fails u -> timed_step u s w = (s', w', tr, x) -> x = false.
Proof.
  intros N E. unfold timed_step in E. destruct (s_queue s) as [|[k b] q]; [now injection E|].
  destruct (n_ltb (s_time s) k); [now injection E|].
  destruct (if s_shuffle s then u_shuffle u b w else (w, b)) as [w0 b0].
  destruct (run_bucket u (s_time s) b0 (set_queue s q) w0) as [[[s1 w1] tr1] x1] eqn:RB.
  apply run_bucket_calm in RB; auto. subst. now injection E.
Qed.

(** ** Progress *)
Lemma remove1_keeps t a t' b ag : In (t, a) ag -> t' <> t -> In (t, a) (remove1 (t', b) ag).
Proof.
  intros I N. induction ag as [|y ag IH]; cbn; [exact I|].
  destruct (due_eqb (t', b) y) eqn:E.
  - destruct I as [->|I]; [|exact I]. unfold due_eqb in E. cbn in E. apply andb_true_iff in E as [E _].
    apply n_eqb_eq in E. congruence.
  - destruct I as [->|I]; [left; reflexivity|right; auto].
Qed.
Lemma agenda_keeps di t a tr : forall ag, In (t, a) ag -> (forall t' b, In (t', b) (acts tr) -> t' <> t) ->
  In (t, a) (agenda di ag tr).
Proof.
  induction tr as [|e tr IH]; intros ag I N; cbn; [exact I|].
  destruct e as [t' b|t' b o].
  - apply IH; [apply in_app_iff; auto|exact N].
  - apply IH.
    + apply in_app_iff. left. apply remove1_keeps; auto. apply (N t' b). left. reflexivity.
    + intros t2 b2 I2. apply (N t2 b2). right. exact I2.
Qed.

Context {HP : Precise AR} (Hf : forward_only u) (Hn : adds_none u) (Hc : never_fails u).

Lemma one_turn s w s' w' tr x ag t a z :
  (s_shuffle s = true -> fair_shuffle u) -> n_ltb (Fin 0) (s_di s) = true ->
  inv s ag -> In (Fin t, a) ag -> s_time s = Fin z -> timed_step u s w = (s', w', tr, x) ->
  In (Fin t, a) (acts tr) \/
  (inv s' (agenda (s_di s) ag tr) /\ In (Fin t, a) (agenda (s_di s) ag tr) /\ s_di s' = s_di s /\
   s_shuffle s' = s_shuffle s /\ exists z', s_time s' = Fin z' /\ (z < z' <= t)%Z).
Proof.
  intros FS DI IV I SZ E. pose proof (timed_step_calm _ _ _ _ _ _ Hc E) as ->.
  pose proof (RunProofs.step_no_exc u _ _ _ _ _ E) as NE.
  assert (EC : run_cmd u s w CStep = (s', w', tr)) by (cbn; rewrite E; reflexivity).
  destruct (run_cmd_shuffle u _ _ _ _ _ _ EC) as [SH _].
  assert (Q : s_queue s <> []).
  { intros Q. apply (inv_empty _ _ IV) in Q. subst. contradiction. }
  destruct (step_progress u Hf Hn _ _ _ _ _ (proj1 IV) DI Q ltac:(rewrite SZ; reflexivity) E) as (LT & _ & WI & DD).
  destruct (timed_step_inv u Hf _ _ _ _ _ _ _ FS E IV NE) as (_ & IV' & _).
  assert (FIN : forall ag', In (Fin t, a) ag' -> earliest ag' (s_time s') -> exists z', s_time s' = Fin z' /\ (z < z' <= t)%Z).
  { intros ag' I' [_ EA]. specialize (EA _ _ I'). rewrite SZ in LT. destruct (s_time s') as [z'| | |]; cbn in LT, EA; try discriminate.
    exists z'. split; [reflexivity|]. unfold n_leb in EA. cbn in EA. apply Z.ltb_lt in LT. apply orb_true_iff in EA as [EA|EA].
    - apply Z.ltb_lt in EA. lia.
    - apply Z.eqb_eq in EA. lia. }
  destruct (step_effect u Hf _ _ _ _ _ _ _ FS E IV NE) as [(A & _)|[(_ & EA & _ & _ & _ & ->)|(D & (order & AC & PO) & _ & EE)]].
  - subst. contradiction.
  - right. cbn [agenda] in *. repeat split; try apply IV'; auto. eauto.
  - destruct (Z.eq_dec z t) as [->|NZ].
    + left. rewrite AC. apply in_map_iff. exists a. split; [rewrite SZ; reflexivity|].
      assert (In a (due_at (s_time s) ag)) as ID by (rewrite SZ; apply in_due_at; auto).
      destruct (s_shuffle s); [eapply Permutation_in; eauto|subst; auto].
    + right. assert (K : In (Fin t, a) (agenda (s_di s) ag tr)).
      { apply agenda_keeps; auto. intros t' b I'. rewrite AC in I'. apply in_map_iff in I' as (b' & EB & _). injection EB as <- _.
        rewrite SZ. congruence. }
      repeat split; try apply IV'; auto. destruct EE as [[EE _]|EE]; [rewrite EE in K; contradiction|]. eauto.
Qed.

Lemma turns n : forall s w ag t a z,
  (s_shuffle s = true -> fair_shuffle u) -> n_ltb (Fin 0) (s_di s) = true ->
  inv s ag -> In (Fin t, a) ag -> s_time s = Fin z -> Z.to_nat (t - z) <= n ->
  exists k, k <= S n /\ In (Fin t, a) (acts (snd (run_hist u (repeat CStep k) s w))).
Proof.
  induction n as [|n IH]; intros s w ag t a z FS DI IV I SZ B;
    destruct (timed_step u s w) as [[[s' w'] tr] x] eqn:E;
    destruct (one_turn _ _ _ _ _ _ _ _ _ _ FS DI IV I SZ E) as [A|(IV' & I' & DD & SH & z' & SZ' & LT)].
  - exists 1. split; [lia|]. cbn. rewrite E. cbn. rewrite app_nil_r. exact A.
  - lia.
  - exists 1. split; [lia|]. cbn. rewrite E. cbn. rewrite app_nil_r. exact A.
  - destruct (IH s' w' _ t a z' ltac:(rewrite SH; exact FS) ltac:(rewrite DD; exact DI) IV' I' SZ' ltac:(lia)) as (k & K & A).
    exists (S k). split; [lia|]. cbn [repeat run_hist run_cmd]. rewrite E.
    destruct (run_hist u (repeat CStep k) s' w') as [[s2 w2] tr2]. cbn [snd] in *. rewrite acts_app. apply in_app_iff. right. exact A.
Qed.
End T.

Lemma everyone_gets_a_turn (AR : Arith) (HP : Precise AR) W (u : user W) sh di h w s w1 tr t a :
  forward_only u -> adds_none u -> never_fails u -> (sh = true -> fair_shuffle u) -> n_ltb (Fin 0) di = true ->
  run_hist u h (timed_init sh di) w = (s, w1, tr) -> no_exc tr -> In (Fin t, a) (agenda di [] tr) ->
  exists now n, s_time s = Fin now /\ (Z.of_nat n <= t - now + 1)%Z /\
    In (Fin t, a) (acts (snd (run_hist u (repeat CStep n) s w1))).
Proof.
  intros F A N FS D E NE I.
  assert (ND : nonneg di = true) by (unfold nonneg, n_leb; rewrite D; reflexivity).
  destruct (run_hist_inv u F h (timed_init sh di) _ _ _ _ [] FS E (inv_init _ _ ND) NE) as (IV & _ & SH & DD).
  cbn [s_di s_shuffle timed_init] in IV, SH, DD.
  pose proof (inv_not_late _ _ IV _ _ I) as L. destruct (proj1 IV) as (NT & _).
  destruct (s_time s) as [z| | |] eqn:SZ; try discriminate.
  destruct (turns u F A N (Z.to_nat (t - z)) s w1 (agenda di [] tr) t a z) as (k & K & R'); auto.
  - rewrite SH. exact FS.
  - rewrite DD. exact D.
  - exists z, k. split; [reflexivity|]. split; [|exact R'].
    unfold n_leb in L. cbn in L. apply orb_true_iff in L as [L|L]; [apply Z.ltb_lt in L|apply Z.eqb_eq in L]; lia.
Qed.

(** ** Rate *)
Lemma acts_of_about a tr : acts_of a (filter (about a) tr) = acts_of a tr.
Proof.
  induction tr as [|[t b|t b o] tr IH]; cbn; auto.
  - destruct (Nat.eqb a b); cbn; auto.
  - destruct (Nat.eqb a b) eqn:E; cbn; [rewrite E; cbn; f_equal; exact IH|exact IH].
Qed.

Lemma timetable_pace {W} (u : user W) di a d : keeps_pace u di a d -> forall t0 tr pend,
  timetable (AR := exact) di a t0 tr pend -> forall z, t0 = Fin z ->
  (forall t o, In (EvAct t a o) tr -> exists s w, o = snd (u_step u s a w)) ->
  exists n, acts_of a tr = map (fun k => Fin (z + Z.of_nat k * d)) (seq 0 n) /\ pend = Some (Fin (z + Z.of_nat n * d)).
Proof.
  intros [D P] t0 tr pend T.
  assert (ND : forall t o, (exists s w, o = snd (u_step u s a w)) -> next_due (AR := exact) di (Fin t) o = Some (Fin (t + d))).
  { intros t o (s & w & ->). destruct (P s w) as [->|[-> ->]]; unfold next_due; cbn [n_eqb].
    - replace (d =? 0)%Z with false by (symmetry; apply Z.eqb_neq; lia). reflexivity.
    - reflexivity. }
  induction T as [due|due o N|due o due' tr pend N T IH]; intros z -> O.
  - exists 0. cbn. rewrite Z.add_0_r. auto.
  - rewrite ND in N; [discriminate|]. apply (O (Fin z)). left. reflexivity.
  - rewrite ND in N by (apply (O (Fin z)); left; reflexivity). injection N as <-.
    destruct (IH (z + d)%Z eq_refl) as (n & A & Q); [intros t o' I; apply (O t); right; exact I|].
    exists (S n). split.
    + cbn [acts_of flat_map seq map]. rewrite Nat.eqb_refl. cbn [app]. fold (acts_of a tr). rewrite A. f_equal; [f_equal; lia|].
      rewrite <- seq_shift, map_map. apply map_ext. intros k. f_equal. lia.
    + rewrite Q. do 2 f_equal. lia.
Qed.

Section Clock.
Context {AR : Arith} {W : Type} (u : user W) (Hf : forward_only u).
Definition ev_time (e : ev) : num := match e with EvAdd t _ => t | EvAct t _ _ => t end.

Lemma run_ops_clock ops : forall s s' tr, run_ops s ops = (s', tr) -> s_time s' = s_time s /\ Forall (fun e => ev_time e = s_time s) tr.
Proof.
  induction ops as [|op ops IH]; intros s s' tr E; cbn in E.
  - injection E as <- <-. auto.
  - destruct (run_op s op) as [s1 e1] eqn:E1. destruct (run_ops s1 ops) as [s2 e2] eqn:E2. injection E as <- <-.
    destruct (IH _ _ _ E2) as [A B].
    assert (s_time s1 = s_time s /\ Forall (fun e => ev_time e = s_time s) e1) as [C D].
    { destruct op; cbn in E1; injection E1 as <- <-; split; auto.
      apply timed_add_clock. }
    split; [congruence|]. apply Forall_app. split; auto. rewrite C in B. exact B.
Qed.
Lemma run_bucket_clock b : forall s w s' w' tr x,
  run_bucket u (s_time s) b s w = (s', w', tr, x) -> s_time s' = s_time s /\ Forall (fun e => ev_time e = s_time s) tr.
Proof.
  induction b as [|a0 b IH]; intros s w s' w' tr x E; cbn in E.
  - injection E as <- <- <- <-. auto.
  - destruct (u_step u s a0 w) as [[w1 ops] o0]. destruct (run_ops s ops) as [s1 tr1] eqn:RO.
    destruct (run_ops_clock _ _ _ _ RO) as [A B].
    assert (B' : Forall (fun e => ev_time e = s_time s) (tr1 ++ [EvAct (s_time s) a0 o0])) by (apply Forall_app; split; auto).
    assert (K : forall s2 s3 w3 tr3 x3, s_time s2 = s_time s -> run_bucket u (s_time s) b s2 w1 = (s3, w3, tr3, x3) ->
              s_time s3 = s_time s /\ Forall (fun e => ev_time e = s_time s) ((tr1 ++ [EvAct (s_time s) a0 o0]) ++ tr3)).
    { intros s2 s3 w3 tr3 x3 T R. rewrite <- T in R. destruct (IH _ _ _ _ _ _ R) as [C D]. split; [congruence|].
      apply Forall_app. split; auto. rewrite T in D. exact D. }
    destruct o0 as [r| |].
    + match type of E with context [run_bucket u (s_time s) b ?s2 w1] =>
        assert (T : s_time s2 = s_time s) by (destruct (negb _); cbn; auto);
        destruct (run_bucket u (s_time s) b s2 w1) as [[[s3 w3] tr3] x3] eqn:E3 end.
      injection E as <- <- <- <-. eapply K; eauto.
    + destruct (run_bucket u (s_time s) b s1 w1) as [[[s3 w3] tr3] x3] eqn:E3. injection E as <- <- <- <-. eapply K; eauto.
    + injection E as <- <- <- <-. auto.
Qed.
Lemma run_cmd_clock c s w s' w' tr : run_cmd u s w c = (s', w', tr) -> Forall (fun e => ev_time e = s_time s) tr.
Proof.
  intros E. destruct c; cbn in E.
  - destruct (timed_step u s w) as [[[s1 w1] tr1] x] eqn:TS. injection E as <- <- <-. unfold timed_step in TS.
    destruct (s_queue s) as [|[k b] q]; [injection TS as <- <- <- <-; auto|].
    destruct (n_ltb (s_time s) k); [injection TS as <- <- <- <-; auto|].
    destruct (if s_shuffle s then u_shuffle u b w else (w, b)) as [w0 b0].
    destruct (run_bucket u (s_time s) b0 (set_queue s q) w0) as [[[s2 w2] tr2] x2] eqn:RB.
    apply (run_bucket_clock b0 (set_queue s q)) in RB as [_ F]. cbn in F. destruct x2; injection TS as <- <- <- <-; exact F.
  - injection E as <- <- <-. cbn. auto.
  - injection E as <- <- <-. auto.
  - injection E as <- <- <-. auto.
Qed.
Lemma run_hist_clock h : forall s w s' w' tr, run_hist u h s w = (s', w', tr) -> winv s ->
  Forall (fun e => n_leb (ev_time e) (s_time s') = true) tr.
Proof.
  induction h as [|c h IH]; intros s w s' w' tr E H; cbn in E.
  - injection E as <- <- <-. constructor.
  - destruct (run_cmd u s w c) as [[s1 w1] tr1] eqn:E1. destruct (run_hist u h s1 w1) as [[s2 w2] tr2] eqn:E2.
    injection E as <- <- <-. destruct (run_cmd_winv u Hf _ _ _ _ _ _ E1 H) as (H1 & L1 & _).
    destruct (run_hist_winv u Hf _ _ _ _ _ _ E2 H1) as (H2 & L2 & _).
    apply Forall_app. split; [|eapply IH; eauto].
    eapply Forall_impl; [|eapply run_cmd_clock; eauto]. cbn. intros e ->.
    eapply n_leb_trans; eauto.
Qed.
End Clock.

Lemma acts_of_in a tr t : In t (acts_of a tr) -> exists o, In (EvAct t a o) tr.
Proof.
  unfold acts_of. rewrite in_flat_map. intros (e & I & J). destruct e as [t' b|t' b o]; [contradiction|].
  destruct (Nat.eqb a b) eqn:E; [|contradiction]. apply Nat.eqb_eq in E as ->. destruct J as [->|[]]. eauto.
Qed.

Lemma steady_rate W (u : user W) sh di h w s w1 tr a d t0 :
  forward_only u -> (sh = true -> fair_shuffle u) -> nonneg di = true -> keeps_pace u di a d ->
  run_hist (AR := exact) u h (timed_init sh di) w = (s, w1, tr) -> no_exc tr ->
  adds_of a tr = 1 -> In (EvAdd (Fin t0) a) tr ->
  exists n, acts_of a tr = map (fun k => Fin (t0 + Z.of_nat k * d)) (seq 0 n) /\
    n_leb (s_time s) (Fin (t0 + Z.of_nat n * d)) = true /\
    (0 < n -> n_leb (Fin (t0 + (Z.of_nat n - 1) * d)) (s_time s) = true).
Proof.
  intros F FS D P E NE AO I.
  destruct (exact_wakeup (AR := exact) W u sh di h w s w1 tr a F FS D E NE AO) as (t & rest & pend & FA & TT & PE).
  assert (t = Fin t0) as ->.
  { assert (In (EvAdd (Fin t0) a) (filter (about a) tr)) as J by (apply filter_In; split; [exact I|apply Nat.eqb_refl]).
    rewrite FA in J. destruct J as [J|J]; [congruence|].
    unfold adds_of in AO. exfalso.
    assert (L : length (filter (is_add_of a) (filter (about a) tr)) = 1).
    { rewrite <- AO. f_equal. clear. induction tr as [|[t b|t b o] tr IH]; cbn; auto.
      - destruct (Nat.eqb a b) eqn:E; cbn; rewrite ?E; congruence.
      - destruct (Nat.eqb a b) eqn:E; cbn; auto. }
    rewrite FA in L. cbn in L. rewrite Nat.eqb_refl in L. cbn in L. injection L as L.
    assert (In (EvAdd (Fin t0) a) (filter (is_add_of a) rest)) as X by (apply filter_In; split; [exact J|cbn; apply Nat.eqb_refl]).
    destruct (filter (is_add_of a) rest); [contradiction|discriminate]. }
  assert (SUB : forall e, In e rest -> In e tr).
  { intros e J. assert (In e (filter (about a) tr)) as X by (rewrite FA; right; exact J). apply filter_In in X. apply X. }
  destruct (timetable_pace u di a d P _ _ _ TT t0 eq_refl) as (n & A & Q).
  { intros t o J. eapply run_hist_outcome; [exact E|apply SUB; exact J]. }
  exists n. assert (AA : acts_of a tr = acts_of a rest).
  { rewrite <- acts_of_about, FA. reflexivity. }
  rewrite AA. split; [exact A|]. rewrite Q in PE. split; [exact PE|].
  intros N0. assert (IN : In (Fin (t0 + Z.of_nat (n - 1) * d)) (acts_of a rest)).
  { rewrite A. apply in_map_iff. exists (n - 1). split; [reflexivity|]. apply in_seq. lia. }
  apply acts_of_in in IN as (o & IN). apply SUB in IN.
  pose proof (run_hist_clock (AR := exact) u F h _ _ _ _ _ E (winv_init _ _ D)) as FO.
  rewrite Forall_forall in FO. specialize (FO _ IN). cbn [ev_time] in FO.
  replace (Z.of_nat n - 1)%Z with (Z.of_nat (n - 1)) by lia. exact FO.
Qed.
