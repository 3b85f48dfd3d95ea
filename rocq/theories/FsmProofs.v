(** Proofs about FsmModel. *)
From Coq Require Import ZArith List Bool Arith String Lia.
From Verif Require Import Num PyDict TimedModel TimedSpec TimedProofs AgentModel AgentSpec
  AgentProofs FsmModel FsmSpec.
Import ListNotations.

(** * Invariants of the world along any history *)
Section Inv.
Context {AR : Arith}.
Context {X : Type}.
Implicit Types (u : user X) (P : X -> Prop).

Definition step_keeps P u : Prop :=
  (forall s a x, P x -> P (fst (fst (u_step u s a x)))) /\
  (forall l x, P x -> P (fst (u_shuffle u l x))).

Lemma bucket_keeps P u : step_keeps P u -> forall b now s x s' x' tr e,
  run_bucket u now b s x = (s', x', tr, e) -> P x -> P x'.
Proof.
  intros [K1 K2]. induction b as [|a b IH]; simpl; intros now s x s' x' tr e E H.
  - injection E as <- <- <- <-. auto.
  - specialize (K1 s a x H). destruct (u_step u s a x) as [[x1 ops] o]. simpl in K1.
    destruct (run_ops s ops) as [s1 tr1]. destruct o.
    + destruct (run_bucket u now b _ x1) as [[[s3 x3] tr3] e3] eqn:E3.
      injection E as <- <- <- <-. eauto.
    + destruct (run_bucket u now b _ x1) as [[[s3 x3] tr3] e3] eqn:E3.
      injection E as <- <- <- <-. eauto.
    + injection E as <- <- <- <-. auto.
Qed.

Lemma tstep_keeps P u : step_keeps P u -> forall s x s' x' tr e,
  timed_step u s x = (s', x', tr, e) -> P x -> P x'.
Proof.
  intros K s x s' x' tr e E H. unfold timed_step in E.
  destruct (s_queue s) as [|[t b] q]; [injection E as <- <- <- <-; auto|].
  destruct (n_ltb _ t); [injection E as <- <- <- <-; auto|].
  assert (Hs : P (fst (if s_shuffle s then u_shuffle u b x else (x, b)))).
  { destruct (s_shuffle s); auto. now apply K. }
  destruct (if s_shuffle s then u_shuffle u b x else (x, b)) as [x0 b0]. simpl in Hs.
  destruct (run_bucket u _ b0 _ x0) as [[[s1 x1] tr1] e1] eqn:E1.
  assert (P x1) by (eapply bucket_keeps; eauto).
  destruct e1; injection E as <- <- <- <-; auto.
Qed.

Lemma hist_keeps P u : step_keeps P u -> forall h s x s' x' tr,
  run_hist u h s x = (s', x', tr) -> Forall (keeps P) h -> P x -> P x'.
Proof.
  intros K. induction h as [|c h IH]; simpl; intros s x s' x' tr E Hh H.
  - injection E as <- <- <-. auto.
  - inversion Hh as [|? ? Hc Hh']; subst.
    destruct (run_cmd u s x c) as [[s1 x1] tr1] eqn:E1.
    destruct (run_hist u h s1 x1) as [[s2 x2] tr2] eqn:E2. injection E as <- <- <-.
    eapply IH; eauto. destruct c; simpl in E1.
    + destruct (timed_step u s x) as [[[s3 x3] tr3] e3] eqn:E3. injection E1 as <- <- <-.
      eapply tstep_keeps; eauto.
    + injection E1 as <- <- <-. auto.
    + injection E1 as <- <- <-. auto.
    + injection E1 as <- <- <-. auto.
Qed.

(** Two user codes that do the same in all worlds with the invariant. *)
Lemma bucket_same P u v : step_keeps P u ->
  (forall s a x, P x -> u_step u s a x = u_step v s a x) ->
  forall b now s x, P x -> run_bucket u now b s x = run_bucket v now b s x.
Proof.
  intros [K1 K2] S. induction b as [|a b IH]; simpl; intros now s x H; auto.
  rewrite <- S by auto. specialize (K1 s a x H).
  destruct (u_step u s a x) as [[x1 ops] o]. simpl in K1.
  destruct (run_ops s ops) as [s1 tr1]. destruct o; rewrite ?IH; auto.
Qed.

Lemma hist_same P u v : step_keeps P u ->
  (forall s a x, P x -> u_step u s a x = u_step v s a x) ->
  (forall l x, u_shuffle u l x = u_shuffle v l x) ->
  forall h s x, Forall (keeps P) h -> P x -> run_hist u h s x = run_hist v h s x.
Proof.
  intros K S1 S2. induction h as [|c h IH]; simpl; intros s x Hh H; auto.
  inversion Hh as [|? ? Hc Hh']; subst.
  assert (E : run_cmd u s x c = run_cmd v s x c).
  { destruct c; simpl; auto. f_equal. unfold timed_step.
    destruct (s_queue s) as [|[t b] q]; auto. destruct (n_ltb _ t); auto.
    rewrite <- S2.
    assert (Hs : P (fst (if s_shuffle s then u_shuffle u b x else (x, b)))).
    { destruct (s_shuffle s); auto. now apply K. }
    destruct (if s_shuffle s then u_shuffle u b x else (x, b)) as [x0 b0]. simpl in Hs.
    erewrite bucket_same; eauto. }
  rewrite <- E. destruct (run_cmd u s x c) as [[s1 x1] tr1] eqn:E1.
  rewrite IH; auto.
  assert (R : run_hist u [c] s x = (s1, x1, tr1)).
  { simpl. rewrite E1. now rewrite app_nil_r. }
  eapply hist_keeps; eauto.
Qed.

(** The first activation of [a] after which nothing is known. *)
Definition first_dead (a : aid) (P : X -> Prop) (x : X) (tr : list ev) : Prop :=
  (P x /\ forallb (fun e => negb (act_of a e)) tr = true) \/
  exists l1 t l2, tr = l1 ++ EvAct t a Dead :: l2 /\
    forallb (fun e => negb (act_of a e)) l1 = true.

Lemma first_dead_app a P x tr1 x2 tr2 :
  first_dead a P x tr1 -> (P x -> first_dead a P x2 tr2) -> first_dead a P x2 (tr1 ++ tr2).
Proof.
  intros [[H A]|(l1 & t & l2 & -> & A)] K.
  - destruct (K H) as [[H2 B]|(m1 & t & m2 & -> & B)].
    + left. split; auto. rewrite forallb_app, A, B. auto.
    + right. exists (tr1 ++ m1), t, m2. split; [now rewrite <- app_assoc|].
      rewrite forallb_app, A, B. auto.
  - right. exists l1, t, (l2 ++ tr2). split; auto. now rewrite <- app_assoc.
Qed.

Lemma run_ops_no_act ops : forall s s' tr a, run_ops s ops = (s', tr) ->
  forallb (fun e => negb (act_of a e)) tr = true.
Proof.
  induction ops as [|op ops IH]; simpl; intros s s' tr a E.
  - injection E as <- <-. auto.
  - destruct (run_op s op) as [s1 e1] eqn:E1. destruct (run_ops s1 ops) as [s2 e2] eqn:E2.
    injection E as <- <-. rewrite forallb_app, (IH _ _ _ a E2).
    destruct op; simpl in E1; injection E1 as <- <-; reflexivity.
Qed.

Lemma bucket_first_dead a P u :
  (forall s b x, P x -> b <> a -> P (fst (fst (u_step u s b x)))) ->
  (forall s x, P x -> snd (u_step u s a x) = Dead) ->
  forall b now s x s' x' tr e,
  run_bucket u now b s x = (s', x', tr, e) -> P x -> first_dead a P x' tr.
Proof.
  intros K1 K2. induction b as [|c b IH]; simpl; intros now s x s' x' tr e E H.
  - injection E as <- <- <- <-. left. auto.
  - destruct (Nat.eqb c a) eqn:Eca.
    + apply Nat.eqb_eq in Eca. subst c. specialize (K2 s x H).
      destruct (u_step u s a x) as [[x1 ops] o]. simpl in K2. subst o.
      destruct (run_ops s ops) as [s1 tr1] eqn:EO.
      destruct (run_bucket u now b _ x1) as [[[s3 x3] tr3] e3].
      injection E as <- <- <- <-. right. exists tr1, now, tr3.
      split; [now rewrite <- app_assoc|]. eapply run_ops_no_act; eauto.
    + pose proof Eca as Nca. apply Nat.eqb_neq in Nca. specialize (K1 s c x H Nca).
      destruct (u_step u s c x) as [[x1 ops] o]. simpl in K1.
      destruct (run_ops s ops) as [s1 tr1] eqn:EO.
      assert (A : forallb (fun e => negb (act_of a e)) (tr1 ++ [EvAct now c o]) = true).
      { rewrite forallb_app, (run_ops_no_act _ _ _ _ a EO). simpl. now rewrite Eca. }
      destruct o.
      * destruct (run_bucket u now b _ x1) as [[[s3 x3] tr3] e3] eqn:E3.
        injection E as <- <- <- <-.
        apply (first_dead_app a P x1); [left; auto|]. intros _. eapply IH; eauto.
      * destruct (run_bucket u now b _ x1) as [[[s3 x3] tr3] e3] eqn:E3.
        injection E as <- <- <- <-.
        apply (first_dead_app a P x1); [left; auto|]. intros _. eapply IH; eauto.
      * injection E as <- <- <- <-. left. auto.
Qed.

Lemma hist_first_dead a P u :
  (forall s b x, P x -> b <> a -> P (fst (fst (u_step u s b x)))) ->
  (forall s x, P x -> snd (u_step u s a x) = Dead) ->
  (forall l x, P x -> P (fst (u_shuffle u l x))) ->
  forall h s x s' x' tr, run_hist u h s x = (s', x', tr) -> Forall (keeps P) h -> P x ->
  first_dead a P x' tr.
Proof.
  intros K1 K2 K3. induction h as [|c h IH]; simpl; intros s x s' x' tr E Hh H.
  - injection E as <- <- <-. left. auto.
  - inversion Hh as [|? ? Hc Hh']; subst.
    destruct (run_cmd u s x c) as [[s1 x1] tr1] eqn:E1.
    destruct (run_hist u h s1 x1) as [[s2 x2] tr2] eqn:E2. injection E as <- <- <-.
    apply (first_dead_app a P x1); [|intros H1; eapply IH; eauto].
    destruct c; simpl in E1.
    + destruct (timed_step u s x) as [[[s3 x3] tr3] e3] eqn:E3. injection E1 as <- <- <-.
      unfold timed_step in E3.
      destruct (s_queue s) as [|[t b] q]; [injection E3 as <- <- <- <-; left; auto|].
      destruct (n_ltb _ t); [injection E3 as <- <- <- <-; left; auto|].
      assert (Hs : P (fst (if s_shuffle s then u_shuffle u b x else (x, b)))).
      { destruct (s_shuffle s); auto. }
      destruct (if s_shuffle s then u_shuffle u b x else (x, b)) as [x0 b0]. simpl in Hs.
      destruct (run_bucket u _ b0 _ x0) as [[[s4 x4] tr4] e4] eqn:E4.
      assert (first_dead a P x4 tr4) by (eapply bucket_first_dead; eauto).
      destruct e4; injection E3 as <- <- <- <-; auto.
    + injection E1 as <- <- <-. left. auto.
    + injection E1 as <- <- <-. left. auto.
    + injection E1 as <- <- <-. left. split; auto.
Qed.

Lemma timetable_dead di a l1 t l2 : forall due pend,
  timetable di a due (l1 ++ EvAct t a Dead :: l2) pend -> l2 = [].
Proof.
  induction l1 as [|e l1 IH]; simpl; intros due pend T.
  - inversion T; subst; auto. simpl in *. discriminate.
  - inversion T; subst; eauto. destruct l1; discriminate.
Qed.
End Inv.

(** * One activation *)
Section Step.
Context {F Q W : Type}.
Variable u : code F Q W.
Variable fs : string -> option num.
Notation fworld := (fworld F W).

Lemma upd_same (w : fworld) a x : fw_agents (upd w a x) a = x.
Proof. simpl. now rewrite Nat.eqb_refl. Qed.
Lemma upd_other (w : fworld) a b x : b <> a -> fw_agents (upd w a x) b = fw_agents w b.
Proof. intros N. simpl. apply Nat.eqb_neq in N. now rewrite N. Qed.

(** What running code does to the agents: kinds stay, and nobody comes back to life. *)
Definition agent_le (x y : fagent F) : Prop :=
  fa_kind y = fa_kind x /\ (fa_alive x = false -> fa_alive y = false).
Definition world_le (w w' : fworld) : Prop :=
  forall b, agent_le (fw_agents w b) (fw_agents w' b).

Lemma world_le_refl w : world_le w w.
Proof. intros b. split; auto. Qed.
Lemma world_le_trans w1 w2 w3 : world_le w1 w2 -> world_le w2 w3 -> world_le w1 w3.
Proof. intros A B b. destruct (A b), (B b). split; [congruence|auto]. Qed.
Lemma world_le_upd w a x : agent_le (fw_agents w a) x -> world_le w (upd w a x).
Proof.
  intros H b. destruct (Nat.eq_dec b a) as [->|N].
  - now rewrite upd_same.
  - rewrite upd_other by auto. split; auto.
Qed.

Lemma set_state_le s w b v : world_le w (call_set_state s w b v).
Proof.
  unfold call_set_state. destruct (n_ltb _ _); [apply world_le_refl|].
  destruct (fa_kind (fw_agents w b)) as [states|f] eqn:K; [|apply world_le_refl].
  destruct (set_state states _ v); [|apply world_le_refl].
  apply world_le_upd. split; auto.
Qed.

Lemma run_fops_le s ops : forall w w' l, run_fops s ops w = (w', l) -> world_le w w'.
Proof.
  induction ops as [|op ops IH]; simpl; intros w w' l E.
  - injection E as <- <-. apply world_le_refl.
  - destruct op as [b|b v|op].
    + destruct (run_fops s ops _) as [w1 l1] eqn:E1. injection E as <- <-.
      eapply world_le_trans; [|eapply IH; eauto]. apply world_le_upd. split; auto.
    + eapply world_le_trans; [|eapply IH; eauto]. apply set_state_le.
    + destruct (run_fops s ops w) as [w1 l1] eqn:E1. injection E as <- <-. eauto.
Qed.

Lemma finish_le states a w v w' (g : gout (frame Q) (pyval F)) : finish states a w v = (w', g) -> world_le w w'.
Proof.
  unfold finish. intros E.
  destruct (unpack2 v) as [[x y]|]; destruct (set_state _ _ _) as [cur|];
    injection E as <- <-; try apply world_le_refl; apply world_le_upd; split; auto.
Qed.

Lemma inside_le s a q w w' l g : inside u s a q w = (w', l, g) -> world_le w w'.
Proof.
  unfold inside. intros E. destruct (c_resume u s a q w) as [[r ops] o].
  destruct (run_fops s ops (FWorld (fw_agents w) r)) as [w1 l1] eqn:E1.
  apply run_fops_le in E1.
  assert (world_le w w1) by (intros b; apply (E1 b)).
  destruct o as [v q'|v|d].
  - injection E as <- <- <-. auto.
  - destruct (fa_kind (fw_agents w1 a)).
    + destruct (finish states a w1 v) as [w2 g2] eqn:E2. injection E as <- <- <-.
      eapply world_le_trans; eauto. eapply finish_le; eauto.
    + injection E as <- <- <-. auto.
  - injection E as <- <- <-. auto.
Qed.

Lemma step_gen_le s a fr w w' l g : step_gen u s a fr w = (w', l, g) -> world_le w w'.
Proof.
  unfold step_gen. intros E. destruct fr; [|eapply inside_le; eauto].
  destruct (fa_kind (fw_agents w a)); [|eapply inside_le; eauto].
  destruct (negb _); [injection E as <- <- <-; apply world_le_refl|].
  destruct (fa_cur _); [eapply inside_le; eauto|injection E as <- <- <-; apply world_le_refl].
Qed.

(** The activation of an agent, by cases on its generator. *)
Lemma agent_step_le s a wc w' c' l o : agent_step u fs s a wc = (w', c', l, o) ->
  world_le (fst wc) w' /\ forall b, b <> a -> get_co c' b = get_co (snd wc) b.
Proof.
  unfold agent_step. intros E. split; [|intros b N; eapply dec_other; eauto].
  unfold decorated in E.
  destruct (match get_co (snd wc) a with Some g => g | None => GSusp FStart end) as [fr|];
    cbn [send] in E.
  - destruct (step_gen u s a fr (fst wc)) as [[w1 l1] g] eqn:E1.
    apply step_gen_le in E1. destruct g as [v q|v|[]]; injection E as <- <- <- <-; auto.
  - injection E as <- <- <- <-. apply world_le_refl.
Qed.

(** ** Declared states *)
Lemma set_state_declared (states : dict string (state F)) cur v cur' :
  (forall k st, dget k states = Some st -> st_name st = k) ->
  (forall st, cur = Some st -> In (st_name st) (dkeys states)) -> native states v ->
  set_state states cur v = Some cur' ->
  forall st, cur' = Some st -> In (st_name st) (dkeys states).
Proof.
  intros K C N E st ->. destruct v as [|n|n|st'|l|]; simpl in *; try discriminate.
  - injection E as ->. auto.
  - destruct (dget n states) as [st'|] eqn:G; [|discriminate]. injection E as <-.
    rewrite (K _ _ G). apply dget_in in G. apply (in_map fst) in G. exact G.
  - injection E as <-. auto.
Qed.

Section Declared.
Variable kinds : aid -> kind F.
Hypothesis kinds_keyed : forall b, keyed (kinds b).
Notation all_ok := (all_declared (W := W) kinds).

Lemma all_ok_upd_cur w a states cur : all_ok w -> fa_kind (fw_agents w a) = KFsm states ->
  (forall st, cur = Some st -> In (st_name st) (dkeys states)) ->
  all_ok (upd w a (set_cur (fw_agents w a) cur)).
Proof.
  intros A K D b. destruct (Nat.eq_dec b a) as [->|N].
  - rewrite upd_same. split.
    + apply (proj1 (A a)).
    + unfold declared. simpl. rewrite K. destruct cur; auto.
  - rewrite upd_other by auto. apply A.
Qed.

Lemma ok_cur w a states : all_ok w -> fa_kind (fw_agents w a) = KFsm states ->
  (forall k st, dget k states = Some st -> st_name st = k) /\
  (forall st, fa_cur (fw_agents w a) = Some st -> In (st_name st) (dkeys states)) /\
  kinds a = KFsm states.
Proof.
  intros A K. destruct (A a) as [A1 A2]. pose proof (kinds_keyed a) as KK.
  rewrite <- A1, K in KK. unfold declared in A2. rewrite K in A2.
  split; [exact KK|]. split; [|congruence]. intros st E. now rewrite E in A2.
Qed.

Lemma run_fops_ok s ops : forall w w' l, run_fops s ops w = (w', l) -> all_ok w ->
  (forall b v states, In (FSet b v) ops -> kinds b = KFsm states -> native states v) ->
  all_ok w'.
Proof.
  induction ops as [|op ops IH]; simpl; intros w w' l E A N.
  - injection E as <- <-. auto.
  - assert (N' : forall b v states, In (FSet b v) ops -> kinds b = KFsm states ->
              native states v) by eauto.
    destruct op as [b|b v|op].
    + destruct (run_fops s ops _) as [w1 l1] eqn:E1. injection E as <- <-.
      refine (IH _ _ _ E1 _ N').
      intros c. destruct (Nat.eq_dec c b) as [->|Nb].
      * rewrite upd_same. apply (A b).
      * rewrite upd_other by auto. apply A.
    + refine (IH _ _ _ E _ N').
      unfold call_set_state. destruct (n_ltb _ _); auto.
      destruct (fa_kind (fw_agents w b)) as [states|f] eqn:K; auto.
      destruct (set_state states _ v) as [cur|] eqn:S; auto.
      destruct (ok_cur w b states A K) as (O1 & O2 & O3).
      apply all_ok_upd_cur with states; auto.
      refine (set_state_declared states _ v cur O1 O2 _ S). eauto.
    + destruct (run_fops s ops w) as [w1 l1] eqn:E1. injection E as <- <-. eauto.
Qed.

Lemma native_unpack (states : dict string (state F)) v x y :
  native states v -> unpack2 v = Some (x, y) -> native states x.
Proof.
  destruct v as [|n|n|st|l|]; simpl; try discriminate.
  - destruct n as [|c1 [|c2 [|]]]; try discriminate. intros _ E. injection E as <- <-.
    exact I.
  - destruct l as [|v1 [|v2 [|]]]; try discriminate. intros N E. injection E as <- <-. auto.
Qed.

Lemma inside_ok s a q w w' l g : own_states kinds u -> inside u s a q w = (w', l, g) ->
  all_ok w -> all_ok w'.
Proof.
  unfold inside. intros OW E A. destruct (c_resume u s a q w) as [[r ops] o] eqn:R.
  destruct (OW _ _ _ _ _ _ _ (fun b => proj1 (A b)) R) as [O1 O2].
  destruct (run_fops s ops (FWorld (fw_agents w) r)) as [w1 l1] eqn:E1.
  assert (A1 : all_ok w1) by (eapply run_fops_ok; eauto).
  destruct o as [v q'|v|d]; try (injection E as <- <- <-; auto; fail).
  destruct (fa_kind (fw_agents w1 a)) as [states|f] eqn:K;
    [|injection E as <- <- <-; auto].
  destruct (finish states a w1 v) as [w2 g2] eqn:E2. injection E as <- <- <-.
  destruct (ok_cur w1 a states A1 K) as (C1 & C2 & C3).
  assert (N : native states v) by (apply (O1 v states eq_refl C3)).
  unfold finish in E2.
  destruct (unpack2 v) as [[x y]|] eqn:U.
  - pose proof (native_unpack _ _ _ _ N U) as Nx.
    destruct (set_state _ _ _) as [cur|] eqn:S; injection E2 as <- <-; auto.
    apply all_ok_upd_cur with states; auto.
    apply (set_state_declared states _ x cur C1 C2 Nx S).
  - destruct (set_state _ _ _) as [cur|] eqn:S; injection E2 as <- <-; auto.
    apply all_ok_upd_cur with states; auto.
    apply (set_state_declared states _ v cur C1 C2 N S).
Qed.

Lemma agent_step_ok s a wc : own_states kinds u -> all_ok (fst wc) ->
  all_ok (fst (fst (fst (agent_step u fs s a wc)))).
Proof.
  intros OW A. unfold agent_step, decorated.
  destruct (match get_co (snd wc) a with Some g => g | None => GSusp FStart end) as [fr|];
    cbn [send]; [|exact A].
  destruct (step_gen u s a fr (fst wc)) as [[w1 l1] g] eqn:E1.
  assert (all_ok w1).
  { unfold step_gen in E1. destruct fr; [|eapply inside_ok; eauto].
    destruct (fa_kind (fw_agents (fst wc) a)); [|eapply inside_ok; eauto].
    destruct (negb _); [injection E1 as <- <- <-; auto|].
    destruct (fa_cur _); [eapply inside_ok; eauto|injection E1 as <- <- <-; auto]. }
  destruct g as [v q|v|[]]; auto.
Qed.
End Declared.

Lemma always_declared {AR : Arith} kinds shuffle h s x s' x' tr :
  (forall b, keyed (kinds b)) -> own_states kinds u ->
  run_hist (agent_user u fs shuffle) h s x = (s', x', tr) ->
  Forall (keeps (fun wc => all_declared kinds (fst wc))) h ->
  all_declared kinds (fst x) -> all_declared kinds (fst x').
Proof.
  intros KK OW E H A.
  refine (hist_keeps (fun wc => all_declared kinds (fst wc)) (agent_user u fs shuffle) _
            h s x s' x' tr E H A).
  split.
  - intros s0 a wc A0. now apply agent_step_ok.
  - intros l wc A0. simpl. destruct (shuffle l (fw_rest (fst wc))). exact A0.
Qed.

(** ** Moves *)
Lemma run_fops_cur s ops a : (forall v, ~ In (FSet a v) ops) -> forall (w w' : fworld) l,
  run_fops s ops w = (w', l) -> fa_cur (fw_agents w' a) = fa_cur (fw_agents w a).
Proof.
  induction ops as [|op ops IH]; simpl; intros N w w' l E.
  - injection E as <- <-. auto.
  - assert (N' : forall v, ~ In (FSet a v) ops) by (intros v I; apply (N v); auto).
    destruct op as [b|b v|op].
    + destruct (run_fops s ops _) as [w1 l1] eqn:E1. injection E as <- <-.
      rewrite (IH N' _ _ _ E1). simpl. destruct (Nat.eqb a b) eqn:X; auto.
      apply Nat.eqb_eq in X. now subst.
    + rewrite (IH N' _ _ _ E). unfold call_set_state. destruct (n_ltb _ _); auto.
      destruct (fa_kind (fw_agents w b)); auto. destruct (set_state _ _ v); auto.
      rewrite upd_other; auto. intros ->. apply (N v). auto.
    + destruct (run_fops s ops w) as [w1 l1] eqn:E1. injection E as <- <-. eauto.
Qed.

Lemma target_set (states : dict string (state F)) cur v cur' : target states cur v cur' ->
  set_state states cur v = Some cur'.
Proof. intros T. inversion T; subst; simpl; auto. now rewrite H. Qed.

Lemma resume_finish s a wc q r ops v states :
  fa_kind (fw_agents (fst wc) a) = KFsm states -> running u a wc q ->
  c_resume u s a q (fst wc) = (r, ops, GReturn v) ->
  exists w1 l, run_fops s ops (FWorld (fw_agents (fst wc)) r) = (w1, l) /\
  agent_step u fs s a wc =
  match finish (Q := Q) states a w1 v with
  | (w2, GReturn v') => (w2, set_co (set_co (set_co (snd wc) a
       (Some match get_co (snd wc) a with Some g => g | None => GSusp FStart end)) a (Some GDone))
       a None, l, as_delay is_none (to_float fs) v')
  | (w2, _) => (w2, set_co (set_co (snd wc) a
       (Some match get_co (snd wc) a with Some g => g | None => GSusp FStart end)) a (Some GDone), l, Exc)
  end.
Proof.
  intros K R C.
  destruct (run_fops s ops (FWorld (fw_agents (fst wc)) r)) as [w1 l] eqn:E1.
  exists w1, l. split; auto.
  assert (I : inside u s a q (fst wc) = let '(w2, g) := finish states a w1 v in (w2, l, g)).
  { unfold inside. rewrite C, E1. apply run_fops_le in E1. destruct (E1 a) as [K1 _].
    simpl in K1. rewrite K1, K. reflexivity. }
  unfold agent_step, decorated.
  destruct R as [(G & A & st & S & Eq)|G]; rewrite G; cbn [send step_gen].
  - rewrite K, A, S. cbn [negb]. subst q. rewrite I.
    unfold finish. destruct (unpack2 v) as [[x y]|];
      destruct (set_state states _ _); reflexivity.
  - rewrite I. unfold finish. destruct (unpack2 v) as [[x y]|];
      destruct (set_state states _ _); reflexivity.
Qed.

Lemma state_moves s a wc q r ops v states cur' d :
  fa_kind (fw_agents (fst wc) a) = KFsm states -> running u a wc q ->
  c_resume u s a q (fst wc) = (r, ops, GReturn v) -> (forall v', ~ In (FSet a v') ops) ->
  moves states (fa_cur (fw_agents (fst wc) a)) v cur' d ->
  let '(w', c', l, o) := agent_step u fs s a wc in
  fa_cur (fw_agents w' a) = cur' /\ o = Ret d /\ get_co c' a = None.
Proof.
  intros K R C N M. destruct (resume_finish s a wc q r ops v states K R C) as (w1 & l & E1 & ->).
  pose proof (run_fops_cur s ops a N _ _ _ E1) as CU. simpl in CU. rewrite <- CU in M.
  unfold finish. inversion M as [v0 c0 T NS|d0|x c0 d0 T|x c0 T]; subst.
  - assert (U : unpack2 v = None).
    { inversion T; subst; auto. simpl. destruct n as [|c1 [|c2 [|]]]; auto.
      exfalso. now apply (NS _ eq_refl). }
    rewrite U, (target_set _ _ _ _ T). rewrite upd_same.
    repeat split. now rewrite get_set_co, Nat.eqb_refl.
  - simpl. repeat split. now rewrite get_set_co, Nat.eqb_refl.
  - simpl. rewrite (target_set _ _ _ _ T). cbn [fw_agents upd]. rewrite Nat.eqb_refl.
    repeat split. now rewrite get_set_co, Nat.eqb_refl.
  - simpl. rewrite (target_set _ _ _ _ T). cbn [fw_agents upd]. rewrite Nat.eqb_refl.
    repeat split. now rewrite get_set_co, Nat.eqb_refl.
Qed.

(** ** [set_state] after the start *)
Lemma run_fops_late s ops : n_ltb (Fin 0) (s_time s) = true -> forall (w w' : fworld) l b,
  run_fops s ops w = (w', l) -> fa_cur (fw_agents w' b) = fa_cur (fw_agents w b).
Proof.
  intros T. induction ops as [|op ops IH]; simpl; intros w w' l b E.
  - injection E as <- <-. auto.
  - destruct op as [c|c v|op].
    + destruct (run_fops s ops _) as [w1 l1] eqn:E1. injection E as <- <-.
      rewrite (IH _ _ _ b E1). simpl. destruct (Nat.eqb b c) eqn:X; auto.
      apply Nat.eqb_eq in X. now subst.
    + rewrite (IH _ _ _ b E). unfold call_set_state. now rewrite T.
    + destruct (run_fops s ops w) as [w1 l1] eqn:E1. injection E as <- <-. eauto.
Qed.

Lemma late_others s a b wc : n_ltb (Fin 0) (s_time s) = true -> b <> a ->
  let '(w', _, _, _) := agent_step u fs s a wc in
  fa_cur (fw_agents w' b) = fa_cur (fw_agents (fst wc) b).
Proof.
  intros T N. unfold agent_step, decorated.
  assert (I : forall q, fa_cur (fw_agents (fst (fst (inside u s a q (fst wc)))) b)
                        = fa_cur (fw_agents (fst wc) b)).
  { intros q. unfold inside. destruct (c_resume u s a q (fst wc)) as [[r ops] o].
    destruct (run_fops s ops _) as [w1 l] eqn:E1. apply (run_fops_late s ops T _ _ _ b) in E1.
    simpl in E1. destruct o as [v q'|v|d]; auto.
    destruct (fa_kind (fw_agents w1 a)); auto. unfold finish.
    destruct (unpack2 v) as [[x y]|]; destruct (set_state _ _ _); simpl; auto;
      replace (Nat.eqb b a) with false; auto; symmetry; now apply Nat.eqb_neq. }
  assert (G : forall fr, fa_cur (fw_agents (fst (fst (step_gen u s a fr (fst wc)))) b)
                         = fa_cur (fw_agents (fst wc) b)).
  { intros [|q]; simpl; auto. destruct (fa_kind (fw_agents (fst wc) a)); auto.
    destruct (fa_alive (fw_agents (fst wc) a)); simpl; auto.
    destruct (fa_cur (fw_agents (fst wc) a)); simpl; auto. }
  assert (H : forall g, fa_cur (fw_agents (fst (fst (fst (send (step_gen u) PNone s a g (fst wc))))) b)
                        = fa_cur (fw_agents (fst wc) b)).
  { intros [fr|]; simpl; auto. specialize (G fr).
    destruct (step_gen u s a fr (fst wc)) as [[w1 ops] []]; auto. }
  match goal with |- context [send _ _ s a ?g (fst wc)] =>
    specialize (H g); destruct (send (step_gen u) PNone s a g (fst wc)) as [[[w1 ops] g1] [v|v|[]]] end; auto.
Qed.

Lemma early_set s b v (w : fworld) states cur' : n_ltb (Fin 0) (s_time s) = false ->
  fa_kind (fw_agents w b) = KFsm states -> target states (fa_cur (fw_agents w b)) v cur' ->
  exists w' l, run_fops s [FSet b v] w = (w', l) /\ fa_cur (fw_agents w' b) = cur' /\
  (forall c, c <> b -> fw_agents w' c = fw_agents w c).
Proof.
  intros T K G. simpl. unfold call_set_state. rewrite T, K, (target_set _ _ _ _ G).
  do 2 eexists. split; [reflexivity|]. split.
  - simpl. now rewrite Nat.eqb_refl.
  - intros c N. now apply upd_other.
Qed.

Lemma nameless_set states cur x : nameless (F := F) states x -> x <> PNone -> set_state states cur x = None.
Proof. intros N P. inversion N; subst; simpl; auto. now rewrite (proj2 (dget_none _ _) H). Qed.

Lemma invalid_fails s a wc q r ops v states :
  fa_kind (fw_agents (fst wc) a) = KFsm states -> running u a wc q ->
  c_resume u s a q (fst wc) = (r, ops, GReturn v) -> (forall v', ~ In (FSet a v') ops) ->
  invalid states fs v ->
  let '(w', _, _, o) := agent_step u fs s a wc in
  o = Exc /\ fa_cur (fw_agents w' a) = fa_cur (fw_agents (fst wc) a).
Proof.
  intros K R C N I. destruct (resume_finish s a wc q r ops v states K R C) as (w1 & l & E1 & ->).
  pose proof (run_fops_cur s ops a N _ _ _ E1) as CU. simpl in CU.
  unfold finish. inversion I as [|l0 L|n N1 N2 N3|x y X]; subst.
  - simpl. auto.
  - replace (unpack2 (PTuple l0)) with (@None (pyval F * pyval F)); [simpl; auto|].
    destruct l0 as [|? [|? [|]]]; auto. now destruct L.
  - replace (unpack2 (PStr n)) with (@None (pyval F * pyval F)).
    + cbn [set_state]. rewrite (proj2 (dget_none _ _) N1). cbn. unfold as_delay. simpl.
      rewrite N3. auto.
    + destruct n as [|c1 [|c2 [|]]]; auto. now destruct N2.
  - cbn [unpack2]. rewrite (nameless_set states _ x X); auto. intros ->. inversion X.
Qed.

Lemma two_letters s a wc q r ops n states :
  fa_kind (fw_agents (fst wc) a) = KFsm states -> running u a wc q ->
  c_resume u s a q (fst wc) = (r, ops, GReturn (PStr n)) -> String.length n = 2 ->
  snd (agent_step u fs s a wc) <> Ret None.
Proof.
  intros K R C N.
  destruct (resume_finish s a wc q r ops _ states K R C) as (w1 & l & E1 & ->).
  destruct n as [|c1 [|c2 [|]]]; try discriminate. unfold finish. cbn [unpack2].
  destruct (set_state states _ _); [|discriminate].
  unfold as_delay. simpl. destruct (fs _); discriminate.
Qed.

Lemma two_letters_undeclared s a wc q r ops c1 c2 states :
  fa_kind (fw_agents (fst wc) a) = KFsm states -> running u a wc q ->
  c_resume u s a q (fst wc) = (r, ops, GReturn (PStr (String c1 (String c2 EmptyString)))) ->
  (forall v', ~ In (FSet a v') ops) ->
  ~ In (String c1 EmptyString) (dkeys states) ->
  let '(w', _, _, o) := agent_step u fs s a wc in
  o = Exc /\ fa_cur (fw_agents w' a) = fa_cur (fw_agents (fst wc) a).
Proof.
  intros K R C NF N.
  destruct (resume_finish s a wc q r ops _ states K R C) as (w1 & l & E1 & ->).
  apply dget_none in N. unfold finish. cbn [unpack2 set_state]. rewrite N.
  split; auto. apply (run_fops_cur s ops a NF _ _ _ E1).
Qed.

(** Code that never asks for a negative delay. *)
Lemma code_forward shuffle :
  (forall s a q w r ops o, c_resume u s a q w = (r, ops, o) ->
     match o with GYield v _ | GReturn v => mild v | GRaise _ => True end) ->
  (forall n d, fs n = Some d -> nonneg d = true) ->
  forward_only (agent_user u fs shuffle).
Proof.
  intros M FN s a wc. cbn [agent_user u_step].
  assert (D : forall v : pyval F, mild v ->
            match as_delay is_none (to_float fs) v with
            | Ret (Some d) => nonneg d = true | _ => True end).
  { intros v MV. unfold as_delay. destruct v as [|n|n|st|l|]; simpl in *; auto.
    destruct (fs n) eqn:E; eauto. }
  set (ok := fun g : gout (frame Q) (pyval F) =>
         match g with
         | GYield v _ | GReturn v =>
             match as_delay is_none (to_float fs) v with
             | Ret (Some d) => nonneg d = true | _ => True end
         | GRaise _ => True
         end).
  assert (G : forall q, ok (snd (inside u s a q (fst wc)))).
  { intros q. unfold inside. destruct (c_resume u s a q (fst wc)) as [[r ops] o] eqn:C.
    specialize (M _ _ _ _ _ _ _ C). destruct (run_fops s ops _) as [w1 l].
    destruct o as [v q'|v|d]; [now apply D| |exact I].
    destruct (fa_kind (fw_agents w1 a)); [|now apply D]. unfold finish.
    destruct (unpack2 v) as [[x y]|] eqn:U; destruct (set_state _ _ _); simpl; auto;
      try exact I; try now apply D.
    unfold as_delay. destruct v as [|n|n|st|l0|]; simpl in U; try discriminate.
    - destruct n as [|c1 [|c2 [|]]]; try discriminate. injection U as <- <-. simpl.
      destruct (fs _) eqn:E; eauto.
    - destruct l0 as [|v1 [|v2 [|]]]; try discriminate. injection U as <- <-.
      destruct v2 as [|n|n|st|l0|]; simpl in *; auto. destruct (fs n) eqn:E; eauto. }
  assert (G2 : forall fr, ok (snd (step_gen u s a fr (fst wc)))).
  { intros [|q]; unfold step_gen; auto.
    destruct (fa_kind (fw_agents (fst wc) a)); auto.
    destruct (negb _); [exact I|]. destruct (fa_cur _); [auto|exact I]. }
  unfold agent_step, decorated.
  destruct (match get_co (snd wc) a with Some g => g | None => GSusp FStart end) as [fr|];
    cbn [send]; [|exact I].
  specialize (G2 fr). destruct (step_gen u s a fr (fst wc)) as [[w1 l1] g]. simpl in G2.
  destruct g as [v q|v|[]]; simpl in *; auto.
Qed.
End Step.

(** * Tables of states *)
Section Meta.
Context {F : Type}.

Definition as_item (o : option (state F)) : item (state F) :=
  match o with Some st => IAttr (st_name st) st | None => IDefaults [] end.
Fixpoint as_defaults (c : cls (option (state F))) : cls (item (state F)) :=
  match c with Cls i bases own => Cls i (map as_defaults bases) (map as_item own) end.

Lemma own_state_body n own : own_state (F := F) n own = body_value n (map as_item own).
Proof.
  induction own as [|o own IH]; simpl; auto. rewrite IH.
  destruct (body_value n _); auto. destruct o; auto.
Qed.

Lemma fold_own own : forall acc,
  fst (fold_left (fun acc o => match o with Some st => add_state (F := F) acc st | None => acc end)
         own acc) = own_defaults (map as_item own) (fst acc).
Proof.
  unfold own_defaults. induction own as [|o own IH]; intros acc; simpl; auto.
  rewrite IH. destruct o; reflexivity.
Qed.

Lemma fold_inner (d : dict string (state F)) : forall acc,
  fst (fold_left (fun acc kv => (dset (fst kv) (snd kv) (fst acc),
         if st_default (snd kv) then Some (snd kv) else snd acc)) d acc) = dupdate (fst acc) d.
Proof.
  unfold dupdate. induction d as [|[k v] d IH]; intros acc; simpl; auto. now rewrite IH.
Qed.

Lemma meta_defaults (c : cls (option (state F))) : fst (meta c) = defaults (as_defaults c).
Proof.
  induction c as [i bases own IH] using cls_ind'. cbn [meta as_defaults defaults].
  rewrite fold_own. f_equal.
  assert (G : forall acc, fst (fold_left (fun acc b => fold_left (fun acc kv =>
                (dset (fst kv) (snd kv) (fst acc),
                 if st_default (snd kv) then Some (snd kv) else snd acc))
                 (fst (meta b)) acc) bases acc)
              = fold_left (fun d b => dupdate d (defaults b)) (map as_defaults bases) (fst acc)).
  { induction bases as [|b bases IHb]; intros acc; simpl; auto.
    inversion IH as [|? ? IH1 IH2]; subst. rewrite IHb by auto. f_equal.
    rewrite fold_inner. now rewrite IH1. }
  apply (G ([], None)).
Qed.

Lemma meta_get i bases own n :
  dget n (fst (meta (F := F) (Cls i bases own))) =
  match own_state n own with
  | Some st => Some st
  | None => last_some (map (fun b => dget n (fst (meta b))) bases)
  end.
Proof.
  rewrite meta_defaults. cbn [as_defaults]. rewrite defaults_get, <- own_state_body.
  destruct (own_state n own); auto. rewrite map_map. f_equal. apply map_ext.
  intros b. now rewrite meta_defaults.
Qed.

Lemma meta_keyed (c : cls (option (state F))) n st :
  dget n (fst (meta c)) = Some st -> st_name st = n.
Proof.
  revert st. induction c as [i bases own IH] using cls_ind'. intros st. rewrite meta_get.
  destruct (own_state n own) as [st'|] eqn:O.
  - intros E. injection E as <-. clear IH. revert st' O.
    induction own as [|o own IHo]; simpl; [discriminate|]. intros st' O.
    destruct (own_state n own); [injection O as <-; auto|].
    destruct o; [|discriminate]. destruct (String.eqb n (st_name s)) eqn:E; [|discriminate].
    injection O as <-. apply String.eqb_eq in E. auto.
  - intros E. apply last_some_in in E. apply in_map_iff in E. destruct E as (b & E & Ib).
    rewrite Forall_forall in IH. eauto.
Qed.

Lemma line_as_defaults (c : cls (option (state F))) l : line c = Some l ->
  line (as_defaults c) = Some (map as_defaults l).
Proof.
  revert l. induction c as [i bases own IH] using cls_ind'. intros l.
  destruct bases as [|b [|b2 bases]]; cbn [line as_defaults map]; [| |discriminate].
  - intros E. injection E as <-. reflexivity.
  - apply Forall_inv in IH. destruct (line b) as [lb|] eqn:L; [|discriminate].
    intros E. injection E as <-. rewrite (IH lb eq_refl). reflexivity.
Qed.

Lemma first_state_value n (l : list (cls (option (state F)))) :
  first_state n l = first_value n (map as_defaults l).
Proof.
  induction l as [|c l IH]; simpl; auto. rewrite own_state_body, IH.
  destruct c; reflexivity.
Qed.

Lemma states_single (c : cls (option (state F))) n l : line c = Some l -> NoDup (map c_id l) ->
  mro c = Some l /\ dget n (fst (meta c)) = first_state n l.
Proof.
  intros L N. split; [now apply mro_line|]. rewrite meta_defaults, first_state_value.
  apply defaults_line. now apply line_as_defaults.
Qed.

Lemma last_some_app {X} (l1 l2 : list (option X)) :
  last_some (l1 ++ l2) = match last_some l2 with Some x => Some x | None => last_some l1 end.
Proof.
  induction l1 as [|o l1 IH]; simpl; [destruct (last_some l2); auto|].
  rewrite IH. destruct (last_some l2); auto.
Qed.

Lemma fold_own_default own : forall acc,
  snd (fold_left (fun acc o => match o with Some st => add_state (F := F) acc st | None => acc end)
         own acc) = match own_default own with Some st => Some st | None => snd acc end.
Proof.
  unfold own_default. induction own as [|o own IH]; intros acc; simpl; auto.
  rewrite IH. destruct (last_some _); auto. destruct o as [st|]; auto.
  unfold add_state. simpl. destruct (st_default st); auto.
Qed.

Lemma meta_default i bases own st :
  own_default own = Some st -> snd (meta (F := F) (Cls i bases own)) = Some st.
Proof. intros E. cbn [meta]. now rewrite fold_own_default, E. Qed.

(** The initial state is declared. *)
Lemma meta_default_declared (c : cls (option (state F))) st :
  snd (meta c) = Some st -> In (st_name st) (dkeys (fst (meta c))).
Proof.
  assert (SUB : forall own (acc : dict string (state F) * option (state F)) n,
            In n (dkeys (fst acc)) ->
            In n (dkeys (fst (fold_left (fun acc o =>
              match o with Some st => add_state acc st | None => acc end) own acc)))).
  { induction own as [|o own IH]; intros acc n I; simpl; auto. apply IH.
    destruct o; auto. unfold add_state. simpl. apply in_dkeys_set. auto. }
  assert (OWN : forall own (acc : dict string (state F) * option (state F)),
            (forall x, snd acc = Some x -> In (st_name x) (dkeys (fst acc))) ->
            let r := fold_left (fun acc o =>
              match o with Some st => add_state acc st | None => acc end) own acc in
            forall x, snd r = Some x -> In (st_name x) (dkeys (fst r))).
  { induction own as [|o own IH]; intros acc K; simpl; auto. apply IH.
    destruct o as [s|]; auto. unfold add_state. simpl. intros x. destruct (st_default s).
    - intros E. injection E as ->. apply in_dkeys_set. auto.
    - intros E. apply in_dkeys_set. auto. }
  assert (INN : forall (d : dict string (state F)), (forall k x, In (k, x) d -> st_name x = k) ->
            forall acc : dict string (state F) * option (state F),
            (forall x, snd acc = Some x -> In (st_name x) (dkeys (fst acc))) ->
            let r := fold_left (fun acc kv => (dset (fst kv) (snd kv) (fst acc),
              if st_default (snd kv) then Some (snd kv) else snd acc)) d acc in
            forall x, snd r = Some x -> In (st_name x) (dkeys (fst r))).
  { induction d as [|[k v] d IH]; intros KD acc K; simpl; auto. apply IH.
    - intros k0 x0 I0. apply KD. now right.
    - simpl. intros x. assert (st_name v = k) by (apply KD; now left). destruct (st_default v).
      + intros E. injection E as ->. apply in_dkeys_set. auto.
      + intros E. apply in_dkeys_set. auto. }
  destruct c as [i bases own]. cbn [meta]. intros E.
  refine (OWN own _ _ st E). clear OWN SUB E st.
  assert (G : forall acc : dict string (state F) * option (state F),
            (forall x, snd acc = Some x -> In (st_name x) (dkeys (fst acc))) ->
            let r := fold_left (fun acc b => fold_left (fun acc kv =>
                (dset (fst kv) (snd kv) (fst acc),
                 if st_default (snd kv) then Some (snd kv) else snd acc))
                 (fst (meta b)) acc) bases acc in
            forall x, snd r = Some x -> In (st_name x) (dkeys (fst r))).
  { induction bases as [|b bases IHb]; intros acc K; simpl; auto. apply IHb.
    apply INN; auto. intros k x I. apply (meta_keyed b k x). apply dget_in_wf; auto.
    rewrite meta_defaults. apply defaults_wf. }
  apply G. simpl. discriminate.
Qed.

Lemma init_declared (c : cls (option (state F))) v st : native (fst (meta c)) v ->
  fsm_init c v = Some (Some st) -> In (st_name st) (dkeys (fst (meta c))).
Proof.
  unfold fsm_init. intros N. destruct (meta c) as [states default] eqn:M. simpl in N |- *.
  destruct (set_state states default v) as [cur|] eqn:S; [|discriminate].
  destruct ((1 <? List.length states)%nat && _); [discriminate|]. intros E. injection E as ->.
  assert (states = fst (meta c)) as -> by now rewrite M.
  refine (set_state_declared (fst (meta c)) default v (Some st) _ _ N S st eq_refl).
  - apply meta_keyed.
  - intros x ->. apply meta_default_declared. now rewrite M.
Qed.
End Meta.

(** * Death *)
Section Death.
Context {F Q W : Type}.
Variable fs : string -> option num.
Notation world := (fworld F W * cors (frame Q))%type.

Lemma dead_step_other (u : code F Q W) a s b (wc : world) : dead_idle a wc -> b <> a ->
  dead_idle a (fst (fst (agent_step u fs s b wc))) /\
  get_co (snd (fst (fst (agent_step u fs s b wc)))) a = get_co (snd wc) a.
Proof.
  intros (K & A & C) N.
  destruct (agent_step u fs s b wc) as [[[w' c'] l] o] eqn:E. simpl.
  destruct (agent_step_le u fs _ _ _ _ _ _ _ E) as [L O].
  assert (G : get_co c' a = get_co (snd wc) a) by (apply O; auto).
  split; auto. destruct (L a) as [L1 L2]. split; [|split]; simpl.
  - rewrite L1. auto.
  - auto.
  - now rewrite G.
Qed.

Lemma dead_step_self (u : code F Q W) a s (wc : world) : dead_idle a wc ->
  agent_step u fs s a wc =
  match get_co (snd wc) a with
  | None => (fst wc, set_co (set_co (snd wc) a (Some (GSusp FStart))) a (Some GDone), [], Dead)
  | _ => (fst wc, set_co (set_co (set_co (snd wc) a (Some GDone)) a (Some GDone)) a None, [], Ret None)
  end.
Proof.
  intros ((states & K) & A & C). unfold agent_step, decorated.
  destruct C as [C|C]; rewrite C; cbn [send].
  - unfold step_gen. rewrite K, A. reflexivity.
  - reflexivity.
Qed.

Lemma dead_step (u : code F Q W) a s b (wc : world) : dead_idle a wc ->
  dead_idle a (fst (fst (agent_step u fs s b wc))).
Proof.
  intros D. destruct (Nat.eq_dec b a) as [->|N]; [|now apply dead_step_other].
  rewrite (dead_step_self u a s wc D). destruct D as (K & A & C).
  destruct (get_co (snd wc) a) as [g|]; simpl; (split; [auto|split; [auto|]]); simpl;
    rewrite get_set_co, Nat.eqb_refl; auto.
Qed.

Lemma dead_keeps (u : code F Q W) shuffle a :
  step_keeps (dead_idle a) (agent_user u fs shuffle).
Proof.
  split.
  - intros s b x D. simpl. now apply dead_step.
  - intros l x D. simpl. destruct (shuffle l (fw_rest (fst x))). exact D.
Qed.

Lemma dead_code_not_run {AR : Arith} (u v : code F Q W) shuffle a h s wc :
  same_but a u v -> dead_idle a wc -> Forall (keeps (dead_idle a)) h ->
  run_hist (agent_user u fs shuffle) h s wc = run_hist (agent_user v fs shuffle) h s wc.
Proof.
  intros (S1 & S2) D H. refine (hist_same (dead_idle a) _ _ (dead_keeps u shuffle a) _ _ h s wc H D).
  - intros s0 b x Dx. simpl. destruct (Nat.eq_dec b a) as [->|N].
    + now rewrite !dead_step_self.
    + unfold agent_step, decorated.
      assert (E : forall q w, inside u s0 b q w = inside v s0 b q w).
      { intros q w. unfold inside. now rewrite S2. }
      assert (E2 : forall fr w, step_gen u s0 b fr w = step_gen v s0 b fr w).
      { intros fr w. unfold step_gen. destruct fr; auto.
        destruct (fa_kind _); rewrite ?E, ?S1; auto. destruct (negb _); auto.
        destruct (fa_cur _); rewrite ?E, ?S1; auto. }
      destruct (match get_co (snd x) b with Some g => g | None => GSusp FStart end);
        cbn [send]; rewrite ?E2; reflexivity.
  - reflexivity.
Qed.

Lemma dead_woken_once {AR : Arith} (u : code F Q W) shuffle a sh di h1 h2 x s1 x1 tr1 s2 x2 tr2 :
  let U := agent_user u fs shuffle in
  let P := fun wc : world => dead_idle a wc /\ get_co (snd wc) a = None in
  forward_only U -> (sh = true -> fair_shuffle U) -> nonneg di = true ->
  run_hist U h1 (timed_init sh di) x = (s1, x1, tr1) ->
  run_hist U h2 s1 x1 = (s2, x2, tr2) ->
  no_exc (tr1 ++ tr2) -> adds_of a (tr1 ++ tr2) = 1 ->
  P x1 -> Forall (keeps P) h2 ->
  List.length (filter (act_of a) tr2) <= 1.
Proof.
  intros U P FO FS ND E1 E2 NE AD PX HH.
  assert (E : run_hist U (h1 ++ h2) (timed_init sh di) x = (s2, x2, tr1 ++ tr2)).
  { rewrite run_hist_app, E1, E2. reflexivity. }
  destruct (exact_wakeup _ U sh di (h1 ++ h2) x s2 x2 (tr1 ++ tr2) a FO FS ND E NE AD)
    as (t0 & rest & pend & FI & TT & _).
  assert (FD : first_dead a P x2 tr2).
  { refine (hist_first_dead a P U _ _ _ h2 s1 x1 s2 x2 tr2 E2 HH PX).
    - intros s b y (D & G) N. simpl. destruct (dead_step_other u a s b y D N) as [D2 G2].
      split; auto. now rewrite G2.
    - intros s y (D & G). simpl. rewrite (dead_step_self u a s y D), G. reflexivity.
    - intros l y (D & G). simpl. destruct (shuffle l (fw_rest (fst y))). split; auto. }
  assert (SUB : forall tr, filter (act_of a) tr = filter (act_of a) (filter (about a) tr)).
  { induction tr as [|e tr IH]; simpl; auto.
    destruct e as [t b|t b o]; simpl; rewrite IH.
    - destruct (Nat.eqb a b); reflexivity.
    - rewrite (Nat.eqb_sym b a). destruct (Nat.eqb a b) eqn:X; simpl; auto.
      rewrite (Nat.eqb_sym b a), X. reflexivity. }
  destruct FD as [[_ FA]|(l1 & t & l2 & -> & FA)].
  - assert (filter (act_of a) tr2 = []) as ->; [|simpl; lia].
    clear -FA. induction tr2 as [|e tr IH]; simpl in *; auto.
    apply andb_true_iff in FA. destruct FA as [F1 F2]. destruct (act_of a e); [discriminate|auto].
  - assert (filter (act_of a) l1 = []) as X1.
    { clear -FA. induction l1 as [|e tr IH]; simpl in *; auto.
      apply andb_true_iff in FA. destruct FA as [F1 F2]. destruct (act_of a e); [discriminate|auto]. }
    rewrite filter_app, X1. simpl. rewrite Nat.eqb_refl.
    rewrite app_assoc, filter_app in FI. simpl in FI. rewrite Nat.eqb_refl in FI.
    destruct (filter (about a) (tr1 ++ l1)) as [|e0 m] eqn:Y; simpl in FI.
    + discriminate.
    + injection FI as -> FI. rewrite <- FI in TT. apply timetable_dead in TT.
      rewrite SUB, TT. simpl. lia.
Qed.
End Death.
