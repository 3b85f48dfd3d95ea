(** Proofs about agents that count the neighbours that are in the same state. *)
From Coq Require Import ZArith List Bool Arith String Lia Permutation.
From Verif Require Import Num PyDict TimedModel TimedSpec TimedProofs TraceProofs AgentModel AgentProofs FsmModel PatronProofs ResumeProofs NormalModel NormalSpec.
Import ListNotations.
Local Open Scope nat_scope.
Local Open Scope list_scope.

(** A statement about all activations and the world, along steps that leave the agents of the scheduler as they are. *)
Section All.
Context {AR : Arith} {W : Type}.
Variables (u : user W) (reg : list aid) (I : list aid -> W -> Prop).
Hypothesis H1 : forall l s b w w' ops o, s_reg s = reg -> u_step u s b w = (w', ops, o) -> I l w -> ops = [] /\ I (l ++ [b]) w'.
Hypothesis H2 : forall l b w, I l w -> I l (fst (u_shuffle u b w)).
Lemma bucket_reg now b : forall l s w s' w' tr x, s_reg s = reg -> run_bucket u now b s w = (s', w', tr, x) -> I l w ->
  s_reg s' = reg /\ I (l ++ who tr) w'.
Proof.
  induction b as [|c b IH]; cbn [run_bucket]; intros l s w s' w' tr x RG E J.
  { injection E as <- <- <- <-. cbn. rewrite app_nil_r. auto. }
  destruct (u_step u s c w) as [[w1 ops] o] eqn:U. apply (H1 l) in U; auto. destruct U as [-> U]. cbn [run_ops] in E.
  destruct o as [d| |].
  - set (s2 := if negb _ then _ else _) in E.
    assert (R2 : s_reg s2 = reg) by (subst s2; destruct (negb _); exact RG).
    destruct (run_bucket u now b s2 w1) as [[[s3 w3] tr3] x3] eqn:B. injection E as <- <- <- <-.
    destruct (IH _ _ _ _ _ _ _ R2 B U) as [K1 K2]. rewrite <- app_assoc in K2. auto.
  - destruct (run_bucket u now b s w1) as [[[s3 w3] tr3] x3] eqn:B. injection E as <- <- <- <-.
    destruct (IH _ _ _ _ _ _ _ RG B U) as [K1 K2]. rewrite <- app_assoc in K2. auto.
  - injection E as <- <- <- <-. auto.
Qed.
Lemma tstep_reg l s w s' w' tr x : s_reg s = reg -> timed_step u s w = (s', w', tr, x) -> I l w -> s_reg s' = reg /\ I (l ++ who tr) w'.
Proof.
  unfold timed_step. intros RG. destruct (s_queue s) as [|[t b] q].
  { intros E J. injection E as <- <- <- <-. rewrite app_nil_r. auto. }
  destruct (n_ltb _ t). { intros E J. injection E as <- <- <- <-. rewrite app_nil_r. auto. }
  intros E J.
  assert (K : I l (fst (if s_shuffle s then u_shuffle u b w else (w, b)))) by (destruct (s_shuffle s); auto).
  destruct (if s_shuffle s then u_shuffle u b w else (w, b)) as [w0 b0]. cbn [fst] in K.
  destruct (run_bucket u (s_time s) b0 _ w0) as [[[s1 w1] tr1] x1] eqn:B.
  destruct (bucket_reg (s_time s) b0 l (set_queue s q) w0 s1 w1 tr1 x1 RG B K) as [R1 R2].
  destruct x1; injection E as <- <- <- <-; split; auto. cbn. destruct (s_queue s1) as [|[? ?] ?]; auto.
Qed.
Lemma steps_reg n : forall l s w s' w' tr, s_reg s = reg -> run_hist u (repeat CStep n) s w = (s', w', tr) -> I l w -> I (l ++ who tr) w'.
Proof.
  induction n as [|n IH]; cbn [repeat run_hist run_cmd]; intros l s w s' w' tr RG E J.
  { injection E as <- <- <-. now rewrite app_nil_r. }
  destruct (timed_step u s w) as [[[s1 w1] tr1] x1] eqn:T. destruct (run_hist u (repeat CStep n) s1 w1) as [[s2 w2] tr2] eqn:R.
  injection E as <- <- <-. destruct (tstep_reg l _ _ _ _ _ _ RG T J) as [R1 R2]. rewrite who_app, app_assoc. eapply IH; eauto.
Qed.
End All.

Section Act.
Context {AR : Arith} {R : Type}.
Variables (shuffle : list aid -> R -> R * list aid) (nbrs : aid -> list aid) (given : aid -> option string) (ids : list aid).
Hypothesis KN : forall a, known (given a).
Notation X := (fworld ufn (urest R) * cors (frame ufn))%type.
Notation K := (KFsm (fst (meta custom_class))).
Definition isn (a : aid) : bool := match given a with Some i => negb (String.eqb i "unreachable") | None => true end.
Lemma isn_normal a : isn a = true <-> normal (given a).
Proof.
  unfold isn, normal. destruct (given a) as [i|]; [|split; congruence].
  destruct (String.eqb_spec i "unreachable") as [->|N]; cbn; split; congruence.
Qed.
Definition stay (x : X) : Prop := u_nbrs (fw_rest (fst x)) = nbrs /\
  forall b, fw_agents (fst x) b = FAgent K true (Some (if isn b then u_normal else u_unreachable)) /\ get_co (snd x) b = None.
Definition near (a : aid) : nat := List.length (filter isn (filter (fun b => existsb (Nat.eqb b) (nbrs a)) ids)).
Definition told (l : list aid) (x : X) : Prop :=
  forall b, u_neighbors (fw_rest (fst x)) b = if isn b && existsb (Nat.eqb b) l then Some (near b) else None.

Lemma custom_act s a (x x' : X) ops o : s_reg s = ids -> agent_step custom_code (fun _ => None) s a x = (x', ops, o) -> stay x ->
  ops = [] /\ o = Ret None /\ stay x' /\ forall l, told l x -> told (l ++ [a]) x'.
Proof.
  intros RG E [NB ST]. destruct x as [w c]. cbn [fst snd] in NB, ST. destruct (ST a) as [A C].
  assert (CN : count_normal s a w = near a).
  { unfold count_normal, near. rewrite NB, RG. f_equal. apply filter_ext. intros b. unfold custom_id. destruct (ST b) as [-> _].
    cbn [fa_cur option_map]. now destruct (isn b). }
  unfold agent_step, decorated in E. cbn [fst snd] in E. rewrite C in E.
  cbn [send step_gen] in E. rewrite A in E. cbn [fa_kind fa_alive fa_cur negb] in E. unfold inside in E.
  assert (TL : forall l b, existsb (Nat.eqb b) (l ++ [a]) = existsb (Nat.eqb b) l || Nat.eqb b a) by (intros l b; rewrite existsb_app; cbn; now rewrite orb_false_r).
  destruct (isn a) eqn:N; cbn [st_fun u_normal u_unreachable custom_code c_start c_resume run_fops fw_agents] in E; rewrite A in E; cbn [fa_kind] in E;
    unfold finish in E; cbn [fw_agents] in E; rewrite A in E; cbn in E; injection E as <- <- <-; (split; [reflexivity|]); (split; [reflexivity|]);
    (split; [split; [exact NB|]; intros b; destruct (ST b) as [S1 S2]; cbn [fst snd fw_agents upd];
       rewrite !get_set_co; destruct (Nat.eqb_spec b a) as [->|NE]; rewrite ?N; auto|]);
    intros l T b; specialize (T b); cbn [fst fw_rest u_neighbors upd] in T |- *; rewrite TL; destruct (Nat.eqb_spec b a) as [->|NE].
  - rewrite N, orb_true_r, CN. reflexivity.
  - rewrite orb_false_r. exact T.
  - rewrite N in *. exact T.
  - rewrite orb_false_r. exact T.
Qed.
Lemma begins g : stay (custom_world nbrs given g) /\ told [] (custom_world nbrs given g).
Proof.
  split.
  - split; [reflexivity|]. intros b. split; [|reflexivity]. cbn. unfold isn. destruct (KN b) as [->|[->| ->]]; reflexivity.
  - intros b. cbn. now rewrite andb_false_r.
Qed.
Lemma custom_run sh di n g s (x : X) tr : NoDup ids ->
  run_hist (custom_user shuffle) (map (fun a => CAdd a None) ids ++ repeat CStep n) (timed_init sh di) (custom_world nbrs given g) = (s, x, tr) ->
  stay x /\ told (who tr) x.
Proof.
  intros ND Q. rewrite run_hist_app in Q.
  destruct (add_run (custom_user shuffle) ids (timed_init sh di) (custom_world nbrs given g) ND) as (s0 & tr0 & E & RG & _). cbn in RG.
  assert (W0 : who tr0 = []).
  { clear - E. revert E. generalize (timed_init sh di), (custom_world nbrs given g), s0, tr0. clear.
    induction ids as [|a l IH]; cbn [map run_hist run_cmd run_op]; intros s w s0 tr0 E; [now injection E as <- <-|].
    destruct (run_hist _ (map _ l) _ w) as [[s2 w2] tr2] eqn:H. injection E as <- <- <-. cbn. eapply IH. exact H. }
  rewrite E in Q. destruct (run_hist (custom_user shuffle) (repeat CStep n) s0 _) as [[s1 x1] tr1] eqn:H. injection Q as <- <- <-.
  rewrite who_app, W0. cbn [app].
  assert (J : stay x1 /\ told ([] ++ who tr1) x1).
  { refine (steps_reg (custom_user shuffle) ids (fun l x => stay x /\ told l x) _ _ n [] s0 _ s1 x1 tr1 RG H (begins g)).
    - intros l s b y y' ops o R1 U [J1 J2]. destruct (custom_act s b y y' ops o R1 U J1) as (-> & _ & K1 & K2). auto.
    - intros l b [w0 c0] [J1 J2]. cbn in J1, J2 |- *. destruct (shuffle b (u_rng (fw_rest w0))) as [g' l']. split; [exact J1|exact J2]. }
  exact J.
Qed.
Lemma near_all a l : NoDup ids -> normal_neighbours ids nbrs given a l -> near a = List.length l.
Proof.
  intros ND [O A]. unfold near. apply Permutation_length. apply NoDup_Permutation; [apply NoDup_filter, NoDup_filter, ND|exact O|].
  intros b. rewrite A, !filter_In, isn_normal, existsb_exists. split.
  - intros [[I1 (c & I2 & EQ)] I3]. apply Nat.eqb_eq in EQ. subst c. auto.
  - intros (I1 & I2 & I3). split; auto. split; auto. exists b. split; auto. apply Nat.eqb_refl.
Qed.

(** The first step activates everybody. *)
Lemma adds_queue l : forall s (x : X) b s' x' tr, s_time s = Fin 0 -> s_queue s = [(Fin 0, b)] ->
  run_hist (custom_user shuffle) (map (fun a => CAdd a None) l) s x = (s', x', tr) -> s_time s' = Fin 0 /\ s_queue s' = [(Fin 0, b ++ l)].
Proof.
  induction l as [|a l IH]; cbn [map run_hist run_cmd run_op]; intros s x b s' x' tr T Q E.
  { injection E as <- <- <-. rewrite app_nil_r. auto. }
  destruct (run_hist _ (map _ l) (timed_add s a None) x) as [[s2 x2] tr2] eqn:H. injection E as <- <- <-.
  replace (b ++ a :: l) with ((b ++ [a]) ++ l) by (now rewrite <- app_assoc). refine (IH _ _ (b ++ [a]) _ _ _ _ _ H).
  - unfold timed_add, reg_add. destruct (existsb _ _); exact T.
  - unfold timed_add, reg_add. destruct (existsb _ _); cbn [timed_schedule set_queue set_reg s_queue]; rewrite Q, T; reflexivity.
Qed.
Lemma bucket_who now b : forall s (x : X) s' x' tr e, s_reg s = ids -> stay x ->
  run_bucket (custom_user shuffle) now b s x = (s', x', tr, e) -> who tr = b.
Proof.
  induction b as [|a b IH]; cbn [run_bucket]; intros s x s' x' tr e RG ST E; [now injection E as <- <- <- <-|].
  destruct (u_step (custom_user shuffle) s a x) as [[x1 ops] o] eqn:U.
  destruct (custom_act s a x x1 ops o RG U ST) as (-> & -> & S1 & _). cbn [run_ops] in E.
  set (s2 := if negb _ then _ else _) in E. assert (R2 : s_reg s2 = ids) by (subst s2; destruct (negb _); exact RG).
  destruct (run_bucket _ now b s2 x1) as [[[s3 x3] tr3] x4] eqn:B. injection E as <- <- <- <-. cbn. f_equal. eapply IH; eauto.
Qed.
Lemma first_step sh di n g s (x : X) tr a : NoDup ids -> (forall l g, Permutation l (snd (shuffle l g))) ->
  run_hist (custom_user shuffle) (map (fun a => CAdd a None) ids ++ repeat CStep (S n)) (timed_init sh di) (custom_world nbrs given g) = (s, x, tr) ->
  In a ids -> In a (who tr).
Proof.
  intros ND P Q I. rewrite run_hist_app in Q.
  destruct (add_run (custom_user shuffle) ids (timed_init sh di) (custom_world nbrs given g) ND) as (s0 & tr0 & E & RG & _). cbn in RG.
  assert (QU : s_time s0 = Fin 0 /\ s_queue s0 = [(Fin 0, ids)]).
  { revert E. clear Q RG. destruct ids as [|i l]; [contradiction|]. cbn [map run_hist run_cmd run_op]. intros E.
    destruct (run_hist _ (map _ l) _ _) as [[s2 x2] tr2] eqn:H in E. injection E as <- _ _. exact (adds_queue l (timed_add (timed_init sh di) i None) _ [i] _ _ _ eq_refl eq_refl H). }
  rewrite E in Q. cbn [repeat run_hist run_cmd] in Q. destruct QU as [T QU].
  destruct (timed_step (custom_user shuffle) s0 _) as [[[s1 x1] tr1] x2] eqn:H.
  destruct (run_hist (custom_user shuffle) (repeat CStep n) s1 x1) as [[s3 x3] tr3]. injection Q as <- <- <-.
  rewrite !who_app. apply in_or_app. right. apply in_or_app. left. unfold timed_step in H. rewrite QU, T in H.
  replace (n_ltb (Fin 0) (Fin 0)) with false in H by reflexivity.
  set (y := custom_world nbrs given g) in *.
  assert (Y : stay (fst (if s_shuffle s0 then u_shuffle (custom_user shuffle) ids y else (y, ids))) /\
    Permutation ids (snd (if s_shuffle s0 then u_shuffle (custom_user shuffle) ids y else (y, ids)))).
  { destruct (begins g) as [B _]. fold y in B. destruct (s_shuffle s0); [|split; [exact B|apply Permutation_refl]].
    subst y. cbn in B |- *. specialize (P ids g). destruct (shuffle ids g) as [g' l']. split; [exact B|exact P]. }
  destruct (if s_shuffle s0 then _ else _) as [y0 b0] in H, Y. cbn [fst snd] in Y. destruct Y as [Y1 Y2].
  destruct (run_bucket (custom_user shuffle) (Fin 0) b0 (set_queue s0 []) y0) as [[[s4 x4] tr4] e4] eqn:B.
  assert (W : who tr4 = b0) by (eapply bucket_who; [|exact Y1|exact B]; exact RG).
  destruct e4; injection H as <- <- <- <-; rewrite W; eapply Permutation_in; eauto.
Qed.
End Act.
