(** Proofs about the rabbits. *)
From Coq Require Import ZArith List Bool Arith String Lia Permutation.
From Verif Require Import Num PyDict TimedModel AgentModel AgentProofs FsmModel FsmSpec FsmProofs PlainProofs
  InvProofs RabbitModel RabbitSpec.
Import ListNotations.
Local Open Scope string_scope.

(** ** Calls *)
Definition born (c : aid) : fop rfun := FSched (SAdd c None).
Lemma run_fops_app {F W} s (l1 : list (fop F)) : forall l2 (w w1 w2 : fworld F W) o1 o2,
  run_fops s l1 w = (w1, o1) -> run_fops s l2 w1 = (w2, o2) ->
  run_fops s (l1 ++ l2) w = (w2, (o1 ++ o2)%list).
Proof.
  induction l1 as [|op l1 IH]; cbn [app run_fops]; intros l2 w w1 w2 o1 o2 E1 E2.
  - now injection E1 as <- <-.
  - destruct op as [b|b v|op].
    + destruct (run_fops s l1 _) as [w3 o3] eqn:E3. injection E1 as <- <-.
      now rewrite (IH _ _ _ _ _ _ E3 E2).
    + eauto.
    + destruct (run_fops s l1 w) as [w3 o3] eqn:E3. injection E1 as <- <-.
      now rewrite (IH _ _ _ _ _ _ E3 E2).
Qed.
Lemma die_fops {F W} s K : forall (w : fworld F W), exists w', run_fops s (map FDie K) w = (w', map SRem K) /\
  fw_rest w' = fw_rest w /\
  forall b, fw_agents w' b = if existsb (Nat.eqb b) K then set_alive (fw_agents w b) false else fw_agents w b.
Proof.
  induction K as [|x K IH]; intros w; cbn [map run_fops existsb].
  - exists w. auto.
  - destruct (IH (upd w x (set_alive (fw_agents w x) false))) as (w' & E & R & A). rewrite E.
    exists w'. split; auto. split; [now rewrite R|]. intros b. rewrite A. cbn [upd fw_agents].
    destruct (Nat.eqb b x) eqn:EB; cbn [orb]; auto. apply Nat.eqb_eq in EB. subst b.
    destruct (existsb (Nat.eqb x) K); auto.
Qed.
Lemma born_fops s L : forall (w : fworld rfun rrest),
  run_fops s (map born L) w = (w, map (fun c => SAdd c None) L).
Proof. induction L as [|x L IH]; intros w; cbn [map run_fops born]; auto. now rewrite IH. Qed.

Lemma existsb_In x l : existsb (Nat.eqb x) l = true <-> In x l.
Proof.
  rewrite existsb_exists. split.
  - intros (y & I & E). apply Nat.eqb_eq in E. now subst y.
  - intros I. exists x. split; auto. apply Nat.eqb_refl.
Qed.
Lemma existsb_notIn x l : existsb (Nat.eqb x) l = false <-> ~ In x l.
Proof. rewrite <- existsb_In. destruct (existsb _ _); split; congruence. Qed.

(** What the calls do to the registered agents. *)
Lemma reg_rems K : forall s s' tr, run_ops s (map SRem K) = (s', tr) ->
  (NoDup (s_reg s) -> NoDup (s_reg s')) /\ forall b, In b (s_reg s') <-> In b (s_reg s) /\ ~ In b K.
Proof.
  induction K as [|x K IH]; cbn [map run_ops run_op]; intros s s' tr E.
  - injection E as <- <-. split; auto. intros b. split; intros; tauto.
  - destruct (run_ops (reg_rem s x) (map SRem K)) as [s2 e2] eqn:E2. injection E as <- <-.
    destruct (IH _ _ _ E2) as [N H]. split.
    + intros D. apply N. cbn. now apply NoDup_filter.
    + intros b. rewrite H. cbn [s_reg reg_rem set_reg]. rewrite filter_In. cbn [In]. rewrite negb_true_iff, Nat.eqb_neq.
      split; intros; intuition.
Qed.
Lemma reg_adds L : forall s s' tr, run_ops s (map (fun c => SAdd c None) L) = (s', tr) ->
  (NoDup (s_reg s) -> NoDup (s_reg s')) /\ forall b, In b (s_reg s') <-> In b (s_reg s) \/ In b L.
Proof.
  induction L as [|x L IH]; cbn [map run_ops run_op]; intros s s' tr E.
  - injection E as <- <-. split; auto. intros b. cbn. tauto.
  - destruct (run_ops (timed_add s x None) _) as [s2 e2] eqn:E2. injection E as <- <-.
    destruct (IH _ _ _ E2) as [N H].
    assert (R : (NoDup (s_reg s) -> NoDup (s_reg (timed_add s x None))) /\
                forall b, In b (s_reg (timed_add s x None)) <-> In b (s_reg s) \/ b = x).
    { unfold timed_add, reg_add. cbn [s_reg timed_schedule set_queue].
      destruct (existsb (Nat.eqb x) (s_reg s)) eqn:EX.
      - apply existsb_In in EX. split; auto. intros b. cbn. split; [auto|]. intros [J| ->]; auto.
      - apply existsb_notIn in EX. cbn [s_reg set_reg set_queue]. split.
        + intros D. apply (Permutation_NoDup (l := x :: s_reg s)).
          * apply Permutation_cons_append.
          * now constructor.
        + intros b. rewrite in_app_iff. cbn. intuition. }
    destruct R as [R1 R2]. split; auto. intros b. rewrite H, R2. cbn. intuition.
Qed.
Lemma run_ops_app l1 : forall l2 s, run_ops s (l1 ++ l2) =
  let '(s1, e1) := run_ops s l1 in let '(s2, e2) := run_ops s1 l2 in (s2, (e1 ++ e2)%list).
Proof.
  induction l1 as [|op l1 IH]; cbn [app run_ops]; intros l2 s.
  - destruct (run_ops s l2). reflexivity.
  - destruct (run_op s op) as [s1 e1]. rewrite IH. destruct (run_ops s1 l1) as [s2 e2].
    destruct (run_ops s2 l2) as [s3 e3]. now rewrite app_assoc.
Qed.

(** ** Activations of agents that are killed and born *)
Section Busy.
Context {F Q W : Type}.
Variable u : code F Q W.
Variable fs : string -> option num.
Definition leaves (g : gout Q (pyval F)) (cur : option (state F)) : option (state F) :=
  match g with GReturn v => goes_to v cur | _ => cur end.
Lemma run_fops_no_set s ops : (forall b v, ~ In (FSet b v) ops) -> forall (w w1 : fworld F W) l,
  run_fops s ops w = (w1, l) -> fw_rest w1 = fw_rest w /\ forall b, fa_cur (fw_agents w1 b) = fa_cur (fw_agents w b).
Proof.
  induction ops as [|op ops IH]; cbn [run_fops]; intros N w w1 l E.
  - injection E as <- <-. auto.
  - assert (N' : forall b v, ~ In (FSet b v) ops) by (intros b v J; apply (N b v); now right).
    destruct op as [b|b v|op].
    + destruct (run_fops s ops _) as [w2 l2] eqn:E2. injection E as <- <-.
      destruct (IH N' _ _ _ E2) as [R C]. split; auto. intros c. rewrite C. cbn.
      destruct (Nat.eqb c b) eqn:EB; auto. apply Nat.eqb_eq in EB. now subst c.
    + exfalso. apply (N b v). now left.
    + destruct (run_fops s ops w) as [w2 l2] eqn:E2. injection E as <- <-. eauto.
Qed.
(** State machines. *)
Lemma busy_step s a w c w' c' l o states : plain_code u -> rested c ->
  (forall s a q w b v, ~ In (FSet b v) (snd (fst (c_resume u s a q w)))) ->
  fa_kind (fw_agents w a) = KFsm states -> agent_step u fs s a (w, c) = (w', c', l, o) ->
  rested c' /\
  (w' = w /\ l = [] \/
   exists st r ops g w1, fa_cur (fw_agents w a) = Some st /\ fa_alive (fw_agents w a) = true /\
    c_resume u s a (c_start u (st_fun st)) w = (r, ops, g) /\
    run_fops s ops (FWorld (fw_agents w) r) = (w1, l) /\ fw_rest w' = r /\
    (forall b, b <> a -> fw_agents w' b = fw_agents w1 b) /\
    fw_agents w' a = set_cur (fw_agents w1 a) (leaves g (Some st))).
Proof.
  intros P R N K E. destruct (plain_step u fs s a w c w' c' l o states P R K E) as [R' [(-> & -> & _)|H]]; auto.
  destruct H as (st & r & ops & g & w1 & C & A & CR & RF & H). split; auto. right.
  exists st, r, ops, g, w1. split; auto. split; auto. split; auto. split; auto.
  assert (N1 : forall b v, ~ In (FSet b v) ops).
  { intros b v J. apply (N s a (c_start u (st_fun st)) w b v). now rewrite CR. }
  destruct (run_fops_no_set s ops N1 _ _ _ RF) as [R1 C1]. cbn [fw_rest fw_agents] in R1, C1.
  assert (S : fw_agents w1 a = set_cur (fw_agents w1 a) (Some st)).
  { rewrite <- C, <- C1. destruct (fw_agents w1 a); reflexivity. }
  destruct g as [|v|d]; [destruct H| |].
  - rewrite C1, C in H. destruct H as [(_ & _ & ->)|(_ & _ & -> & H)].
    + cbn [fw_rest fw_agents]. split; auto. split; [|rewrite Nat.eqb_refl; reflexivity].
      intros b NE. apply Nat.eqb_neq in NE. now rewrite NE.
    + split; auto. split; auto. cbn [leaves]. now rewrite H.
  - destruct H as [-> _]. split; auto.
Qed.
(** Plain steps. *)
Lemma plain_agent_step s a w c w' c' l o f : plain_code u -> rested c ->
  (forall s a q w b v, ~ In (FSet b v) (snd (fst (c_resume u s a q w)))) ->
  fa_kind (fw_agents w a) = KPlain f -> agent_step u fs s a (w, c) = (w', c', l, o) ->
  rested c' /\
  (w' = w /\ l = [] \/
   exists r ops g, c_resume u s a (c_start u f) w = (r, ops, g) /\
     run_fops s ops (FWorld (fw_agents w) r) = (w', l)).
Proof.
  intros P R N K E. unfold agent_step, decorated in E. cbn [fst snd] in E.
  assert (RS : forall x y, rested (set_co (set_co c a x) a (Some GDone)) /\
    rested (set_co (set_co (set_co c a x) a y) a None)).
  { intros x y. split; intros b; rewrite !get_set_co; destruct (Nat.eqb b a); auto. }
  destruct (R a) as [G|G]; rewrite G in E; cbn [send] in E.
  2:{ injection E as <- <- <- <-. split; [apply RS|]. left. auto. }
  cbn [step_gen] in E. rewrite K in E. unfold inside in E.
  destruct (c_resume u s a (c_start u f) w) as [[r ops] g] eqn:CR.
  destruct (run_fops s ops (FWorld (fw_agents w) r)) as [w1 l1] eqn:RF.
  pose proof (P _ _ _ _ _ _ _ CR) as PV.
  assert (K1 : fa_kind (fw_agents w1 a) = KPlain f).
  { pose proof (run_fops_le s ops _ _ _ RF a) as [K1 _]. cbn in K1. now rewrite K1. }
  destruct g as [v q'|v|d]; [destruct PV| |].
  - rewrite K1 in E. injection E as <- <- <- <-. split; [apply (RS _ (Some GDone))|].
    right. exists r, ops, (GReturn v). auto.
  - destruct d; injection E as <- <- <- <-; (split; [apply (RS _ None)|]);
      right; eexists r, ops, (GRaise _); auto.
Qed.
End Busy.

(** ** The rabbits *)
Section Rabbits.
Variable who : aid -> role.
Variable p : rparams.
Variable litter_of : num -> nat.
Variable times : num -> nat -> num.
Hypothesis FAM : a_family who.
Notation code := (rabbit_code who p litter_of times).
Notation rworld := (fworld rfun rrest).

Lemma rabbit_plain : plain_code code.
Proof.
  intros s a q w r ops g E. cbn [c_resume rabbit_code] in E. destruct q; try (injection E as <- <- <-).
  - constructor.
  - destruct (_ <=? _)%nat; constructor.
  - constructor.
  - unfold fertile_male_fn in E. cbv zeta in E. destruct (_ <? _)%nat; injection E as <- <- <-; constructor.
  - unfold fertile_female_fn in E. cbv zeta in E. destruct (_ <? _)%nat; [|destruct (_ <=? _)%Z]; injection E as <- <- <-; constructor.
  - unfold pregnant_fn in E. cbv zeta in E. destruct (_ <=? _)%nat.
    + destruct (net_die _ _ _). injection E as <- <- <-. constructor.
    + destruct (_ <? _)%Z; [injection E as <- <- <-; constructor|].
      destruct (births _ _ _) as [[r2 o2] []]; injection E as <- <- <-; constructor.
  - destruct (net_die _ _ _). injection E as <- <- <-. constructor.
  - constructor.
  - unfold accident_fn in E. cbv zeta in E. destruct (Nat.eqb _ 0); [injection E as <- <- <-; constructor|].
    destruct (accidents _ _ _ _). injection E as <- <- <-. constructor.
Qed.

(** What the loops do. *)
Record only_life (r r' : rrest) : Prop := OnlyLife {
  ol_next : rr_next r' = rr_next r; ol_nodes : rr_nodes r' = rr_nodes r; ol_edges : rr_edges r' = rr_edges r }.
Record same_life (r r' : rrest) : Prop := SameLife {
  sl_age : rr_age r' = rr_age r; sl_preg : rr_pregnancy r' = rr_pregnancy r;
  sl_mate : rr_mate r' = rr_mate r; sl_litter : rr_litter r' = rr_litter r }.
Lemma only_life_refl r : only_life r r. Proof. now constructor. Qed.
Lemma only_life_trans r1 r2 r3 : only_life r1 r2 -> only_life r2 r3 -> only_life r1 r3.
Proof. intros [] []. constructor; congruence. Qed.
Lemma same_life_trans r1 r2 r3 : same_life r1 r2 -> same_life r2 r3 -> same_life r1 r3.
Proof. intros [] []. constructor; congruence. Qed.

Lemma court_only a l : forall r, only_life r (court p litter_of a l r).
Proof.
  induction l as [|f l IH]; intros r; cbn [court]; [apply only_life_refl|].
  cbn [draw]. destruct (prob _ _).
  - now constructor.
  - eapply only_life_trans; [|apply IH]. now constructor.
Qed.
(** The males court at most one female with success. *)
Lemma court_life a l : forall r, let r' := court p litter_of a l r in
  rr_age r' = rr_age r /\ rr_offspring r' = rr_offspring r /\
  (rr_pregnancy r' = rr_pregnancy r /\ rr_mate r' = rr_mate r /\ rr_litter r' = rr_litter r \/
   exists f n, In f l /\ rr_pregnancy r' = set_at (rr_pregnancy r) f 0%Z /\
     rr_mate r' = set_at (rr_mate r) f (Some a) /\ rr_litter r' = set_at (rr_litter r) f n).
Proof.
  induction l as [|f l IH]; intros r; cbn [court]; cbv zeta; [auto 10|].
  cbn [draw]. destruct (prob _ _).
  - cbn. split; auto. split; auto. right. exists f. eexists. split; [now left|]. repeat split.
  - match goal with |- context [court _ _ _ l ?x] => destruct (IH x) as (A & O & B) end. split; auto. split; auto.
    destruct B as [B|(f' & n & I & B)]; auto. right. exists f', n. split; [now right|exact B].
Qed.

Definition drop (K : list aid) (r r' : rrest) : Prop :=
  rr_next r' = rr_next r /\ same_life r r' /\ rr_offspring r' = rr_offspring r /\
  rr_nodes r' = filter (fun b => negb (existsb (Nat.eqb b) K)) (rr_nodes r) /\
  forall e, In e (rr_edges r') <-> In e (rr_edges r) /\ ~ In (fst e) K /\ ~ In (snd e) K.
Lemma filter_true {X} (f : X -> bool) l : (forall x, f x = true) -> filter f l = l.
Proof. intros H. induction l as [|x l IH]; cbn; auto. now rewrite H, IH. Qed.
Lemma filter_filter {X} (f g : X -> bool) l : filter f (filter g l) = filter (fun x => g x && f x) l.
Proof.
  induction l as [|x l IH]; cbn; auto. destruct (g x) eqn:G; cbn; rewrite IH; auto.
Qed.
Lemma drop_nil r : drop [] r r.
Proof.
  split; auto. split; [now constructor|]. split; auto. split.
  - cbn. now rewrite filter_true.
  - intros e. cbn. tauto.
Qed.
Lemma drop_draw r : drop [] r (snd (draw r)).
Proof.
  split; auto. split; [now constructor|]. split; auto. split.
  - cbn. now rewrite filter_true.
  - intros e. cbn. tauto.
Qed.
Lemma drop_one b r : drop [b] r (remove_node r b).
Proof.
  split; auto. split; [now constructor|]. split; auto. split.
  - cbn. apply filter_ext. intros a. rewrite orb_false_r, Nat.eqb_sym. reflexivity.
  - intros [x y]. cbn. rewrite filter_In, andb_true_iff, !negb_true_iff, !Nat.eqb_neq. cbn. intuition.
Qed.
Lemma drop_app K1 K2 r1 r2 r3 : drop K1 r1 r2 -> drop K2 r2 r3 -> drop (K1 ++ K2) r1 r3.
Proof.
  intros (A1 & A2 & A3 & A4 & A5) (B1 & B2 & B3 & B4 & B5). split; [congruence|]. split; [eapply same_life_trans; eauto|].
  split; [congruence|]. split.
  - rewrite B4, A4, filter_filter. apply filter_ext. intros a. rewrite existsb_app, negb_orb. reflexivity.
  - intros e. rewrite B5, A5, !in_app_iff. tauto.
Qed.
Lemma net_die_drop ag a r r' ops : net_die ag a r = (r', ops) ->
  exists K, ops = map FDie K /\ drop K r r' /\ (forall b, In b K -> b = a /\ fa_alive (ag b) = true) /\
  (fa_alive (ag a) = true -> K = [a]).
Proof.
  unfold net_die. intros E. destruct (fa_alive (ag a)) eqn:A; injection E as <- <-.
  - exists [a]. split; auto. split; [apply drop_one|]. split; auto. intros b [<-|[]]. auto.
  - exists []. split; auto. split; [apply drop_nil|]. split; [intros b []|discriminate].
Qed.
Lemma accidents_drop risk ag l : forall r r' ops, accidents risk ag l r = (r', ops) ->
  exists K, ops = map FDie K /\ drop K r r' /\ forall b, In b K -> In b l /\ fa_alive (ag b) = true.
Proof.
  induction l as [|b l IH]; intros r r' ops E; cbn [accidents] in E.
  - injection E as <- <-. exists []. split; auto. split; [apply drop_nil|intros b []].
  - match type of E with (if ?x then _ else _) = _ => destruct x end.
    { destruct (IH _ _ _ E) as (K & A & B & C). exists K. split; auto. split; auto.
      intros x J. destruct (C x J). split; auto. now right. }
    pose proof (drop_draw r) as D. destruct (draw r) as [x r1]. cbn [snd] in D.
    destruct (prob x risk).
    + destruct (net_die ag b r1) as [r2 ops1] eqn:E1. destruct (accidents risk ag l r2) as [r3 ops2] eqn:E2.
      injection E as <- <-. destruct (net_die_drop _ _ _ _ _ E1) as (K1 & -> & D1 & C1 & _).
      destruct (IH _ _ _ E2) as (K2 & -> & D2 & C2). exists (K1 ++ K2)%list. split; [now rewrite map_app|].
      split; [exact (drop_app _ _ _ _ _ (drop_app _ _ _ _ _ D D1) D2)|].
      intros y J. apply in_app_or in J. destruct J as [J|J].
      * destruct (C1 y J) as [-> H]. split; auto. now left.
      * destruct (C2 y J). split; auto. now right.
    + destruct (IH _ _ _ E) as (K & A & B & C). exists K. split; auto.
      split; [exact (drop_app _ _ _ _ _ D B)|]. intros y J. destruct (C y J). split; auto. now right.
Qed.

(** Births: how many rabbits are born, and with what edges. *)
Definition grow (a : aid) (n : nat) (r r' : rrest) : Prop :=
  let L := seq (rr_next r) n in
  rr_next r' = rr_next r + n /\ same_life r r' /\ rr_nodes r' = (rr_nodes r ++ L)%list /\
  forall x y, In (x, y) (rr_edges r') -> In (x, y) (rr_edges r) \/ In x L /\ (y = a \/ In y (rr_nodes r')).
Lemma has_node_In r a : has_node r a = true <-> In a (rr_nodes r).
Proof. apply existsb_In. Qed.
Lemma add_edge_has r a b r' : add_edge r a b = Some r' ->
  In a (rr_nodes r) /\ In b (rr_nodes r) /\
  r' = RRest (rr_next r) (rr_nodes r) (rr_edges r ++ [(a, b)])%list (rr_age r) (rr_offspring r)
            (rr_pregnancy r) (rr_mate r) (rr_litter r) (rr_draws r).
Proof.
  unfold add_edge. destruct (has_node r a) eqn:A; [|discriminate]. destruct (has_node r b) eqn:B; [|discriminate].
  cbn [andb]. intros E. injection E as <-. apply has_node_In in A, B. auto.
Qed.
Lemma births_grow a n : forall r r' ops fine, births n a r = (r', ops, fine) ->
  exists k, ops = map born (seq (rr_next r) k) /\ grow a k r r' /\ (k <= n)%nat /\ (fine = true -> k = n).
Proof.
  induction n as [|n IH]; intros r r' ops fine E; cbn [births] in E.
  - injection E as <- <- <-. exists 0. split; auto. split; [|split; auto].
    split; [lia|]. split; [now constructor|]. split; [cbn; now rewrite app_nil_r|]. auto.
  - cbn [new_node] in E. set (r1 := RRest (S (rr_next r)) _ _ _ _ _ _ _ _) in E.
    assert (G1 : grow a 1 r r1).
    { subst r1. split; [cbn; lia|]. split; [now constructor|]. split; auto. }
    destruct (add_edge r1 (rr_next r) a) as [r2|] eqn:E2.
    2:{ injection E as <- <- <-. exists 1. split; auto. split; auto. split; [lia|discriminate]. }
    destruct (add_edge_has _ _ _ _ E2) as (I1 & I2 & R2).
    assert (G2 : grow a 1 r r2).
    { rewrite R2. split; [cbn; lia|]. split; [now constructor|]. split; auto.
      intros x y J. cbn in J. apply in_app_or in J. destruct J as [J|[J|[]]]; auto.
      injection J as <- <-. right. cbn. auto. }
    destruct (rr_mate r2 a) as [m|] eqn:M.
    2:{ injection E as <- <- <-. exists 1. split; auto. split; auto. split; [lia|discriminate]. }
    destruct (add_edge r2 (rr_next r) m) as [r3|] eqn:E3.
    + injection E as <- <- <-. exists 1. split; auto. split; [|split; [lia|discriminate]].
      destruct (add_edge_has _ _ _ _ E3) as (I3 & I4 & R3).
      destruct G2 as (A & B & C & D). rewrite R3. split; auto. split; [destruct B; now constructor|]. split; auto.
      intros x y J. cbn in J. apply in_app_or in J. destruct J as [J|[J|[]]]; auto.
      injection J as <- <-. right. split; [cbn; auto|]. now right.
    + set (r2' := set_offspring r2 a _) in E. destruct (births n a r2') as [[r4 o4] f4] eqn:E4.
      injection E as <- <- <-. destruct (IH _ _ _ _ E4) as (k & -> & G & LE & FI).
      destruct G2 as (A & B & C & D). destruct G as (A' & B' & C' & D').
      assert (NX : rr_next r2' = S (rr_next r)) by (subst r2'; cbn; rewrite A; lia).
      exists (S k). split; [now rewrite NX|]. split; [|split; [lia|]].
      2:{ intros FT. now rewrite (FI FT). }
      rewrite NX in *. split; [lia|]. split; [eapply same_life_trans; [exact B|]; destruct B'; now constructor|].
      split.
      { rewrite C'. cbn [r2' set_offspring rr_nodes]. rewrite C, <- app_assoc. reflexivity. }
      intros x y J. destruct (D' x y J) as [J'|[J1 J2]].
      * change (In (x, y) (rr_edges r2)) in J'. destruct (D x y J') as [J2|[J2 J3]]; auto.
        right. split; [destruct J2 as [J2|[]]; left; exact J2|]. destruct J3 as [J3|J3]; auto. right.
        rewrite C'. apply in_or_app. now left.
      * right. split; auto. right. exact J1.
Qed.

(** ** The network *)
Record net_ok (reg : list aid) (w : rworld) : Prop := NetOk {
  no_three : (3 <= rr_next (fw_rest w))%nat;
  no_new : forall a, (rr_next (fw_rest w) <= a)%nat -> fw_agents w a = new_agent (who a);
  no_nodup : NoDup (rr_nodes (fw_rest w));
  no_nodes : forall a, In a (rr_nodes (fw_rest w)) <->
    (a < rr_next (fw_rest w))%nat /\ is_rabbit (who a) = true /\ fa_alive (fw_agents w a) = true;
  no_regdup : NoDup reg;
  no_reg : forall a, In a reg <-> (a < rr_next (fw_rest w))%nat /\ fa_alive (fw_agents w a) = true;
  no_edges : forall x y, In (x, y) (rr_edges (fw_rest w)) ->
    In x (rr_nodes (fw_rest w)) /\ In y (rr_nodes (fw_rest w)) }.

Lemma new_alive k : fa_alive (new_agent k) = true.
Proof. destruct k; reflexivity. Qed.
Lemma young_rabbit a : (3 <= a)%nat -> is_rabbit (who a) = true.
Proof. intros H. destruct FAM as (_ & _ & _ & F). specialize (F a). destruct (who a); auto. exfalso. apply F; auto; lia. Qed.

(** Some agents die. *)
Lemma net_drop reg reg' K w w' : net_ok reg w -> rr_next (fw_rest w') = rr_next (fw_rest w) ->
  (forall b, In b K -> (b < rr_next (fw_rest w))%nat) ->
  rr_nodes (fw_rest w') = filter (fun b => negb (existsb (Nat.eqb b) K)) (rr_nodes (fw_rest w)) ->
  (forall e, In e (rr_edges (fw_rest w')) -> In e (rr_edges (fw_rest w)) /\ ~ In (fst e) K /\ ~ In (snd e) K) ->
  (forall b, (rr_next (fw_rest w) <= b)%nat -> fw_agents w' b = fw_agents w b) ->
  (forall b, fa_alive (fw_agents w' b) = if existsb (Nat.eqb b) K then false else fa_alive (fw_agents w b)) ->
  (NoDup reg -> NoDup reg') -> (forall b, In b reg' <-> In b reg /\ ~ In b K) ->
  net_ok reg' w'.
Proof.
  intros [N1 N2 N3 N4 N5 N6 N7] A KL B C D E R1 R2.
  assert (ND : forall a, In a (rr_nodes (fw_rest w')) <-> In a (rr_nodes (fw_rest w)) /\ ~ In a K).
  { intros a. rewrite B, filter_In, negb_true_iff, existsb_notIn. tauto. }
  constructor.
  - lia.
  - intros a H. rewrite A in H. rewrite D; auto.
  - rewrite B. now apply NoDup_filter.
  - intros a. rewrite ND, N4, A, E. destruct (existsb (Nat.eqb a) K) eqn:EX.
    + apply existsb_In in EX. intuition congruence.
    + apply existsb_notIn in EX. intuition.
  - auto.
  - intros a. rewrite R2, N6, A, E. destruct (existsb (Nat.eqb a) K) eqn:EX.
    + apply existsb_In in EX. intuition congruence.
    + apply existsb_notIn in EX. intuition.
  - intros x y J. destruct (C _ J) as (J1 & J2 & J3). destruct (N7 x y J1). rewrite !ND. auto.
Qed.
(** Some agents are born. *)
Lemma net_grow reg reg' a n w w' : net_ok reg w -> In a (rr_nodes (fw_rest w)) ->
  rr_next (fw_rest w') = rr_next (fw_rest w) + n ->
  rr_nodes (fw_rest w') = (rr_nodes (fw_rest w) ++ seq (rr_next (fw_rest w)) n)%list ->
  (forall x y, In (x, y) (rr_edges (fw_rest w')) -> In (x, y) (rr_edges (fw_rest w)) \/
     In x (seq (rr_next (fw_rest w)) n) /\ (y = a \/ In y (rr_nodes (fw_rest w')))) ->
  (forall b, (rr_next (fw_rest w) <= b)%nat -> fw_agents w' b = fw_agents w b) ->
  (forall b, fa_alive (fw_agents w' b) = fa_alive (fw_agents w b)) ->
  (NoDup reg -> NoDup reg') -> (forall b, In b reg' <-> In b reg \/ In b (seq (rr_next (fw_rest w)) n)) ->
  net_ok reg' w'.
Proof.
  intros [N1 N2 N3 N4 N5 N6 N7] Ia A B C D E R1 R2.
  assert (NEW : forall b, (rr_next (fw_rest w) <= b)%nat -> fa_alive (fw_agents w b) = true).
  { intros b H. rewrite N2 by auto. apply new_alive. }
  constructor.
  - lia.
  - intros b H. rewrite A in H. rewrite D by lia. apply N2. lia.
  - rewrite B. assert (DJ : forall x, In x (seq (rr_next (fw_rest w)) n) -> ~ In x (rr_nodes (fw_rest w))).
    { intros x J1 J2. apply N4 in J2. apply in_seq in J1. lia. }
    revert DJ N3. generalize (seq_NoDup n (rr_next (fw_rest w))). clear.
    generalize (seq (rr_next (fw_rest w)) n) as L. generalize (rr_nodes (fw_rest w)) as l. intros l L NL.
    induction l as [|x l IH]; intros DJ NI; cbn [app]; auto.
    inversion NI as [|? ? H1 H2]; subst. constructor.
    + rewrite in_app_iff. intros [H|H]; auto. apply (DJ x H). now left.
    + apply IH; auto. intros y J1 J2. apply (DJ y J1). now right.
  - intros b. rewrite B, in_app_iff, N4, in_seq, A, E. split.
    + intros [(X1 & X2 & X3)|X]; [split; [lia|]; auto|]. split; [lia|]. split; [apply young_rabbit; lia|].
      apply NEW. lia.
    + intros (X1 & X2 & X3). destruct (Nat.lt_ge_cases b (rr_next (fw_rest w))); [left; auto|right; lia].
  - auto.
  - intros b. rewrite R2, N6, in_seq, A, E. split.
    + intros [(X1 & X2)|X]; [split; [lia|]; auto|]. split; [lia|]. apply NEW. lia.
    + intros (X1 & X2). destruct (Nat.lt_ge_cases b (rr_next (fw_rest w))); [left; auto|right; lia].
  - intros x y J. rewrite B in C |- *. destruct (C x y J) as [J1|[J1 J2]].
    + destruct (N7 x y J1). split; apply in_or_app; auto.
    + split; [apply in_or_app; auto|]. destruct J2 as [->|J2]; auto. apply in_or_app. auto.
Qed.

(** ** The lives *)
Definition old : nat := Nat.max 1 (Nat.max (p_maturity p) (p_life p)).
Definition life (k : role) (cur : option (state rfun)) (al : bool) (age : nat) (preg : Z) (mate : option aid)
    (next : nat) : Prop :=
  ((-1 <= preg <= Z.of_nat (p_gestation p))%Z /\
   ((0 <= preg)%Z -> k = Female /\ exists m, mate = Some m /\ who m = Male /\ (m < next)%nat)) /\
  match k with
  | Accident => cur = None
  | _ => exists st, cur = Some st /\
      (st = newborn /\ age = 0 \/ st = youngling /\ (age = 0 \/ age < p_maturity p)%nat \/
       st = own_fertile k /\ (age <= old)%nat \/
       st = pregnant /\ k = Female /\ (age <= S (p_life p))%nat /\ (age <= p_life p)%nat /\ (0 <= preg)%Z \/
       st = dead /\ (age <= S old)%nat)
  end.
Definition lives (w : rworld) (a : aid) : Prop :=
  let r := fw_rest w in
  life (who a) (fa_cur (fw_agents w a)) (fa_alive (fw_agents w a)) (rr_age r a) (rr_pregnancy r a) (rr_mate r a) (rr_next r).
Lemma life_weaken k cur al al' age preg mate next next' : (next <= next')%nat -> (al' = true -> al = true) ->
  life k cur al age preg mate next -> life k cur al' age preg mate next'.
Proof.
  intros L A [[P1 P2] H]. split.
  - split; auto. intros H0. destruct (P2 H0) as (X & m & Y & Z & T). split; auto. exists m. repeat split; auto. lia.
  - destruct k; auto; destruct H as (st & C & H); exists st; split; auto;
      destruct H as [H|[H|[H|[(H1 & H2 & H3 & H4 & H5)|H]]]];
      try (right; right; right; left; repeat split; auto; fail); auto 10.
Qed.

Definition good (reg : list aid) (wc : rworld * cors (frame rfun)) : Prop :=
  let w := fst wc in
  rested (snd wc) /\ (forall a, fa_kind (fw_agents w a) = fa_kind (new_agent (who a))) /\
  net_ok reg w /\ forall a, lives w a.

(** The lives of all agents after a function has been run for [a]. *)
Lemma lives_after (w w' : rworld) a : (forall b, lives w b) ->
  (rr_next (fw_rest w) <= rr_next (fw_rest w'))%nat ->
  (forall b, fa_alive (fw_agents w' b) = true -> fa_alive (fw_agents w b) = true) ->
  (forall b, b <> a -> fa_cur (fw_agents w' b) = fa_cur (fw_agents w b) /\ rr_age (fw_rest w') b = rr_age (fw_rest w) b) ->
  (forall b, b <> a -> rr_pregnancy (fw_rest w') b = rr_pregnancy (fw_rest w) b /\ rr_mate (fw_rest w') b = rr_mate (fw_rest w) b \/
     who b = Female /\ rr_pregnancy (fw_rest w') b = 0%Z /\ rr_mate (fw_rest w') b = Some a /\ who a = Male /\
     (a < rr_next (fw_rest w))%nat) ->
  lives w' a -> forall b, lives w' b.
Proof.
  intros L NX AL CU PR LA b. destruct (Nat.eq_dec b a) as [->|NE]; auto.
  destruct (CU b NE) as [C1 C2]. unfold lives. cbv zeta. rewrite C1, C2.
  destruct (PR b NE) as [[P1 P2]|(F & P1 & P2 & M & LT)]; rewrite P1, P2.
  - eapply life_weaken; [exact NX|apply AL|apply L].
  - pose proof (life_weaken _ _ _ (fa_alive (fw_agents w' b)) _ _ _ _ _ NX (AL b) (L b)) as [[_ _] H].
    split.
    + split; [lia|]. intros _. split; auto. exists a. repeat split; auto. lia.
    + rewrite F in *. destruct H as (st & C & H). exists st. split; auto.
      destruct H as [H|[H|[H|[(H1 & H2 & H3 & H4 & H5)|H]]]]; auto 10.
      right. right. right. left. repeat split; auto. lia.
Qed.

Lemma no_sets s a q w b v : ~ In (FSet b v) (snd (fst (c_resume code s a q w))).
Proof.
  assert (KD : forall K, ~ In (FSet b v) (map (@FDie rfun) K)).
  { intros K J. apply in_map_iff in J. destruct J as (x & J & _). discriminate J. }
  assert (KB : forall K, ~ In (FSet b v) (map born K)).
  { intros K J. apply in_map_iff in J. destruct J as (x & J & _). discriminate J. }
  cbn [c_resume rabbit_code]. destruct q; cbn [fst snd]; auto; try (intros []; fail).
  - unfold fertile_male_fn. cbv zeta. destruct (_ <? _)%nat; intros [].
  - unfold fertile_female_fn. cbv zeta. destruct (_ <? _)%nat; [|destruct (_ <=? _)%Z]; intros [].
  - unfold pregnant_fn. cbv zeta. destruct (_ <=? _)%nat.
    + destruct (net_die _ _ _) as [r2 o2] eqn:E. destruct (net_die_drop _ _ _ _ _ E) as (K & -> & _). apply KD.
    + destruct (_ <? _)%Z; [intros []|]. destruct (births _ _ _) as [[r2 o2] f2] eqn:E.
      destruct (births_grow _ _ _ _ _ _ E) as (k & -> & _). destruct f2; apply KB.
  - destruct (net_die _ _ _) as [r2 o2] eqn:E. destruct (net_die_drop _ _ _ _ _ E) as (K & -> & _). apply KD.
  - intros [J|[]]. discriminate J.
  - unfold accident_fn. cbv zeta. destruct (Nat.eqb _ 0); [intros [J|[]]; discriminate J|].
    destruct (accidents _ _ _ _) as [r2 o2] eqn:E. destruct (accidents_drop _ _ _ _ _ _ E) as (K & -> & _). apply KD.
Qed.

(** Agents after some have died. *)
Definition killed (K : list aid) (f g : aid -> fagent rfun) : Prop :=
  forall b, g b = if existsb (Nat.eqb b) K then set_alive (f b) false else f b.

Lemma good_drop s s' tr K a cur w w' c' : good (s_reg s) (w, c') -> (a < rr_next (fw_rest w))%nat ->
  run_ops s (map SRem K) = (s', tr) ->
  (forall b, In b K -> (b < rr_next (fw_rest w))%nat) ->
  rr_next (fw_rest w') = rr_next (fw_rest w) ->
  rr_nodes (fw_rest w') = filter (fun b => negb (existsb (Nat.eqb b) K)) (rr_nodes (fw_rest w)) ->
  (forall e, In e (rr_edges (fw_rest w')) -> In e (rr_edges (fw_rest w)) /\ ~ In (fst e) K /\ ~ In (snd e) K) ->
  (exists f, killed K (fw_agents w) f /\ (forall b, b <> a -> fw_agents w' b = f b) /\ fw_agents w' a = set_cur (f a) cur) ->
  (forall b, b <> a -> rr_age (fw_rest w') b = rr_age (fw_rest w) b) ->
  (forall b, b <> a -> rr_pregnancy (fw_rest w') b = rr_pregnancy (fw_rest w) b /\ rr_mate (fw_rest w') b = rr_mate (fw_rest w) b \/
     who b = Female /\ rr_pregnancy (fw_rest w') b = 0%Z /\ rr_mate (fw_rest w') b = Some a /\ who a = Male) ->
  life (who a) cur (fa_alive (fw_agents w' a)) (rr_age (fw_rest w') a) (rr_pregnancy (fw_rest w') a)
    (rr_mate (fw_rest w') a) (rr_next (fw_rest w)) ->
  good (s_reg s') (w', c').
Proof.
  intros (G1 & G2 & G3 & G4) AN RO KL A B C (f & D1 & D2 & D3) E P L. cbn [fst snd] in *.
  assert (CASE : forall b, fw_agents w' b = if Nat.eqb b a then set_cur (f b) cur else f b).
  { intros b. destruct (Nat.eqb b a) eqn:EB; [apply Nat.eqb_eq in EB; now subst b|]. apply Nat.eqb_neq in EB. auto. }
  assert (AL : forall b, fa_alive (fw_agents w' b) = if existsb (Nat.eqb b) K then false else fa_alive (fw_agents w b)).
  { intros b. rewrite CASE, (D1 b). destruct (Nat.eqb b a), (existsb (Nat.eqb b) K); reflexivity. }
  destruct (reg_rems _ _ _ _ RO) as [R1 R2].
  split; [exact G1|]. split; [|split].
  - intros b. cbn [fst]. rewrite CASE, (D1 b), <- G2. destruct (Nat.eqb b a), (existsb (Nat.eqb b) K); reflexivity.
  - cbn [fst]. eapply net_drop; eauto. intros b H. rewrite CASE, (D1 b).
    destruct (Nat.eqb b a) eqn:EB; [apply Nat.eqb_eq in EB; lia|].
    destruct (existsb (Nat.eqb b) K) eqn:EK; auto. apply existsb_In in EK. specialize (KL _ EK). lia.
  - cbn [fst]. apply (lives_after w w' a); auto.
    + lia.
    + intros b H. rewrite AL in H. destruct (existsb (Nat.eqb b) K); [discriminate|exact H].
    + intros b NE. split; auto. rewrite D2 by auto. rewrite (D1 b). destruct (existsb (Nat.eqb b) K); reflexivity.
    + intros b NE. destruct (P b NE) as [H|(H1 & H2 & H3 & H4)]; auto. right. auto.
    + unfold lives. cbv zeta. rewrite A. replace (fa_cur (fw_agents w' a)) with cur; [exact L|]. rewrite D3. reflexivity.
Qed.

Lemma good_grow s s' tr n a cur w w' c' : good (s_reg s) (w, c') -> In a (rr_nodes (fw_rest w)) ->
  run_ops s (map (fun c => SAdd c None) (seq (rr_next (fw_rest w)) n)) = (s', tr) ->
  grow a n (RRest (rr_next (fw_rest w)) (rr_nodes (fw_rest w)) (rr_edges (fw_rest w)) (rr_age (fw_rest w'))
             (rr_offspring (fw_rest w)) (rr_pregnancy (fw_rest w')) (rr_mate (fw_rest w')) (rr_litter (fw_rest w'))
             (rr_draws (fw_rest w))) (fw_rest w') ->
  (forall b, b <> a -> fw_agents w' b = fw_agents w b) -> fw_agents w' a = set_cur (fw_agents w a) cur ->
  (forall b, b <> a -> rr_age (fw_rest w') b = rr_age (fw_rest w) b /\
     rr_pregnancy (fw_rest w') b = rr_pregnancy (fw_rest w) b /\ rr_mate (fw_rest w') b = rr_mate (fw_rest w) b) ->
  life (who a) cur (fa_alive (fw_agents w' a)) (rr_age (fw_rest w') a) (rr_pregnancy (fw_rest w') a)
    (rr_mate (fw_rest w') a) (rr_next (fw_rest w)) ->
  good (s_reg s') (w', c').
Proof.
  intros (G1 & G2 & G3 & G4) AN RO GR D2 D3 E L. cbn [fst snd] in *.
  assert (CASE : forall b, fw_agents w' b = if Nat.eqb b a then set_cur (fw_agents w b) cur else fw_agents w b).
  { intros b. destruct (Nat.eqb b a) eqn:EB; [apply Nat.eqb_eq in EB; now subst b|]. apply Nat.eqb_neq in EB. auto. }
  assert (AL : forall b, fa_alive (fw_agents w' b) = fa_alive (fw_agents w b)).
  { intros b. rewrite CASE. destruct (Nat.eqb b a); reflexivity. }
  destruct (reg_adds _ _ _ _ RO) as [R1 R2].
  assert (NX : (a < rr_next (fw_rest w))%nat) by now apply (no_nodes _ _ G3).
  split; [exact G1|]. split; [|split].
  - intros b. cbn [fst]. rewrite CASE, <- G2. destruct (Nat.eqb b a); reflexivity.
  - cbn [fst]. destruct GR as (X1 & X2 & X3 & X4). eapply (net_grow (s_reg s) (s_reg s') a n); eauto.
    + intros b H. rewrite CASE. destruct (Nat.eqb b a) eqn:EB; auto. apply Nat.eqb_eq in EB. lia.
  - cbn [fst]. apply (lives_after w w' a); auto.
    + destruct GR as (X1 & _). rewrite X1. cbn. lia.
    + intros b H. rewrite AL in H. exact H.
    + intros b NE. split; [|now apply E]. now rewrite D2.
    + intros b NE. left. split; now apply E.
    + unfold lives. cbv zeta. replace (fa_cur (fw_agents w' a)) with cur; [|rewrite D3; reflexivity].
      eapply life_weaken; [|intros H; exact H|exact L]. destruct GR as (X1 & _). rewrite X1. cbn. lia.
Qed.

Definition okstep (s : sched) (w w' : rworld) (c' : cors (frame rfun)) (l : list sop) : Prop :=
  good (s_reg (fst (run_ops s l))) (w', c') /\ (rr_next (fw_rest w) <= rr_next (fw_rest w'))%nat /\
  forall b t, In (SAdd b t) l -> (b < rr_next (fw_rest w'))%nat.

Lemma no_adds K b t : ~ In (SAdd b t) (map SRem K).
Proof. intros J. apply in_map_iff in J. destruct J as (x & J & _). discriminate J. Qed.

(** A function that only changes attributes. *)
Lemma quiet_ok s a cur w w' c' : good (s_reg s) (w, c') -> (a < rr_next (fw_rest w))%nat ->
  only_life (fw_rest w) (fw_rest w') ->
  (forall b, b <> a -> fw_agents w' b = fw_agents w b) -> fw_agents w' a = set_cur (fw_agents w a) cur ->
  (forall b, b <> a -> rr_age (fw_rest w') b = rr_age (fw_rest w) b) ->
  (forall b, b <> a -> rr_pregnancy (fw_rest w') b = rr_pregnancy (fw_rest w) b /\ rr_mate (fw_rest w') b = rr_mate (fw_rest w) b \/
     who b = Female /\ rr_pregnancy (fw_rest w') b = 0%Z /\ rr_mate (fw_rest w') b = Some a /\ who a = Male) ->
  life (who a) cur (fa_alive (fw_agents w a)) (rr_age (fw_rest w') a) (rr_pregnancy (fw_rest w') a)
    (rr_mate (fw_rest w') a) (rr_next (fw_rest w)) ->
  okstep s w w' c' [].
Proof.
  intros G AN [O1 O2 O3] D2 D3 E P L. split; [|split; [lia|intros b t []]].
  cbn [run_ops fst]. eapply (good_drop s s [] [] a cur w w' c'); eauto.
  - intros b [].
  - rewrite O2. symmetry. now apply filter_true.
  - rewrite O3. cbn. auto.
  - exists (fw_agents w). split; [intros b; reflexivity|auto].
Qed.
(** The death of some agents. *)
Lemma drop_ok s a cur K r0 w w' w1 l c' : good (s_reg s) (w, c') -> (a < rr_next (fw_rest w))%nat ->
  (forall b, In b K -> (b < rr_next (fw_rest w))%nat) ->
  run_fops s (map FDie K) (FWorld (fw_agents w) (fw_rest w')) = (w1, l) ->
  only_life (fw_rest w) r0 -> drop K r0 (fw_rest w') ->
  (forall b, b <> a -> fw_agents w' b = fw_agents w1 b) -> fw_agents w' a = set_cur (fw_agents w1 a) cur ->
  (forall b, b <> a -> rr_age r0 b = rr_age (fw_rest w) b /\
     rr_pregnancy r0 b = rr_pregnancy (fw_rest w) b /\ rr_mate r0 b = rr_mate (fw_rest w) b) ->
  life (who a) cur (if existsb (Nat.eqb a) K then false else fa_alive (fw_agents w a)) (rr_age r0 a) (rr_pregnancy r0 a)
    (rr_mate r0 a) (rr_next (fw_rest w)) ->
  okstep s w w' c' l.
Proof.
  intros G AN KL RF [O1 O2 O3] (D1 & [S1 S2 S3 S4] & D3 & D4 & D5) A1 A2 E L.
  destruct (die_fops s K (FWorld (fw_agents w) (fw_rest w'))) as (w2 & RF2 & R2 & AG). rewrite RF in RF2.
  injection RF2 as <- ->. cbn [fw_agents] in AG.
  destruct (run_ops s (map SRem K)) as [s' tr] eqn:RO. split; [|split; [lia|intros b t J; now apply no_adds in J]].
  rewrite RO. cbn [fst]. eapply (good_drop s s' tr K a cur w w' c'); eauto.
  - congruence.
  - congruence.
  - intros e J. apply D5 in J. now rewrite O3 in J.
  - intros b NE. rewrite S1. now apply E.
  - intros b NE. left. rewrite S2, S3. split; now apply E.
  - rewrite A2, AG, S1, S2, S3. destruct (existsb (Nat.eqb a) K); exact L.
Qed.
Lemma in_adds L b t : In (SAdd b t) (map (fun c => SAdd c None) L) -> In b L.
Proof. intros J. apply in_map_iff in J. destruct J as (x & J & I). now injection J as -> _. Qed.
(** Births. *)
Lemma grow_ok s a cur n r0 r1 w w' w1 l c' : good (s_reg s) (w, c') -> In a (rr_nodes (fw_rest w)) ->
  run_fops s (map born (seq (rr_next (fw_rest w)) n)) (FWorld (fw_agents w) (fw_rest w')) = (w1, l) ->
  only_life (fw_rest w) r0 -> grow a n r0 r1 -> only_life r1 (fw_rest w') ->
  (forall b, b <> a -> fw_agents w' b = fw_agents w1 b) -> fw_agents w' a = set_cur (fw_agents w1 a) cur ->
  (forall b, b <> a -> rr_age (fw_rest w') b = rr_age (fw_rest w) b /\
     rr_pregnancy (fw_rest w') b = rr_pregnancy (fw_rest w) b /\ rr_mate (fw_rest w') b = rr_mate (fw_rest w) b) ->
  life (who a) cur (fa_alive (fw_agents w a)) (rr_age (fw_rest w') a) (rr_pregnancy (fw_rest w') a)
    (rr_mate (fw_rest w') a) (rr_next (fw_rest w)) ->
  okstep s w w' c' l.
Proof.
  intros G AN RF [O1 O2 O3] (D1 & _ & D4 & D5) [Q1 Q2 Q3] A1 A2 E L.
  rewrite born_fops in RF. injection RF as <- <-. cbn [fw_agents] in *.
  assert (NX : rr_next (fw_rest w') = rr_next (fw_rest w) + n) by (rewrite Q1, D1, O1; lia).
  destruct (run_ops s (map (fun c => SAdd c None) (seq (rr_next (fw_rest w)) n))) as [s' tr] eqn:RO.
  split; [|split; [lia|]].
  2:{ intros b t J. apply in_adds in J. apply in_seq in J. lia. }
  rewrite RO. cbn [fst]. eapply (good_grow s s' tr n a cur w w' c'); eauto.
  - split; [cbn; lia|]. split; [now constructor|]. split.
    + cbn. rewrite Q2, D4, O1, O2. reflexivity.
    + cbn [rr_edges rr_next rr_nodes]. intros x y J. rewrite Q3 in J. rewrite O1, O3 in D5. rewrite Q2. now apply D5.
Qed.

Lemma in_candidates s ag f : In f (candidates who p s ag) -> who f = Female.
Proof.
  unfold candidates. intros J. assert (X : In f (filter (fun b => is_female (who b) &&
    match fa_cur (ag b) with Some st => String.eqb (st_name st) "fertile" | None => false end) (s_reg s))).
  { rewrite <- (firstn_skipn (p_females p)). apply in_or_app. now left. }
  apply filter_In in X. destruct X as [_ X]. apply andb_true_iff in X. destruct X as [X _].
  destruct (who f); auto; discriminate X.
Qed.

Lemma own_names k st : k <> Accident -> st = newborn \/ st = youngling \/ st = own_fertile k \/ st = pregnant \/ st = dead ->
  c_start code (st_fun st) = st_fun st.
Proof. reflexivity. Qed.

(** The functions of the states. *)
Ltac same := intros b NE; cbn; unfold set_at; apply Nat.eqb_neq in NE; rewrite ?NE; auto.
Ltac here := cbn; unfold set_at; rewrite ?Nat.eqb_refl.
Lemma state_fn s a st r ops g (w w1 w' : rworld) c' l : good (s_reg s) (w, c') -> (a < rr_next (fw_rest w))%nat ->
  who a <> Accident -> fa_cur (fw_agents w a) = Some st -> fa_alive (fw_agents w a) = true ->
  c_resume code s a (c_start code (st_fun st)) w = (r, ops, g) ->
  run_fops s ops (FWorld (fw_agents w) r) = (w1, l) -> fw_rest w' = r ->
  (forall b, b <> a -> fw_agents w' b = fw_agents w1 b) -> fw_agents w' a = set_cur (fw_agents w1 a) (leaves g (Some st)) ->
  okstep s w w' c' l.
Proof.
  intros G AN RB CU AL CR RF RW A1 A2. pose proof G as (_ & _ & NET & LIV). cbn [fst] in *.
  specialize (LIV a). unfold lives in LIV. cbv zeta in LIV. rewrite CU, AL in LIV.
  assert (IN : In a (rr_nodes (fw_rest w))).
  { apply (no_nodes _ _ NET). split; auto. split; auto. destruct (who a); auto. }
  destruct LIV as [[PB PM] LIV].
  assert (H : st = newborn /\ rr_age (fw_rest w) a = 0 \/
     st = youngling /\ (rr_age (fw_rest w) a = 0 \/ rr_age (fw_rest w) a < p_maturity p)%nat \/
     st = own_fertile (who a) /\ (rr_age (fw_rest w) a <= old)%nat \/
     st = pregnant /\ who a = Female /\ (rr_age (fw_rest w) a <= S (p_life p))%nat /\
       (rr_age (fw_rest w) a <= p_life p)%nat /\ (0 <= rr_pregnancy (fw_rest w) a)%Z \/
     st = dead /\ (rr_age (fw_rest w) a <= S old)%nat).
  { destruct (who a); [| |congruence]; destruct LIV as (st' & E & H); injection E as <-;
      destruct H as [H|[H|[H|[(H1 & H2 & H3 & H4 & H5)|H]]]]; auto 12. }
  clear LIV.
  assert (MK : forall st0 age,
      (st0 = newborn /\ age = 0 \/ st0 = youngling /\ (age = 0 \/ age < p_maturity p)%nat \/
       st0 = own_fertile (who a) /\ (age <= old)%nat \/
       st0 = pregnant /\ who a = Female /\ (age <= S (p_life p))%nat /\ (age <= p_life p)%nat /\ (0 <= rr_pregnancy (fw_rest w) a)%Z \/
       st0 = dead /\ (age <= S old)%nat) ->
    life (who a) (Some st0) (fa_alive (fw_agents w a)) age (rr_pregnancy (fw_rest w) a) (rr_mate (fw_rest w) a) (rr_next (fw_rest w))).
  { intros st0 age H0. split; [split; auto|]. destruct (who a); [| |congruence]; exists st0; split; auto. }
  assert (SOLD : (p_life p <= old /\ p_maturity p <= old /\ 1 <= old)%nat) by (unfold old; lia).
  destruct H as [[-> H]|[[-> H]|[[-> H]|[(-> & F & H & HL & PR)|[-> H]]]]].
  - (* newborn *)
    cbn in CR. injection CR as <- <- <-. injection RF as <- <-. cbn [leaves goes_to] in A2.
    eapply (quiet_ok s a (Some youngling)); eauto; rewrite ?RW.
    + now constructor.
    + same.
    + intros b NE. left. cbn. auto.
    + here. apply MK. auto.
  - (* youngling *)
    cbn in CR. unfold set_at in CR. rewrite Nat.eqb_refl in CR.
    destruct (p_maturity p <=? S (rr_age (fw_rest w) a))%nat eqn:M; injection CR as <- <- <-; injection RF as <- <-;
      cbn [leaves goes_to] in A2.
    + eapply (quiet_ok s a (Some (own_fertile (who a)))); eauto; rewrite ?RW.
      * now constructor.
      * same.
      * intros b NE. left. cbn. auto.
      * here. apply MK. right. right. left. split; auto.
        destruct H; lia.
    + eapply (quiet_ok s a (Some youngling)); eauto; rewrite ?RW.
      * now constructor.
      * same.
      * intros b NE. left. cbn. auto.
      * here. apply Nat.leb_gt in M. apply MK. auto.
  - (* fertile *)
    destruct (who a) eqn:WA; [| |congruence].
    + (* a male *)
      cbn [own_fertile fertile_male st_fun c_start rabbit_code c_resume] in CR. unfold fertile_male_fn in CR. cbv zeta in CR.
      cbn [set_age rr_age] in CR. unfold set_at in CR. rewrite Nat.eqb_refl in CR.
      destruct (p_life p <? S (rr_age (fw_rest w) a))%nat eqn:M; injection CR as <- <- <-; injection RF as <- <-;
        cbn [leaves goes_to] in A2.
      * eapply (quiet_ok s a (Some dead)); eauto; rewrite ?RW.
        -- now constructor.
        -- same.
        -- intros b NE. left. cbn. auto.
        -- here. rewrite WA. apply MK. right. right. right. right. split; auto. lia.
      * change (RRest (rr_next (fw_rest w)) _ _ _ _ _ _ _ _) with (set_age (fw_rest w) a (S (rr_age (fw_rest w) a))) in RW.
        set (r0 := set_age _ _ _) in RW.
        destruct (court_life a (candidates who p s (fw_agents w)) r0) as (L1 & _ & L2).
        pose proof (court_only a (candidates who p s (fw_agents w)) r0) as CO.
        rewrite <- RW in L1, L2, CO. apply Nat.ltb_ge in M.
        assert (NP : rr_pregnancy (fw_rest w') a = rr_pregnancy (fw_rest w) a /\ rr_mate (fw_rest w') a = rr_mate (fw_rest w) a).
        { destruct L2 as [(L2 & L3 & _)|(f & n & I & L2 & L3 & _)]; rewrite L2, L3; auto.
          apply in_candidates in I. assert (NE : Nat.eqb a f = false) by (apply Nat.eqb_neq; congruence).
          unfold set_at. rewrite NE. auto. }
        eapply (quiet_ok s a (Some fertile_male)); eauto.
        -- eapply only_life_trans; [|exact CO]. now constructor.
        -- rewrite L1. same.
        -- intros b NE. destruct L2 as [(L2 & L3 & _)|(f & n & I & L2 & L3 & _)]; rewrite L2, L3; [left; auto|].
           unfold set_at. destruct (Nat.eqb b f) eqn:EB; [|left; auto]. right. apply Nat.eqb_eq in EB. subst f.
           apply in_candidates in I. auto.
        -- rewrite L1. destruct NP as [-> ->]. here. rewrite WA. apply MK.
           right. right. left. split; auto. lia.
    + (* a female *)
      cbn [own_fertile fertile_female st_fun c_start rabbit_code c_resume] in CR. unfold fertile_female_fn in CR. cbv zeta in CR.
      cbn [set_age rr_age rr_pregnancy] in CR. unfold set_at in CR. rewrite Nat.eqb_refl in CR.
      destruct (p_life p <? S (rr_age (fw_rest w) a))%nat eqn:M.
      { injection CR as <- <- <-; injection RF as <- <-; cbn [leaves goes_to] in A2.
        eapply (quiet_ok s a (Some dead)); eauto; rewrite ?RW.
        -- now constructor.
        -- same.
        -- intros b NE. left. cbn. auto.
        -- here. rewrite WA. apply MK. right. right. right. right. split; auto. lia. }
      apply Nat.ltb_ge in M.
      destruct (0 <=? rr_pregnancy (fw_rest w) a)%Z eqn:PP; injection CR as <- <- <-; injection RF as <- <-;
        cbn [leaves goes_to] in A2.
      * apply Z.leb_le in PP. eapply (quiet_ok s a (Some pregnant)); eauto; rewrite ?RW.
        -- now constructor.
        -- same.
        -- intros b NE. left. cbn. auto.
        -- here. rewrite WA. apply MK. right. right. right. left. repeat split; auto; lia.
      * eapply (quiet_ok s a (Some fertile_female)); eauto; rewrite ?RW.
        -- now constructor.
        -- same.
        -- intros b NE. left. cbn. auto.
        -- here. rewrite WA. apply MK. right. right. left. split; auto. lia.
  - (* pregnant *)
    cbn [pregnant st_fun c_start rabbit_code c_resume] in CR. unfold pregnant_fn in CR. cbv zeta in CR.
    set (r0 := set_age _ _ _) in CR. assert (AG : rr_age r0 a = S (rr_age (fw_rest w) a)) by (subst r0; here; reflexivity).
    assert (AG' : forall b, b <> a -> rr_age r0 b = rr_age (fw_rest w) b) by (subst r0; same).
    rewrite AG in CR.
    destruct (p_life p <=? S (rr_age (fw_rest w) a))%nat eqn:M.
    { destruct (net_die _ _ _) as [r2 o2] eqn:E. injection CR as <- <- <-. rewrite <- RW in *.
      destruct (net_die_drop _ _ _ _ _ E) as (K & -> & D & _ & KA). rewrite (KA AL) in *. clear K KA.
      cbn [leaves goes_to] in A2. eapply (drop_ok s a (Some dead) [a] r0); eauto.
      - intros b [<-|[]]. exact AN.
      - now constructor.
      - rewrite AG. cbn [existsb]. rewrite Nat.eqb_refl. cbn [orb]. cbn [rr_pregnancy rr_mate r0 set_age].
        split; [split; auto|]. rewrite F. exists dead. split; auto. right. right. right. right. split; auto. unfold old in *. lia. }
    apply Nat.leb_gt in M.
    change (rr_pregnancy r0 a) with (rr_pregnancy (fw_rest w) a) in CR.
    destruct (rr_pregnancy (fw_rest w) a <? Z.of_nat (p_gestation p))%Z eqn:GE.
    { apply Z.ltb_lt in GE. injection CR as <- <- <-. injection RF as <- <-. cbn [leaves goes_to] in A2.
      eapply (quiet_ok s a (Some pregnant)); eauto; rewrite ?RW.
      - now constructor.
      - intros b NE. cbn. unfold set_at. apply Nat.eqb_neq in NE. now rewrite NE.
      - intros b NE. left. cbn. unfold set_at. apply Nat.eqb_neq in NE. now rewrite NE.
      - here. split; [split; [lia|auto]|]. rewrite F. exists pregnant. split; auto. right. right. right. left.
        repeat split; auto; lia. }
    destruct (births _ _ _) as [[r2 o2] fine] eqn:E. destruct (births_grow _ _ _ _ _ _ E) as (k & -> & GR & _).
    change (rr_next r0) with (rr_next (fw_rest w)) in *.
    assert (SL : same_life r0 r2) by apply GR. destruct SL as [SL1 SL2 SL3 SL4].
    destruct fine; injection CR as <- <- <-; cbn [leaves goes_to] in A2.
    + rewrite <- RW in RF. eapply (grow_ok s a (Some fertile_female) k r0 r2); eauto; rewrite ?RW.
      * now constructor.
      * now constructor.
      * intros b NE. cbn. unfold set_at. rewrite SL1, SL2, SL3. pose proof NE as NE'. apply Nat.eqb_neq in NE. rewrite NE.
        split; auto.
      * here. rewrite SL1, AG. split; [split; [lia|intros X; lia]|]. rewrite F. exists fertile_female. split; auto.
        right. right. left. split; auto. lia.
    + rewrite <- RW in RF. eapply (grow_ok s a (Some pregnant) k r0 r2); eauto; rewrite ?RW.
      * now constructor.
      * now constructor.
      * intros b NE. rewrite SL1, SL2, SL3. split; auto.
      * rewrite SL1, SL2, SL3, AG. split; [split; auto|]. rewrite F. exists pregnant. split; auto.
        right. right. right. left. repeat split; auto; lia.
  - (* dead *)
    cbn [dead st_fun c_start rabbit_code c_resume] in CR.
    destruct (net_die _ _ _) as [r2 o2] eqn:E. injection CR as <- <- <-. rewrite <- RW in *.
    destruct (net_die_drop _ _ _ _ _ E) as (K & -> & D & _ & KA). rewrite (KA AL) in *. clear K KA.
    cbn [leaves goes_to] in A2. eapply (drop_ok s a (Some dead) [a] (fw_rest w)); eauto.
    + intros b [<-|[]]. exact AN.
    + apply only_life_refl.
    + cbn [existsb]. rewrite Nat.eqb_refl. cbn [orb]. eapply life_weaken; [apply Nat.le_refl| |apply MK].
      * discriminate.
      * right. right. right. right. auto.
Qed.

Lemma rabbit_step fs s a w c w' c' l o : good (s_reg s) (w, c) -> (a < rr_next (fw_rest w))%nat ->
  agent_step code fs s a (w, c) = (w', c', l, o) -> okstep s w w' c' l.
Proof.
  intros G AN E. pose proof G as (RE & KI & NET & LIV). cbn [fst snd] in *.
  assert (SAME : rested c' -> w' = w -> l = [] -> okstep s w w' c' l).
  { intros R -> ->. split; [|split; [lia|intros b t []]]. split; [exact R|]. split; [exact KI|]. split; [exact NET|exact LIV]. }
  assert (G' : rested c' -> good (s_reg s) (w, c')).
  { intros R. split; [exact R|]. split; [exact KI|]. split; [exact NET|exact LIV]. }
  specialize (KI a). destruct (who a) eqn:WA.
  1,2: (cbn [new_agent fa_kind] in KI;
    destruct (busy_step code fs s a w c w' c' l o _ rabbit_plain RE no_sets KI E) as (R & [[X Y]|H]); [auto|];
    destruct H as (st & r & ops & g & w1 & H1 & H2 & H3 & H4 & H5 & H6 & H7);
    eapply (state_fn s a st r ops g w w1 w' c' l); eauto; congruence).
  cbn [new_agent fa_kind] in KI.
  destruct (plain_agent_step code fs s a w c w' c' l o _ rabbit_plain RE no_sets KI E) as (R & [[X Y]|H]); [auto|].
  destruct H as (r & ops & g & H1 & H2). specialize (G' R).
  cbn [c_start rabbit_code c_resume] in H1. unfold accident_fn in H1. cbv zeta in H1.
  assert (LA : life (who a) None (fa_alive (fw_agents w a)) (rr_age (fw_rest w) a) (rr_pregnancy (fw_rest w) a) (rr_mate (fw_rest w) a) (rr_next (fw_rest w))).
  { specialize (LIV a). unfold lives in LIV. cbv zeta in LIV. rewrite WA in *. destruct LIV as [LIV H]. split; auto. }
  assert (CN : fa_cur (fw_agents w a) = None).
  { specialize (LIV a). unfold lives in LIV. cbv zeta in LIV. rewrite WA in LIV. apply LIV. }
  assert (DONE : forall K, (forall b, In b K -> (b < rr_next (fw_rest w))%nat) -> ops = map FDie K -> drop K (fw_rest w) r ->
    okstep s w w' c' l).
  { intros K KL -> D. destruct (die_fops s K (FWorld (fw_agents w) r)) as (w2 & RF & RW & AG).
    pose proof H2 as H3. rewrite RF in H3. injection H3 as -> <-. cbn [fw_rest fw_agents] in RW, AG. rewrite <- RW in H2, D.
    eapply (drop_ok s a None K (fw_rest w) w w' w' (map SRem K) c'); eauto.
    - apply only_life_refl.
    - assert (C2 : fa_cur (fw_agents w' a) = None).
      { rewrite AG. destruct (existsb (Nat.eqb a) K); cbn; exact CN. }
      destruct (fw_agents w' a); cbn in *. now subst. }
  destruct (Nat.eqb (List.length (rr_nodes (fw_rest w))) 0) eqn:Z.
  - injection H1 as <- <- <-. apply (DONE [a]); auto.
    + intros b [<-|[]]. exact AN.
    + assert (EN : rr_nodes (fw_rest w) = []) by (destruct (rr_nodes (fw_rest w)); [auto|discriminate Z]).
      split; auto. split; [now constructor|]. split; auto. split; [now rewrite EN|].
      intros [x y]. cbn [fst snd]. split; [|tauto]. intros J. destruct (no_edges _ _ NET x y J) as [J1 _]. rewrite EN in J1. destruct J1.
  - destruct (accidents _ _ _ _) as [r1 o1] eqn:EA. injection H1 as <- <- <-.
    destruct (accidents_drop _ _ _ _ _ _ EA) as (K & OP & D & KA). apply (DONE K); auto.
    intros b J. destruct (KA b J) as [J1 _]. apply filter_In in J1. destruct J1 as [J1 _]. now apply (no_reg _ _ NET) in J1.
Qed.

Definition may_act (x : rworld * cors (frame rfun)) (b : aid) : Prop := (b < rr_next (fw_rest (fst x)))%nat.
Lemma rabbit_step_inv shuffle : step_inv (rabbit_user who p litter_of times shuffle) good may_act.
Proof.
  intros s a [w c] [w' c'] ops o G Q E. cbn [rabbit_user agent_user u_step] in E.
  destruct (rabbit_step _ _ _ _ _ _ _ _ _ G Q E) as (G' & NX & AD).
  split; auto. split; auto. intros b. unfold may_act. cbn [fst]. lia.
Qed.
Lemma rabbit_shuffle_inv shuffle : fair shuffle -> shuffle_inv (rabbit_user who p litter_of times shuffle) good may_act.
Proof.
  intros FA l reg [w c] [w' c'] l' G E. cbn [rabbit_user agent_user u_shuffle fst snd] in E.
  specialize (FA l (fw_rest w)). destruct (shuffle l (fw_rest w)) as [r' l1]. injection E as <- <- <-.
  destruct FA as [PE (d & ->)]. split; [|split].
  - destruct G as (RE & KI & NET & LIV). split; [exact RE|]. split; [exact KI|]. split; [|exact LIV].
    destruct NET. constructor; auto.
  - intros b. unfold may_act. cbn. auto.
  - intros b J. eapply Permutation_in; [apply Permutation_sym; exact PE|exact J].
Qed.
Lemma rabbit_reached {AR : Arith} shuffle ordered di draws n s w c tr : fair shuffle ->
  rabbit_run who p litter_of times shuffle ordered di draws n = (s, (w, c), tr) -> good (s_reg s) (w, c).
Proof.
  intros FA E. unfold rabbit_run in E.
  set (s0 := timed_init (negb ordered) di) in E.
  set (s3 := timed_add (timed_add (timed_add s0 0 None) 1 None) 2 None).
  set (x0 := (rabbit_world who draws, no_cors)) in E.
  assert (E3 : exists tr', run_hist (rabbit_user who p litter_of times shuffle) (repeat CStep n) s3 x0 = (s, (w, c), tr')).
  { cbn [map app run_hist run_cmd run_op] in E. fold s3 in E.
    destruct (run_hist _ (repeat CStep n) s3 x0) as [[s1 x1] t1]. injection E as <- -> _. eauto. }
  destruct E3 as (tr' & E3).
  destruct (steps_inv (rabbit_user who p litter_of times shuffle) good may_act (rabbit_step_inv shuffle)
    (rabbit_shuffle_inv shuffle FA) n s3 x0 s (w, c) tr') as [H _]; auto.
  destruct FAM as (F0 & F1 & F2 & F3). split.
  - change (s_reg s3) with [0; 1; 2]. subst x0. split; [intros a; left; reflexivity|]. split; [reflexivity|]. split.
    + constructor; cbn [fst rabbit_world fw_rest fw_agents rr_next rr_nodes rr_edges].
      * lia.
      * reflexivity.
      * repeat constructor; cbn; intuition discriminate.
      * intros a. cbn [In]. split.
        -- intros [<-|[<-|[]]]; rewrite ?F0, ?F1; repeat split; lia.
        -- intros (H1 & H2 & _). destruct a as [|[|[|a]]]; auto; [rewrite F2 in H2; discriminate|lia].
      * repeat constructor; cbn; intuition discriminate.
      * intros a. rewrite new_alive. cbn [In]. split.
        -- intros [<-|[<-|[<-|[]]]]; split; auto; lia.
        -- intros [H _]. lia.
      * intros x y [J|[]]. injection J as <- <-. cbn. auto.
    + intros a. unfold lives. cbn [fst rabbit_world fw_rest fw_agents rr_next rr_age rr_pregnancy rr_mate].
      split; [split; [lia|intros X; lia]|]. destruct (who a); cbn; auto; exists newborn; auto.
  - intros t b a J K. unfold may_act. subst x0. cbn in J |- *.
    destruct J as [J|[]]. injection J as <- <-. cbn in K. lia.
Qed.
End Rabbits.

(** ** The theorems *)
Lemma reached_good who p litter_of times s w c : reached who p litter_of times s w c ->
  a_family who /\ good who p (s_reg s) (w, c).
Proof.
  intros (AR & shuffle & ordered & di & draws & n & tr & FAM & FA & E). split; auto.
  eapply rabbit_reached; eauto.
Qed.
Lemma not_accident k : k <> Accident <-> is_rabbit k = true.
Proof. destruct k; cbn; split; congruence. Qed.

Lemma network_of_the_living who p litter_of times s w c : reached who p litter_of times s w c ->
  let r := fw_rest w in
  NoDup (rr_nodes r) /\ NoDup (s_reg s) /\
  (forall a, In a (rr_nodes r) <-> In a (s_reg s) /\ who a <> Accident) /\
  (forall a, In a (s_reg s) <-> created w a /\ alive w a) /\
  (forall x y, In (x, y) (rr_edges r) -> In x (rr_nodes r) /\ In y (rr_nodes r)) /\
  List.length (filter (fun a => match who a with Accident => false | _ => true end) (s_reg s)) = List.length (rr_nodes r).
Proof.
  intros R r. destruct (reached_good _ _ _ _ _ _ _ R) as (FAM & _ & _ & [N1 N2 N3 N4 N5 N6 N7] & _). cbn [fst] in *.
  assert (ND : forall a, In a (rr_nodes r) <-> In a (s_reg s) /\ who a <> Accident).
  { intros a. unfold r. rewrite N4, N6, not_accident. tauto. }
  split; [exact N3|]. split; [exact N5|]. split; [exact ND|]. split; [exact N6|]. split; [exact N7|].
  apply Permutation_length. apply NoDup_Permutation.
  - now apply NoDup_filter.
  - exact N3.
  - intros a. rewrite filter_In, ND. destruct (who a); split; intros [H1 H2]; split; congruence.
Qed.

(** The states and the ages. *)
Lemma rabbit_lives who p litter_of times s w c : reached who p litter_of times s w c ->
  forall a, created w a -> who a <> Accident -> let r := fw_rest w in
  (exists n, In n ["newborn"; "youngling"; "fertile"; "pregnant"; "dead"] /\ in_state n w a) /\
  (rr_age r a <= S (Nat.max 1 (Nat.max (p_maturity p) (p_life p))))%nat /\
  (in_state "youngling" w a -> rr_age r a = 0 \/ (rr_age r a < p_maturity p)%nat) /\
  (in_state "pregnant" w a -> (rr_age r a <= p_life p)%nat) /\
  (in_state "pregnant" w a -> who a = Female /\ (0 <= rr_pregnancy r a <= Z.of_nat (p_gestation p))%Z /\
     exists m, rr_mate r a = Some m /\ who m = Male /\ created w m).
Proof.
  intros R a CA RB r. destruct (reached_good _ _ _ _ _ _ _ R) as (FAM & _ & _ & _ & L). cbn [fst] in L. specialize (L a).
  unfold lives in L. cbv zeta in L. fold r in L. destruct L as [[P1 P2] L].
  assert (H : exists st, fa_cur (fw_agents w a) = Some st /\
      (st = newborn /\ rr_age r a = 0 \/ st = youngling /\ (rr_age r a = 0 \/ rr_age r a < p_maturity p)%nat \/
       st = own_fertile (who a) /\ (rr_age r a <= old p)%nat \/
       st = pregnant /\ who a = Female /\ (rr_age r a <= S (p_life p))%nat /\
         (rr_age r a <= p_life p)%nat /\ (0 <= rr_pregnancy r a)%Z \/
       st = dead /\ (rr_age r a <= S (old p))%nat)).
  { destruct (who a); auto. congruence. }
  clear L. destruct H as (st & C & H).
  assert (NM : forall n, in_state n w a -> st_name st = n).
  { intros n (st' & C' & N). congruence. }
  unfold old in H.
  assert (FN : st_name (own_fertile (who a)) = "fertile") by (destruct (who a); reflexivity).
  destruct H as [[-> H]|[[-> H]|[[-> H]|[(-> & F & H & HL & PR)|[-> H]]]]];
    (split; [eexists; split; [|eexists; split; [exact C|reflexivity]]; cbn; rewrite ?FN; auto 10|]);
    (split; [lia|]); (split; [intros X; apply NM in X; try discriminate X; try congruence; auto|]);
    (split; [intros X; apply NM in X; try discriminate X; try congruence; auto|]);
    intros X; apply NM in X; try discriminate X; try congruence.
  split; auto. split; [lia|]. destruct (P2 PR) as (_ & P3). exact P3.
Qed.


(** ** Activations, exactly *)
Section Exact.
Context {F Q W : Type}.
Variable u : FsmModel.code F Q W.
Variable fs : string -> option num.
Lemma exact_step s a w c states st r ops g w1 l : get_co c a = None ->
  fa_kind (fw_agents w a) = KFsm states -> fa_alive (fw_agents w a) = true -> fa_cur (fw_agents w a) = Some st ->
  c_resume u s a (c_start u (st_fun st)) w = (r, ops, g) ->
  run_fops s ops (FWorld (fw_agents w) r) = (w1, l) ->
  match g with
  | GReturn v => plain_value v -> exists w' c', agent_step u fs s a (w, c) = (w', c', l, ends_in v) /\
      fw_rest w' = fw_rest w1 /\ (forall b, b <> a -> fw_agents w' b = fw_agents w1 b) /\
      fw_agents w' a = set_cur (fw_agents w1 a) (goes_to v (fa_cur (fw_agents w1 a)))
  | GRaise d => exists c', agent_step u fs s a (w, c) = (w1, c', l, if d then Dead else Exc)
  | GYield _ _ => True
  end.
Proof.
  intros G K A C CR RF.
  assert (K1 : fa_kind (fw_agents w1 a) = KFsm states).
  { pose proof (run_fops_le s ops _ _ _ RF a) as [K1 _]. cbn in K1. now rewrite K1. }
  assert (SC : fw_agents w1 a = set_cur (fw_agents w1 a) (fa_cur (fw_agents w1 a))) by (destruct (fw_agents w1 a); reflexivity).
  unfold agent_step, decorated. cbn [fst snd]. rewrite G. cbn [send step_gen]. rewrite K, A. cbn [negb].
  rewrite C. unfold inside. rewrite CR, RF. destruct g as [v q'|v|d]; [exact I| |].
  - intros PV. rewrite K1. unfold finish.
    assert (OTHER : forall x, forall b, b <> a -> fw_agents (upd w1 a x) b = fw_agents w1 b).
    { intros x b NE. cbn. apply Nat.eqb_neq in NE. now rewrite NE. }
    inversion PV; subst; cbn [unpack2 set_state]; cbn [as_delay is_none to_float];
      eexists; eexists; (split; [reflexivity|]); (split; [reflexivity|]); cbn [goes_to];
      (split; [auto|]); cbn [upd fw_agents]; rewrite ?Nat.eqb_refl; auto.
  - destruct d; eexists; reflexivity.
Qed.
End Exact.

Lemma births_living n a m r : In a (rr_nodes r) -> rr_mate r a = Some m -> In m (rr_nodes r) ->
  births (S n) a r =
  (RRest (S (rr_next r)) (rr_nodes r ++ [rr_next r]) (rr_edges r ++ [(rr_next r, a); (rr_next r, m)]) (rr_age r)
     (rr_offspring r) (rr_pregnancy r) (rr_mate r) (rr_litter r) (rr_draws r), [born (rr_next r)], false).
Proof.
  intros A M B. cbn [births new_node].
  assert (X : forall x, In x (rr_nodes r) -> existsb (Nat.eqb x) (rr_nodes r ++ [rr_next r])%list = true).
  { intros x J. apply existsb_In. apply in_or_app. auto. }
  assert (Y : existsb (Nat.eqb (rr_next r)) (rr_nodes r ++ [rr_next r])%list = true).
  { apply existsb_In. apply in_or_app. cbn. auto. }
  unfold add_edge, has_node. cbn [rr_nodes rr_next rr_edges rr_age rr_offspring rr_pregnancy rr_mate rr_litter rr_draws].
  rewrite Y, (X a A). cbn [andb rr_mate]. rewrite M. cbn [rr_nodes]. rewrite Y, (X m B).
  cbn [andb rr_nodes rr_next rr_edges rr_age rr_offspring rr_pregnancy rr_mate rr_litter rr_draws].
  rewrite <- app_assoc. reflexivity.
Qed.
Lemma births_orphans n : forall a m r, In a (rr_nodes r) -> rr_mate r a = Some m -> (m < rr_next r)%nat -> ~ In m (rr_nodes r) ->
  exists off, births n a r =
  (RRest (rr_next r + n) (rr_nodes r ++ seq (rr_next r) n) (rr_edges r ++ map (fun c => (c, a)) (seq (rr_next r) n)) (rr_age r)
     off (rr_pregnancy r) (rr_mate r) (rr_litter r) (rr_draws r),
   map born (seq (rr_next r) n), true) /\ off a = rr_offspring r a + n /\ forall b, b <> a -> off b = rr_offspring r b.
Proof.
  induction n as [|n IH]; intros a m r A M LT B.
  - exists (rr_offspring r). cbn. rewrite !app_nil_r, !Nat.add_0_r. destruct r; auto.
  - cbn [births new_node].
    assert (X : existsb (Nat.eqb a) (rr_nodes r ++ [rr_next r])%list = true).
    { apply existsb_In. apply in_or_app. auto. }
    assert (Y : existsb (Nat.eqb (rr_next r)) (rr_nodes r ++ [rr_next r])%list = true).
    { apply existsb_In. apply in_or_app. cbn. auto. }
    assert (Z : existsb (Nat.eqb m) (rr_nodes r ++ [rr_next r])%list = false).
    { apply existsb_notIn. intros J. apply in_app_or in J. destruct J as [J|[J|[]]]; auto. lia. }
    unfold add_edge, has_node. cbn [rr_nodes rr_next rr_edges rr_age rr_offspring rr_pregnancy rr_mate rr_litter rr_draws].
    rewrite Y, X. cbn [andb rr_mate]. rewrite M. cbn [rr_nodes]. rewrite Y, Z. cbn [andb].
    match goal with |- context [births n a ?x] => set (r2 := x) end.
    destruct (IH a m r2) as (off & E & O1 & O2).
    + apply in_or_app. auto.
    + exact M.
    + cbn. lia.
    + intros J. apply in_app_or in J. destruct J as [J|[J|[]]]; auto. lia.
    + exists off. rewrite E. cbn [r2 set_offspring rr_nodes rr_next rr_edges rr_age rr_offspring rr_pregnancy rr_mate rr_litter rr_draws seq map].
      rewrite <- !app_assoc. cbn [app]. rewrite Nat.add_succ_r. split; [reflexivity|].
      cbn [r2 set_offspring rr_offspring] in O1, O2. unfold set_at in O1, O2. rewrite Nat.eqb_refl in O1.
      split; [lia|]. intros b NE. rewrite O2 by auto. apply Nat.eqb_neq in NE. now rewrite NE.
Qed.

Section Births.
Variable who : aid -> role.
Variable p : rparams.
Variable litter_of : num -> nat.
Variable times : num -> nat -> num.
Notation code := (rabbit_code who p litter_of times).

(** A female that is about to give birth. *)
Lemma at_term s w c a : reached who p litter_of times s w c -> In a (s_reg s) -> in_state "pregnant" w a ->
  fa_kind (fw_agents w a) = KFsm (fst (meta female_class)) /\ fa_alive (fw_agents w a) = true /\ fa_cur (fw_agents w a) = Some pregnant /\ In a (rr_nodes (fw_rest w)) /\ exists m, rr_mate (fw_rest w) a = Some m /\ who m = Male /\ (m < rr_next (fw_rest w))%nat /\ (In m (rr_nodes (fw_rest w)) <-> fa_alive (fw_agents w m) = true).
Proof.
  intros R I S. destruct (reached_good _ _ _ _ _ _ _ R) as (FAM & _ & KI & [N1 N2 N3 N4 N5 N6 N7] & L). cbn [fst] in *.
  apply N6 in I. destruct I as [I1 I2].
  assert (RB : who a <> Accident).
  { intros WA. specialize (L a). unfold lives in L. rewrite WA in L. destruct L as [_ L]. destruct S as (st & S & _). congruence. }
  destruct (rabbit_lives _ _ _ _ _ _ _ R a I1 RB) as (_ & _ & _ & _ & P). destruct (P S) as (F & _ & m & M1 & M2 & M3).
  split; [rewrite KI, F; reflexivity|]. split; auto. split; [|split].
  - specialize (L a). unfold lives in L. cbv zeta in L. rewrite F in L. destruct L as [_ (st & C & L)].
    destruct S as (st' & S & N). rewrite C in S. injection S as <-.
    destruct L as [[-> _]|[[-> _]|[[-> _]|[(-> & _)|[-> _]]]]]; try discriminate N. exact C.
  - apply N4. split; auto. split; auto. now apply not_accident.
  - exists m. split; auto. split; auto. split; auto. rewrite N4, M2. cbn [is_rabbit]. tauto.
Qed.

Lemma no_litter fs s w c a m : reached who p litter_of times s w c -> In a (s_reg s) -> in_state "pregnant" w a ->
  get_co c a = None -> (S (rr_age (fw_rest w) a) < p_life p)%nat ->
  rr_pregnancy (fw_rest w) a = Z.of_nat (p_gestation p) -> (0 < rr_litter (fw_rest w) a)%nat ->
  rr_mate (fw_rest w) a = Some m -> alive w m ->
  exists w' c', agent_step code fs s a (w, c) = (w', c', [SAdd (rr_next (fw_rest w)) None], Exc) /\
  rr_nodes (fw_rest w') = (rr_nodes (fw_rest w) ++ [rr_next (fw_rest w)])%list /\
  rr_offspring (fw_rest w') = rr_offspring (fw_rest w) /\
  rr_pregnancy (fw_rest w') = rr_pregnancy (fw_rest w) /\ in_state "pregnant" w' a.
Proof.
  intros R I PS G AGE PR LI MA AL. destruct (at_term _ _ _ _ R I PS) as (K & A & C & N & m' & M & _ & _ & X).
  rewrite MA in M. injection M as <-. apply X in AL.
  set (r0 := set_age (fw_rest w) a (S (rr_age (fw_rest w) a))).
  destruct (rr_litter (fw_rest w) a) as [|n] eqn:LN; [lia|].
  pose proof (births_living n a m r0 N MA AL) as B.
  assert (CR : c_resume code s a (c_start code (st_fun pregnant)) w =
    (fst (fst (births (S n) a r0)), [born (rr_next (fw_rest w))], GRaise false)).
  { cbn [pregnant st_fun c_start rabbit_code c_resume]. unfold pregnant_fn. cbv zeta. fold r0.
    replace (rr_age r0 a) with (S (rr_age (fw_rest w) a)) by (cbn; unfold set_at; now rewrite Nat.eqb_refl).
    replace (p_life p <=? S (rr_age (fw_rest w) a))%nat with false by (symmetry; apply Nat.leb_gt; lia).
    change (rr_pregnancy r0 a) with (rr_pregnancy (fw_rest w) a). rewrite PR, Z.ltb_irrefl.
    change (rr_litter r0 a) with (rr_litter (fw_rest w) a). rewrite LN, B. reflexivity. }
  rewrite B in CR. cbn [fst] in CR.
  pose proof (exact_step code fs s a w c _ _ _ _ _ _ _ G K A C CR (born_fops s [rr_next (fw_rest w)] _)) as (c' & E).
  eexists. exists c'. split; [exact E|]. cbn [fw_rest rr_nodes rr_offspring rr_pregnancy]. split; [reflexivity|]. split; [reflexivity|]. split; [reflexivity|].
  exists pregnant. cbn. auto.
Qed.

Lemma orphans fs s w c a m : reached who p litter_of times s w c -> In a (s_reg s) -> in_state "pregnant" w a ->
  get_co c a = None -> (S (rr_age (fw_rest w) a) < p_life p)%nat ->
  rr_pregnancy (fw_rest w) a = Z.of_nat (p_gestation p) ->
  rr_mate (fw_rest w) a = Some m -> ~ alive w m ->
  let children := seq (rr_next (fw_rest w)) (rr_litter (fw_rest w) a) in
  exists w' c', agent_step code fs s a (w, c) = (w', c', map (fun x => SAdd x None) children, Ret None) /\
  rr_nodes (fw_rest w') = (rr_nodes (fw_rest w) ++ children)%list /\
  rr_edges (fw_rest w') = (rr_edges (fw_rest w) ++ map (fun x => (x, a)) children)%list /\
  rr_offspring (fw_rest w') a = rr_offspring (fw_rest w) a + rr_litter (fw_rest w) a /\
  (forall b, b <> a -> rr_offspring (fw_rest w') b = rr_offspring (fw_rest w) b) /\
  rr_pregnancy (fw_rest w') a = (-1)%Z /\ in_state "fertile" w' a.
Proof.
  intros R I PS G AGE PR MA AL children. destruct (at_term _ _ _ _ R I PS) as (K & A & C & N & m' & M & _ & LT & X).
  rewrite MA in M. injection M as <-. assert (NM : ~ In m (rr_nodes (fw_rest w))) by (intros J; apply AL, X; exact J).
  set (r0 := set_age (fw_rest w) a (S (rr_age (fw_rest w) a))).
  destruct (births_orphans (rr_litter (fw_rest w) a) a m r0 N MA LT NM) as (off & B & O1 & O2).
  set (r1 := RRest _ _ _ _ _ _ _ _ _) in B.
  assert (CR : c_resume code s a (c_start code (st_fun pregnant)) w =
    (set_pregnancy (set_mate r1 a None) a (-1), map born children, GReturn (PState fertile_female))).
  { cbn [pregnant st_fun c_start rabbit_code c_resume]. unfold pregnant_fn. cbv zeta. fold r0.
    replace (rr_age r0 a) with (S (rr_age (fw_rest w) a)) by (cbn; unfold set_at; now rewrite Nat.eqb_refl).
    replace (p_life p <=? S (rr_age (fw_rest w) a))%nat with false by (symmetry; apply Nat.leb_gt; lia).
    change (rr_pregnancy r0 a) with (rr_pregnancy (fw_rest w) a). rewrite PR, Z.ltb_irrefl.
    change (rr_litter r0 a) with (rr_litter (fw_rest w) a). rewrite B. reflexivity. }
  pose proof (exact_step code fs s a w c _ _ _ _ _ _ _ G K A C CR (born_fops s children _) (pv_state _))
    as (w' & c' & E & RW & OT & OA).
  exists w', c'. split; [exact E|]. rewrite RW. cbn [fw_rest set_pregnancy set_mate r1 rr_nodes rr_edges rr_offspring rr_pregnancy].
  split; [reflexivity|]. split; [reflexivity|]. split; [exact O1|]. split; [exact O2|]. split.
  - unfold set_at. now rewrite Nat.eqb_refl.
  - exists fertile_female. rewrite OA. cbn. auto.
Qed.

(** Accidents. *)
Lemma magnitude_spec k : forall f n, (n <= f)%nat -> (10 ^ k <= n < 10 ^ S k)%nat -> magnitude f n = k.
Proof.
  induction k as [|k IH]; intros f n LF H; (destruct f as [|f]; [cbn in H; lia|]); cbn [magnitude].
  - cbn in H. replace (n <? 10)%nat with true; auto. symmetry. apply Nat.ltb_lt. lia.
  - pose proof (Nat.pow_nonzero 10 k ltac:(lia)).
    replace (n <? 10)%nat with false by (symmetry; apply Nat.ltb_ge; rewrite (Nat.pow_succ_r' 10 k) in H; lia).
    f_equal. apply IH.
    + pose proof (Nat.div_lt n 10). rewrite Nat.pow_succ_r' in H. lia.
    + rewrite (Nat.pow_succ_r' 10 (S k)) in H. rewrite (Nat.pow_succ_r' 10 k) in H at 1. split.
      * apply Nat.div_le_lower_bound; lia.
      * apply Nat.div_lt_upper_bound; lia.
Qed.
Lemma victims_shift risk (d : nat -> num) (l : list aid) : forall k,
  map fst (filter (fun e => n_ltb (d (snd e)) risk) (combine l (seq (S k) (List.length l)))) =
  map fst (filter (fun e => n_ltb (d (S (snd e))) risk) (combine l (seq k (List.length l)))).
Proof.
  induction l as [|b l IH]; intros k; [reflexivity|]. cbn [List.length seq combine filter snd].
  destruct (n_ltb (d (S k)) risk); cbn [map fst]; [f_equal|]; apply IH.
Qed.
Lemma victims_cons risk d b l : victims risk d (b :: l) =
  if n_ltb (d 0) risk then b :: victims risk (fun n => d (S n)) l else victims risk (fun n => d (S n)) l.
Proof.
  unfold victims at 1. cbn [List.length seq combine filter snd].
  destruct (n_ltb (d 0) risk); cbn [map fst]; [f_equal|]; apply victims_shift.
Qed.
Lemma accidents_victims risk (ag : aid -> fagent rfun) l : forall r, (forall b, In b l -> fa_alive (ag b) = true) ->
  let L := filter (fun b => negb (match fa_cur (ag b) with Some st => String.eqb (st_name st) "dead" | None => false end)) l in
  exists r', accidents risk ag l r = (r', map FDie (victims risk (rr_draws r) L)) /\
    rr_nodes r' = filter (fun b => negb (existsb (Nat.eqb b) (victims risk (rr_draws r) L))) (rr_nodes r) /\ same_life r r'.
Proof.
  induction l as [|b l IH]; intros r AL L; cbn [accidents].
  - exists r. split; [reflexivity|]. cbn. split; [|constructor; reflexivity]. 
    rewrite filter_true; auto.
  - subst L. cbn [filter]. specialize (IH) as IH'.
    destruct (match fa_cur (ag b) with Some st => String.eqb (st_name st) "dead" | None => false end); cbn [negb].
    { apply IH. intros c J. apply AL. now right. }
    rewrite victims_cons. cbn [draw]. unfold prob. destruct (n_ltb (rr_draws r 0) risk).
    + unfold net_die. rewrite (AL b (or_introl eq_refl)).
      match goal with |- context [accidents risk ag l ?x] => destruct (IH x) as (r' & E & NO & SL) end; [intros c J; apply AL; now right|].
      rewrite E. eexists. split; [reflexivity|]. cbn [remove_node rr_nodes rr_draws] in NO.
      split.
      * rewrite NO. rewrite filter_filter. apply filter_ext. intros c. cbn [existsb].
        rewrite (Nat.eqb_sym b c). destruct (Nat.eqb c b); cbn; auto using andb_comm.
      * destruct SL as [S1 S2 S3 S4]. constructor; auto.
    + match goal with |- context [accidents risk ag l ?x] => destruct (IH x) as (r' & E & NO & SL) end; [intros c J; apply AL; now right|].
      rewrite E. eexists. split; [reflexivity|]. split; [exact NO|]. destruct SL as [S1 S2 S3 S4]. constructor; auto.
Qed.
Lemma dies_fops K : forall s (w : fworld rfun rrest), exists w', run_fops s (map (@FDie rfun) K) w = (w', map SRem K) /\ fw_rest w' = fw_rest w /\ forall b, fw_agents w' b =
    if existsb (Nat.eqb b) K then set_alive (fw_agents w b) false else fw_agents w b.
Proof.
  induction K as [|k K IH]; intros s w; cbn [map run_fops].
  - exists w. auto.
  - destruct (IH s (upd w k (set_alive (fw_agents w k) false))) as (w' & E & R & H). rewrite E.
    exists w'. split; [reflexivity|]. split; [exact R|]. intros b. rewrite H. cbn [upd fw_agents existsb].
    destruct (Nat.eqb_spec b k) as [->|NE]; cbn [orb]; match goal with |- context [existsb ?f K] => destruct (existsb f K) end; auto.
Qed.
Lemma exact_accidents fs s w c k : reached who p litter_of times s w c -> get_co c 2 = None ->
  (10 ^ k <= List.length (rr_nodes (fw_rest w)) < 10 ^ S k)%nat ->
  let dying := victims (times (p_death p) k) (rr_draws (fw_rest w)) (at_risk who s w) in
  exists w' c', agent_step code fs s 2 (w, c) = (w', c', map SRem dying, Ret None) /\
  (forall b, alive w' b <-> alive w b /\ ~ In b dying) /\
  (forall b, In b (rr_nodes (fw_rest w')) <-> In b (rr_nodes (fw_rest w)) /\ ~ In b dying) /\
  (forall b n, in_state n w' b <-> in_state n w b) /\ rr_age (fw_rest w') = rr_age (fw_rest w).
Proof.
  intros R G LN dying. destruct (reached_good _ _ _ _ _ _ _ R) as (FAM & RE & KI & [N1 N2 N3 N4 N5 N6 N7] & L). cbn [fst snd] in *.
  specialize (KI 2). destruct FAM as (_ & _ & F2 & _). rewrite F2 in KI. cbn [new_agent fa_kind] in KI.
  pose proof (Nat.pow_nonzero 10 k ltac:(lia)) as NZ.
  destruct (accidents_victims (times (p_death p) k) (fw_agents w) (filter (fun b => is_rabbit (who b)) (s_reg s)) (fw_rest w))
    as (r' & EA & NO & [SL _ _ _]).
  { intros b J. apply filter_In in J. destruct J as [J _]. apply N6 in J. apply J. }
  change (victims _ _ _) with dying in EA, NO.
  destruct (dies_fops dying s (FWorld (fw_agents w) r')) as (w' & EF & RW & AG).
  assert (K1 : fa_kind (fw_agents w' 2) = KPlain RAccident).
  { pose proof (run_fops_le s _ _ _ _ EF 2) as [K1 _]. cbn in K1. now rewrite K1. }
  assert (CR : c_resume code s 2 (c_start code RAccident) w = (r', map FDie dying, GReturn PNone)).
  { cbn [c_start rabbit_code c_resume]. unfold accident_fn. cbv zeta.
    replace (Nat.eqb (List.length (rr_nodes (fw_rest w))) 0) with false by (symmetry; apply Nat.eqb_neq; lia).
    rewrite (magnitude_spec k _ _ (le_n _) LN), EA. reflexivity. }
  exists w'. unfold agent_step, decorated. cbn [fst snd]. rewrite G. cbn [send step_gen]. rewrite KI. unfold inside.
  rewrite CR, EF, K1. eexists. split; [reflexivity|]. cbn [fw_rest fw_agents] in RW, AG.
  split; [|split; [|split]].
  - intros b. unfold alive. rewrite AG. destruct (existsb (Nat.eqb b) dying) eqn:X; cbn.
    + apply existsb_In in X. split; [discriminate|tauto].
    + apply existsb_notIn in X. tauto.
  - intros b. rewrite RW, NO, filter_In. destruct (existsb (Nat.eqb b) dying) eqn:X; cbn.
    + apply existsb_In in X. split; [intros [_ H]; discriminate H|tauto].
    + apply existsb_notIn in X. tauto.
  - intros b n. unfold in_state. rewrite AG. destruct (existsb (Nat.eqb b) dying); reflexivity.
  - rewrite RW. exact SL.
Qed.
Lemma few_rabbits fs s w c : reached who p litter_of times s w c -> get_co c 2 = None -> (forall x, times x 0 = Fin 0) ->
  (forall n, nonneg (rr_draws (fw_rest w) n) = true) -> (0 < List.length (rr_nodes (fw_rest w)) < 10)%nat ->
  exists w' c', agent_step code fs s 2 (w, c) = (w', c', [], Ret None) /\
  (forall b, alive w' b <-> alive w b) /\ forall b, In b (rr_nodes (fw_rest w')) <-> In b (rr_nodes (fw_rest w)).
Proof.
  intros R G T D LE. destruct (exact_accidents fs s w c 0 R G ltac:(cbn; lia)) as (w' & c' & E & A & B & _).
  assert (V : victims (times (p_death p) 0) (rr_draws (fw_rest w)) (at_risk who s w) = []).
  { rewrite T. unfold victims. induction (combine _ _) as [|[b i] l IH]; [reflexivity|]. cbn [filter snd].
    replace (n_ltb (rr_draws (fw_rest w) i) (Fin 0)) with false; auto.
    specialize (D i). destruct (rr_draws (fw_rest w) i) as [z| | |]; cbn in *; try discriminate; auto.
    symmetry. apply Z.ltb_ge. unfold nonneg, n_leb in D. cbn in D. apply orb_true_iff in D. rewrite Z.ltb_lt, Z.eqb_eq in D. lia. }
  rewrite V in *. exists w', c'. split; [exact E|]. split.
  - intros b. rewrite A. cbn. tauto.
  - intros b. rewrite B. cbn. tauto.
Qed.

(** Rabbits get older by one at each activation. *)
Lemma aging fs s w c w' c' l o a : reached who p litter_of times s w c -> In a (s_reg s) -> get_co c a = None ->
  in_state "youngling" w a \/ in_state "fertile" w a \/ in_state "pregnant" w a ->
  agent_step code fs s a (w, c) = (w', c', l, o) -> 
  rr_age (fw_rest w') a = S (rr_age (fw_rest w) a) /\ forall b, b <> a -> rr_age (fw_rest w') b = rr_age (fw_rest w) b.
Proof.
  intros R I G ST E. destruct (reached_good _ _ _ _ _ _ _ R) as (FAM & RE & KI & [N1 N2 N3 N4 N5 N6 N7] & L). cbn [fst snd] in *.
  apply N6 in I. destruct I as [I1 I2]. specialize (L a). unfold lives in L. cbv zeta in L. destruct L as [_ L].
  assert (RB : who a <> Accident).
  { intros WA. rewrite WA in L. destruct ST as [(st & S & _)|[(st & S & _)|(st & S & _)]]; congruence. }
  assert (K : exists states, fa_kind (fw_agents w a) = KFsm states).
  { rewrite KI. destruct (who a); [| |congruence]; eexists; reflexivity. }
  destruct K as (states & K).
  assert (C : exists st, fa_cur (fw_agents w a) = Some st /\ (st = youngling \/ st = own_fertile (who a) \/ st = pregnant)).
  { assert (H : exists st, fa_cur (fw_agents w a) = Some st /\ (st = newborn \/ st = youngling \/ st = own_fertile (who a) \/ st = pregnant \/ st = dead)).
    { destruct (who a); [| |congruence]; destruct L as (st & C & L); exists st; split; auto;
        destruct L as [[L _]|[[L _]|[[L _]|[(L & _)|[L _]]]]]; auto 10. }
    destruct H as (st & C & H). exists st. split; auto.
    destruct H as [->|[H|[H|[H| ->]]]]; auto; exfalso;
      destruct ST as [(st' & S & X)|[(st' & S & X)|(st' & S & X)]]; rewrite C in S; injection S as <-; discriminate X. }
  destruct C as (st & C & ST').
  assert (RA : forall r ops g, c_resume code s a (c_start code (st_fun st)) w = (r, ops, g) ->
    rr_age r = set_at (rr_age (fw_rest w)) a (S (rr_age (fw_rest w) a))).
  { intros r ops g CR. cbn [c_start rabbit_code c_resume] in CR. destruct ST' as [->|[->| ->]].
    - cbn in CR. injection CR as <- <- <-. reflexivity.
    - destruct (who a); [| |congruence]; cbn [own_fertile fertile_male fertile_female st_fun] in CR.
      + unfold fertile_male_fn in CR. cbv zeta in CR. destruct (_ <? _)%nat; injection CR as <- <- <-; [reflexivity|].
        match goal with |- rr_age (court _ _ _ ?l ?r) = _ => destruct (court_life p litter_of a l r) as (X & _); rewrite X end. reflexivity.
      + unfold fertile_female_fn in CR. cbv zeta in CR. destruct (_ <? _)%nat; [|destruct (_ <=? _)%Z]; injection CR as <- <- <-; reflexivity.
    - cbn [pregnant st_fun] in CR. unfold pregnant_fn in CR. cbv zeta in CR. destruct (_ <=? _)%nat.
      + destruct (net_die _ _ _) as [r2 o2] eqn:ED. injection CR as <- <- <-.
        destruct (net_die_drop _ _ _ _ _ ED) as (K0 & _ & (_ & [SL _ _ _] & _) & _). rewrite SL. reflexivity.
      + destruct (_ <? _)%Z; [injection CR as <- <- <-; reflexivity|].
        destruct (births _ _ _) as [[r2 o2] f2] eqn:EB. destruct (births_grow _ _ _ _ _ _ EB) as (k & _ & (_ & [SL _ _ _] & _) & _).
        destruct f2; injection CR as <- <- <-; [cbn [set_pregnancy set_mate rr_age]|]; rewrite SL; reflexivity. }
  destruct (c_resume code s a (c_start code (st_fun st)) w) as [[r ops] g] eqn:CR.
  destruct (run_fops s ops (FWorld (fw_agents w) r)) as [w1 l1] eqn:RF.
  pose proof (exact_step code fs s a w c _ _ _ _ _ _ _ G K I2 C CR RF) as X.
  assert (RW : fw_rest w1 = r).
  { apply (run_fops_no_set s ops) in RF; [apply RF|]. intros b v J. apply (no_sets who p litter_of times s a (c_start code (st_fun st)) w b v). now rewrite CR. }
  assert (RR : fw_rest w' = r).
  { destruct g as [v q'|v|d].
    - exfalso. apply (rabbit_plain _ _ _ _ _ _ _ _ _ _ _ CR).
    - destruct (X (rabbit_plain _ _ _ _ _ _ _ _ _ _ _ CR)) as (w2 & c2 & E2 & R2 & _). rewrite E in E2. injection E2 as -> -> -> ->. congruence.
    - destruct X as (c2 & E2). rewrite E in E2. injection E2 as -> -> -> ->. exact RW. }
  rewrite RR, (RA _ _ _ eq_refl). unfold set_at. rewrite Nat.eqb_refl. split; auto.
  intros b NE. apply Nat.eqb_neq in NE. now rewrite NE.
Qed.
End Births.
