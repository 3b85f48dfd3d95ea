(** Proofs about the improved rabbits. *)
From Coq Require Import ZArith List Bool Arith String Lia Permutation.
From Verif Require Import Num PyDict TimedModel AgentModel AgentProofs FsmModel FsmSpec FsmProofs PlainProofs
  RabbitModel RabbitSpec RabbitProofs Rabbit2Model Rabbit2Spec.
Import ListNotations.
Local Open Scope string_scope.

(** ** Activations *)
Section Steps.
Context {W : Type}.
Variable u : code rfun rfun W.
Variable fs : string -> option num.
(** An activation that returns, with calls that change no agent. *)
Lemma return_step s a w c st r (L : list aid) v : living w c a st ->
  c_resume u s a (c_start u (st_fun st)) w = (r, map born L, GReturn v) -> plain_value v ->
  exists w' c', agent_step u fs s a (w, c) = (w', c', map (fun x => SAdd x None) L, ends_in v) /\
  fw_rest w' = r /\ (forall b, b <> a -> fw_agents w' b = fw_agents w b) /\
  fw_agents w' a = set_cur (fw_agents w a) (goes_to v (Some st)) /\ get_co c' a = None.
Proof.
  intros ((states & K) & A & C & G) CR PV.
  assert (RF : run_fops s (map born L) (FWorld (fw_agents w) r) = (FWorld (fw_agents w) r, map (fun x => SAdd x None) L)).
  { clear. induction L as [|x L IH]; cbn [map run_fops born]; auto. now rewrite IH. }
  pose proof (exact_step u fs s a w c states st r _ _ _ _ G K A C CR RF) as X. cbn iota in X.
  destruct (X PV) as (w' & c' & E & R & O & SA). clear X.
  exists w', c'. split; [exact E|]. split; [exact R|]. split; [exact O|]. cbn [fw_agents] in SA. rewrite C in SA. split; [exact SA|].
  unfold agent_step, decorated in E. cbn [fst snd] in E. rewrite G in E. cbn [send step_gen] in E. rewrite K, A in E.
  cbn [negb] in E. rewrite C in E. unfold inside in E. rewrite CR, RF in E. cbn [fw_agents] in E. rewrite K in E.
  unfold finish in E. cbn [fw_agents] in E.
  inversion PV; subst v; cbn [unpack2 set_state] in E; cbn iota beta in E; injection E; intros; subst c'; now rewrite get_set_co, Nat.eqb_refl.
Qed.
Lemma raise_step s a w c st r (L : list aid) : living w c a st ->
  c_resume u s a (c_start u (st_fun st)) w = (r, map born L, GRaise false) ->
  exists c', agent_step u fs s a (w, c) = (FWorld (fw_agents w) r, c', map (fun x => SAdd x None) L, Exc).
Proof.
  intros ((states & K) & A & C & G) CR.
  assert (RF : run_fops s (map born L) (FWorld (fw_agents w) r) = (FWorld (fw_agents w) r, map (fun x => SAdd x None) L)).
  { clear. induction L as [|x L IH]; cbn [map run_fops born]; auto. now rewrite IH. }
  exact (exact_step u fs s a w c states st r _ _ _ _ G K A C CR RF).
Qed.
(** Afterwards, the agent is in the state that the function returned. *)
Lemma living_after (w w' : fworld rfun W) c c' a st st' : living w c a st ->
  fw_agents w' a = set_cur (fw_agents w a) (Some st') -> get_co c' a = None -> living w' c' a st'.
Proof. intros ((states & K) & A & _ & _) S G. unfold living. rewrite S. cbn. eauto. Qed.
End Steps.

(** ** Births *)
Lemma in_nodes x n l : In x l -> existsb (Nat.eqb x) (l ++ [n]) = true.
Proof. intros I. apply existsb_In. apply in_or_app. auto. Qed.
Lemma new_in_nodes (n : nat) l : existsb (Nat.eqb n) (l ++ [n]) = true.
Proof. apply existsb_In. apply in_or_app. cbn. auto. Qed.
Lemma not_in_nodes x n l : ~ In x l -> x <> n -> existsb (Nat.eqb x) (l ++ [n]) = false.
Proof. intros N NE. apply existsb_notIn. intros J. apply in_app_or in J. destruct J as [J|[J|[]]]; auto. Qed.

Lemma births2_alone n : forall a r, In a (ir_nodes r) -> ir_mate r a = None ->
  exists off, births2 n a r =
  (IRest (ir_next r + n) (ir_nodes r ++ seq (ir_next r) n) (ir_edges r ++ map (fun c => (c, a)) (seq (ir_next r) n))
     (ir_birth r) off (ir_conception r) (ir_mate r) (ir_litter r) (ir_draws r),
   map born (seq (ir_next r) n), true) /\ off a = ir_offspring r a + n /\ forall b, b <> a -> off b = ir_offspring r b.
Proof.
  induction n as [|n IH]; intros a r A M.
  - exists (ir_offspring r). cbn. rewrite !app_nil_r, !Nat.add_0_r. destruct r; auto.
  - cbn [births2 inew_node]. unfold iadd_edge at 1, ihas_node.
    cbn [ir_nodes ir_next ir_edges ir_birth ir_offspring ir_conception ir_mate ir_litter ir_draws].
    rewrite new_in_nodes, (in_nodes a _ _ A). cbn [andb ir_mate]. rewrite M.
    match goal with |- context [births2 n a ?x] => set (r2 := x) end.
    destruct (IH a r2) as (off & E & O1 & O2).
    + apply in_or_app. auto.
    + exact M.
    + exists off. rewrite E. cbn [r2 iset_offspring ir_nodes ir_next ir_edges ir_birth ir_offspring ir_conception ir_mate ir_litter ir_draws seq map].
      rewrite <- !app_assoc. cbn [app]. rewrite Nat.add_succ_r. split; [reflexivity|].
      cbn [r2 iset_offspring ir_offspring] in O1, O2. unfold set_at in O1, O2. rewrite Nat.eqb_refl in O1.
      split; [lia|]. intros b NE. rewrite O2 by auto. apply Nat.eqb_neq in NE. now rewrite NE.
Qed.
Lemma births2_both n : forall a m r, In a (ir_nodes r) -> ir_mate r a = Some m -> In m (ir_nodes r) -> m <> a ->
  exists off, births2 n a r =
  (IRest (ir_next r + n) (ir_nodes r ++ seq (ir_next r) n)
     (ir_edges r ++ flat_map (fun c => [(c, a); (c, m)]) (seq (ir_next r) n))
     (ir_birth r) off (ir_conception r) (ir_mate r) (ir_litter r) (ir_draws r),
   map born (seq (ir_next r) n), true) /\ off a = ir_offspring r a + n /\ off m = ir_offspring r m + n /\
  forall b, b <> a -> b <> m -> off b = ir_offspring r b.
Proof.
  induction n as [|n IH]; intros a m r A M B NE.
  - exists (ir_offspring r). cbn. rewrite !app_nil_r, !Nat.add_0_r. destruct r; auto.
  - cbn [births2 inew_node]. unfold iadd_edge at 1, ihas_node.
    cbn [ir_nodes ir_next ir_edges ir_birth ir_offspring ir_conception ir_mate ir_litter ir_draws].
    rewrite new_in_nodes, (in_nodes a _ _ A). cbn [andb ir_mate]. rewrite M. unfold iadd_edge, ihas_node.
    cbn [ir_nodes ir_next ir_edges ir_birth ir_offspring ir_conception ir_mate ir_litter ir_draws].
    rewrite new_in_nodes, (in_nodes m _ _ B). cbn [andb].
    match goal with |- context [births2 n a ?x] => set (r2 := x) end.
    destruct (IH a m r2) as (off & E & O1 & O2 & O3).
    + apply in_or_app. auto.
    + exact M.
    + apply in_or_app. auto.
    + exact NE.
    + exists off. rewrite E. cbn [r2 iset_offspring ir_nodes ir_next ir_edges ir_birth ir_offspring ir_conception ir_mate ir_litter ir_draws seq map flat_map].
      rewrite <- !app_assoc. cbn [app]. rewrite Nat.add_succ_r. split; [reflexivity|].
      cbn [r2 iset_offspring ir_offspring] in O1, O2, O3. unfold set_at in O1, O2, O3.
      assert (X : Nat.eqb a m = false) by (apply Nat.eqb_neq; auto).
      assert (Y : Nat.eqb m a = false) by (apply Nat.eqb_neq; auto).
      rewrite Nat.eqb_refl, X in O1. rewrite Nat.eqb_refl, Y in O2.
      split; [lia|]. split; [lia|]. intros b N1 N2. rewrite O3 by auto.
      apply Nat.eqb_neq in N1, N2. now rewrite N1, N2.
Qed.
Lemma births2_dead n a m r : In a (ir_nodes r) -> ir_mate r a = Some m -> ~ In m (ir_nodes r) -> m <> ir_next r ->
  births2 (S n) a r =
  (IRest (S (ir_next r)) (ir_nodes r ++ [ir_next r]) (ir_edges r ++ [(ir_next r, a)])
     (ir_birth r) (ir_offspring r) (ir_conception r) (ir_mate r) (ir_litter r) (ir_draws r),
   [born (ir_next r)], false).
Proof.
  intros A M B NE. cbn [births2 inew_node]. unfold iadd_edge at 1, ihas_node.
  cbn [ir_nodes ir_next ir_edges ir_birth ir_offspring ir_conception ir_mate ir_litter ir_draws].
  rewrite new_in_nodes, (in_nodes a _ _ A). cbn [andb ir_mate]. rewrite M. unfold iadd_edge, ihas_node.
  cbn [ir_nodes ir_next ir_edges ir_birth ir_offspring ir_conception ir_mate ir_litter ir_draws].
  rewrite new_in_nodes.
  replace (existsb (Nat.eqb m) (ir_nodes r ++ [ir_next r])%list) with false by (symmetry; now apply not_in_nodes). reflexivity.
Qed.

Section Rabbits.
Context {AR : Arith}.
Variable who : aid -> role.
Variable p : iparams.
Variable litter_of : num -> nat.
Variable times : num -> nat -> num.
Notation code := (rabbit2_code who p litter_of times).

(** A pregnant rabbit at term. *)
Lemma at_term2 s a w b t : ir_birth (fw_rest w) a = Some b -> ir_conception (fw_rest w) a = Some t ->
  n_ltb (ip_life p) (since b s) = false -> n_leb (ip_gestation p) (since t s) = true ->
  c_resume code s a (c_start code (st_fun pregnant)) w =
  let '(r1, ops, fine) := births2 (ir_litter (fw_rest w) a) a (fw_rest w) in
  if fine then (iset_mate r1 a None, ops, GReturn (PState fertile_female)) else (r1, ops, GRaise false).
Proof.
  intros B T Y G. cbn [pregnant st_fun c_start rabbit2_code c_resume]. unfold pregnant2_fn, age, pregnancy. rewrite B, T.
  unfold since in *. unfold minus. now rewrite Y, G.
Qed.

(** A litter with two parents. *)
Lemma two_parents fs s w c a m b t : living w c a pregnant ->
  ir_birth (fw_rest w) a = Some b -> n_ltb (ip_life p) (since b s) = false ->
  ir_conception (fw_rest w) a = Some t -> n_leb (ip_gestation p) (since t s) = true ->
  In a (ir_nodes (fw_rest w)) -> ir_mate (fw_rest w) a = Some m -> In m (ir_nodes (fw_rest w)) -> m <> a ->
  let r := fw_rest w in let children := seq (ir_next r) (ir_litter r a) in
  exists w' c', agent_step code fs s a (w, c) = (w', c', map (fun x => SAdd x None) children, Ret None) /\
  let r' := fw_rest w' in
  ir_nodes r' = (ir_nodes r ++ children)%list /\
  ir_edges r' = (ir_edges r ++ flat_map (fun x => [(x, a); (x, m)]) children)%list /\
  ir_offspring r' a = ir_offspring r a + ir_litter r a /\ ir_offspring r' m = ir_offspring r m + ir_litter r a /\
  (forall x, x <> a -> x <> m -> ir_offspring r' x = ir_offspring r x) /\
  ir_mate r' a = None /\ living w' c' a fertile_female.
Proof.
  intros L B Y T G NA MA NM NE r children.
  destruct (births2_both (ir_litter r a) a m r NA MA NM NE) as (off & E & O1 & O2 & O3).
  pose proof (at_term2 s a w b t B T Y G) as CR. fold r in CR. rewrite E in CR. cbn iota in CR.
  destruct (return_step code fs s a w c _ _ _ _ L CR (pv_state _)) as (w' & c' & S & R & O & SA & GC).
  exists w', c'. split; [exact S|]. cbv zeta. rewrite R.
  cbn [iset_mate ir_nodes ir_next ir_edges ir_birth ir_offspring ir_conception ir_mate ir_litter ir_draws].
  repeat (split; [solve [auto]|]). split.
  - unfold set_at. now rewrite Nat.eqb_refl.
  - eapply living_after; eauto.
Qed.

(** The father has died. *)
Lemma dead_father fs s w c a m b t : living w c a pregnant ->
  ir_birth (fw_rest w) a = Some b -> n_ltb (ip_life p) (since b s) = false ->
  ir_conception (fw_rest w) a = Some t -> n_leb (ip_gestation p) (since t s) = true ->
  In a (ir_nodes (fw_rest w)) -> ir_mate (fw_rest w) a = Some m ->
  ~ In m (ir_nodes (fw_rest w)) -> (m < ir_next (fw_rest w))%nat -> (0 < ir_litter (fw_rest w) a)%nat ->
  let r := fw_rest w in
  exists w' c', agent_step code fs s a (w, c) = (w', c', [SAdd (ir_next r) None], Exc) /\
  let r' := fw_rest w' in
  ir_nodes r' = (ir_nodes r ++ [ir_next r])%list /\ ir_edges r' = (ir_edges r ++ [(ir_next r, a)])%list /\
  ir_offspring r' = ir_offspring r /\ ir_mate r' = ir_mate r /\ fw_agents w' = fw_agents w.
Proof.
  intros L B Y T G NA MA NM LT LI r. destruct (ir_litter (fw_rest w) a) as [|n] eqn:LN; [lia|].
  pose proof (births2_dead n a m r NA MA NM) as E. rewrite <- LN in E.
  pose proof (at_term2 s a w b t B T Y G) as CR. fold r in CR, E. rewrite E in CR by (fold r in LT; lia). cbn iota in CR.
  destruct (raise_step code fs s a w c _ _ [ir_next r] L CR) as (c' & S).
  eexists. exists c'. split; [exact S|]. cbn. auto.
Qed.

(** Litters without mating. *)
Lemma again fs a b t : forall k l w c, List.length l = 2 * k -> living w c a fertile_female ->
  In a (ir_nodes (fw_rest w)) -> ir_mate (fw_rest w) a = None ->
  ir_birth (fw_rest w) a = Some b -> ir_conception (fw_rest w) a = Some t ->
  (forall s, In s l -> n_ltb (ip_life p) (since b s) = false /\ n_leb (ip_gestation p) (since t s) = true) ->
  let r := fw_rest w in let children := seq (ir_next r) (k * ir_litter r a) in
  exists w' c', acts code fs a l (w, c) = (w', c', map (fun x => SAdd x None) children, repeat (Ret None) (2 * k)) /\
  let r' := fw_rest w' in
  ir_nodes r' = (ir_nodes r ++ children)%list /\ ir_offspring r' a = ir_offspring r a + k * ir_litter r a /\
  ir_conception r' a = Some t /\ living w' c' a fertile_female.
Proof.
  induction k as [|k IH]; intros l w c LN L NA MA B T AL r children.
  - destruct l; [|discriminate LN]. exists w, c. cbn. rewrite app_nil_r, Nat.add_0_r. auto.
  - destruct l as [|s1 [|s2 l]]; cbn [List.length] in LN; try lia.
    destruct (AL s1) as [Y1 G1]; [cbn; auto|]. destruct (AL s2) as [Y2 G2]; [cbn; auto|].
    assert (CR1 : c_resume code s1 a (c_start code (st_fun fertile_female)) w = (fw_rest w, map born [], GReturn (PState pregnant))).
    { cbn [fertile_female st_fun c_start rabbit2_code c_resume]. unfold fertile_female2_fn, age. rewrite B, T.
      unfold since in Y1. unfold minus. now rewrite Y1. }
    destruct (return_step code fs s1 a w c _ _ _ _ L CR1 (pv_state _)) as (w1 & c1 & S1 & R1 & _ & SA1 & GC1).
    assert (L1 : living w1 c1 a pregnant) by (eapply living_after; eauto).
    rewrite <- R1 in B, T, NA, MA.
    destruct (births2_alone (ir_litter (fw_rest w1) a) a (fw_rest w1) NA MA) as (off & E & O1 & O2).
    pose proof (at_term2 s2 a w1 b t B T Y2 G2) as CR2. rewrite E in CR2. cbn iota in CR2.
    destruct (return_step code fs s2 a w1 c1 _ _ _ _ L1 CR2 (pv_state _)) as (w2 & c2 & S2 & R2 & _ & SA2 & GC2).
    assert (L2 : living w2 c2 a fertile_female) by (eapply living_after; eauto).
    destruct (IH l w2 c2) as (w' & c' & S3 & N3 & O3 & T3 & L3); auto.
    { lia. }
    { rewrite R2. cbn. apply in_or_app. auto. }
    { rewrite R2. cbn. unfold set_at. now rewrite Nat.eqb_refl. }
    { rewrite R2. exact B. }
    { rewrite R2. exact T. }
    { intros s I. apply AL. cbn. auto. }
    exists w', c'. cbn [acts]. rewrite S1, S2, S3. cbn [app map].
    assert (X : children = (seq (ir_next (fw_rest w1)) (ir_litter (fw_rest w1) a) ++ seq (ir_next (fw_rest w2)) (k * ir_litter (fw_rest w2) a))%list).
    { unfold children, r. rewrite R2, R1. cbn [iset_mate ir_next ir_litter]. cbn [Nat.mul]. now rewrite <- seq_app. }
    rewrite X, map_app. split; [|split; [|split; [|split]]].
    + rewrite Nat.mul_succ_r, Nat.add_comm. reflexivity.
    + rewrite N3, R2. cbn [iset_mate ir_nodes ir_next ir_litter]. unfold r. rewrite R1, app_assoc. reflexivity.
    + rewrite O3, R2. cbn [iset_mate ir_offspring ir_litter]. rewrite O1, R1. fold r. lia.
    + exact T3.
    + exact L3.
Qed.

(** Growing up. *)
Lemma first_day fs s w c a : living w c a newborn ->
  exists w' c', agent_step code fs s a (w, c) =
    (w', c', [], Ret (Some (n_add (ip_maturity p) (n_opp (since (s_time s) s))))) /\
  ir_birth (fw_rest w') a = Some (s_time s) /\ ir_offspring (fw_rest w') a = 0 /\
  (forall b, b <> a -> ir_birth (fw_rest w') b = ir_birth (fw_rest w) b) /\ living w' c' a youngling.
Proof.
  intros L.
  assert (CR : c_resume code s a (c_start code (st_fun newborn)) w =
    (iset_offspring (iset_birth (fw_rest w) a (Some (s_time s))) a 0, map born [],
     GReturn (PTuple [PState youngling; PNum (n_add (ip_maturity p) (n_opp (since (s_time s) s)))]))).
  { cbn [newborn st_fun c_start rabbit2_code c_resume]. unfold newborn2_fn, age. cbv zeta. cbn [iset_offspring iset_birth ir_birth].
    unfold set_at. rewrite Nat.eqb_refl. reflexivity. }
  destruct (return_step code fs s a w c _ _ _ _ L CR (pv_both _ _)) as (w' & c' & E & R & O & SA & GC).
  exists w', c'. split; [exact E|]. rewrite R. cbn [iset_offspring iset_birth ir_birth ir_offspring]. unfold set_at.
  rewrite Nat.eqb_refl. split; auto. split; auto. split; [|eapply living_after; eauto].
  intros b NE. apply Nat.eqb_neq in NE. now rewrite NE.
Qed.
Lemma grown_up fs s w c a t : living w c a youngling -> ir_birth (fw_rest w) a = Some t ->
  exists w' c', agent_step code fs s a (w, c) = (w', c', [], Ret None) /\ fw_rest w' = fw_rest w /\
  living w' c' a (if n_leb (ip_maturity p) (since t s) then own_fertile (who a) else youngling).
Proof.
  intros L B.
  assert (CR : c_resume code s a (c_start code (st_fun youngling)) w = (fw_rest w, map born [],
    GReturn (if n_leb (ip_maturity p) (since t s) then PState (own_fertile (who a)) else PNone))).
  { cbn [youngling st_fun c_start rabbit2_code c_resume]. unfold youngling2_fn, age. rewrite B. unfold since, minus.
    destruct (n_leb _ _); reflexivity. }
  destruct (n_leb (ip_maturity p) (since t s));
    edestruct (return_step code fs s a w c _ _ _ _ L CR) as (w' & c' & E & R & O & SA & GC); try constructor;
    exists w', c'; (split; [exact E|]); (split; [exact R|]); eapply living_after; eauto.
Qed.

(** Mating. *)
Lemma candidates2_meets s (w : fworld rfun irest) : candidates2 who p s (fw_agents w) = meets who (ip_females p) s w.
Proof.
  unfold candidates2, meets. f_equal. apply filter_ext. intros b.
  destruct (who b); cbn; auto; destruct (fa_cur _); auto.
Qed.
(** Everything but the draws. *)
Definition but_draws (r r' : irest) : Prop :=
  ir_next r' = ir_next r /\ ir_nodes r' = ir_nodes r /\ ir_edges r' = ir_edges r /\ ir_birth r' = ir_birth r /\
  ir_offspring r' = ir_offspring r.
Lemma court2_chosen s a D l : forall i r, (forall k, ir_draws r k = D (i + k)) ->
  let r' := court2 p litter_of s a l r in but_draws r r' /\
  match chosen (ip_mating p) D i l with
  | None => ir_conception r' = ir_conception r /\ ir_mate r' = ir_mate r /\ ir_litter r' = ir_litter r
  | Some (k, f) => ir_conception r' = set_at (ir_conception r) f (Some (s_time s)) /\
      ir_mate r' = set_at (ir_mate r) f (Some a) /\ ir_litter r' = set_at (ir_litter r) f (litter_of (D (S k)))
  end.
Proof.
  induction l as [|f l IH]; intros i r H; cbn [court2 chosen].
  - unfold but_draws. auto 10.
  - cbn [idraw]. unfold prob. rewrite (H 0), Nat.add_0_r.
    destruct (n_ltb (D i) (ip_mating p)).
    + unfold impregnate2, but_draws. cbn [idraw iset_conception iset_mate iset_litter ir_draws ir_next ir_nodes ir_edges ir_birth ir_offspring ir_conception ir_mate ir_litter].
      rewrite (H 1). replace (i + 1) with (S i) by lia. auto 10.
    + match goal with |- context [court2 p litter_of s a l ?x] => pose proof (IH (S i) x) as X end.
      cbv zeta in X. apply X. intros k. cbn [ir_draws]. rewrite H. f_equal. lia.
Qed.
Lemma mating fs s w c a b : living w c a fertile_male ->
  ir_birth (fw_rest w) a = Some b -> n_ltb (ip_life p) (since b s) = false ->
  exists w' c', agent_step code fs s a (w, c) = (w', c', [], Ret None) /\ living w' c' a fertile_male /\
  let r := fw_rest w in let r' := fw_rest w' in
  ir_nodes r' = ir_nodes r /\ ir_edges r' = ir_edges r /\ ir_offspring r' = ir_offspring r /\
  match chosen (ip_mating p) (ir_draws r) 0 (meets who (ip_females p) s w) with
  | None => forall x, ir_conception r' x = ir_conception r x /\ ir_mate r' x = ir_mate r x /\ ir_litter r' x = ir_litter r x
  | Some (k, f) =>
      ir_conception r' f = Some (s_time s) /\ ir_mate r' f = Some a /\ ir_litter r' f = litter_of (ir_draws r (S k)) /\
      forall x, x <> f ->
        ir_conception r' x = ir_conception r x /\ ir_mate r' x = ir_mate r x /\ ir_litter r' x = ir_litter r x
  end.
Proof.
  intros L B Y.
  assert (CR : c_resume code s a (c_start code (st_fun fertile_male)) w =
    (court2 p litter_of s a (meets who (ip_females p) s w) (fw_rest w), map born [], GReturn PNone)).
  { cbn [fertile_male st_fun c_start rabbit2_code c_resume]. unfold fertile_male2_fn, age. rewrite B. unfold since in Y. unfold minus.
    now rewrite Y, candidates2_meets. }
  destruct (return_step code fs s a w c _ _ _ _ L CR pv_none) as (w' & c' & E & R & O & SA & GC).
  exists w', c'. split; [exact E|]. split; [eapply living_after; eauto|]. cbv zeta. rewrite R.
  destruct (court2_chosen s a (ir_draws (fw_rest w)) (meets who (ip_females p) s w) 0 (fw_rest w)) as ((_ & H1 & H2 & _ & H4) & H5); auto.
  split; auto. split; auto. split; auto.
  destruct (chosen _ _ _ _) as [[k f]|]; destruct H5 as (-> & -> & ->); auto.
  unfold set_at. rewrite Nat.eqb_refl. repeat (split; auto). all: apply Nat.eqb_neq in H; now rewrite H.
Qed.
End Rabbits.

(** ** Mating of the basic rabbits *)
Section Basic.
Variable who : aid -> role.
Variable p : rparams.
Variable litter_of : num -> nat.
Variable times : num -> nat -> num.
Notation code := (rabbit_code who p litter_of times).
Lemma candidates_meets s (w : fworld rfun rrest) : candidates who p s (fw_agents w) = meets who (p_females p) s w.
Proof.
  unfold candidates, meets. f_equal. apply filter_ext. intros b.
  destruct (who b); cbn; auto; destruct (fa_cur _); auto.
Qed.
Lemma court_chosen a D l : forall i r, (forall k, rr_draws r k = D (i + k)) ->
  let r' := court p litter_of a l r in
  (rr_nodes r' = rr_nodes r /\ rr_edges r' = rr_edges r /\ rr_offspring r' = rr_offspring r) /\
  match chosen (p_mating p) D i l with
  | None => rr_pregnancy r' = rr_pregnancy r /\ rr_mate r' = rr_mate r /\ rr_litter r' = rr_litter r
  | Some (k, f) => rr_pregnancy r' = set_at (rr_pregnancy r) f 0%Z /\
      rr_mate r' = set_at (rr_mate r) f (Some a) /\ rr_litter r' = set_at (rr_litter r) f (litter_of (D (S k)))
  end.
Proof.
  induction l as [|f l IH]; intros i r H; cbn [court chosen].
  - auto 10.
  - cbn [draw]. unfold prob. rewrite (H 0), Nat.add_0_r.
    destruct (n_ltb (D i) (p_mating p)).
    + unfold impregnate. cbn [draw set_pregnancy set_mate set_litter rr_draws rr_next rr_nodes rr_edges rr_age rr_offspring rr_pregnancy rr_mate rr_litter].
      rewrite (H 1). replace (i + 1) with (S i) by lia. auto 10.
    + match goal with |- context [court p litter_of a l ?x] => pose proof (IH (S i) x) as X end.
      cbv zeta in X. apply X. intros k. cbn [rr_draws]. rewrite H. f_equal. lia.
Qed.
Lemma basic_mating fs s w c a : living w c a fertile_male -> (rr_age (fw_rest w) a < p_life p)%nat ->
  exists w' c', agent_step code fs s a (w, c) = (w', c', [], Ret None) /\ living w' c' a fertile_male /\
  let r := fw_rest w in let r' := fw_rest w' in
  rr_nodes r' = rr_nodes r /\ rr_edges r' = rr_edges r /\ rr_offspring r' = rr_offspring r /\
  match chosen (p_mating p) (rr_draws r) 0 (meets who (p_females p) s w) with
  | None => forall x, rr_pregnancy r' x = rr_pregnancy r x /\ rr_mate r' x = rr_mate r x /\ rr_litter r' x = rr_litter r x
  | Some (k, f) =>
      rr_pregnancy r' f = 0%Z /\ rr_mate r' f = Some a /\ rr_litter r' f = litter_of (rr_draws r (S k)) /\
      forall x, x <> f ->
        rr_pregnancy r' x = rr_pregnancy r x /\ rr_mate r' x = rr_mate r x /\ rr_litter r' x = rr_litter r x
  end.
Proof.
  intros L Y. set (r0 := set_age (fw_rest w) a (S (rr_age (fw_rest w) a))).
  assert (CR : c_resume code s a (c_start code (st_fun fertile_male)) w =
    (court p litter_of a (meets who (p_females p) s w) r0, map born [], GReturn PNone)).
  { cbn [fertile_male st_fun c_start rabbit_code c_resume]. unfold fertile_male_fn. cbv zeta. fold r0.
    replace (rr_age r0 a) with (S (rr_age (fw_rest w) a)) by (cbn; unfold set_at; now rewrite Nat.eqb_refl).
    replace (p_life p <? S (rr_age (fw_rest w) a))%nat with false by (symmetry; apply Nat.ltb_ge; lia).
    now rewrite candidates_meets. }
  destruct (return_step code fs s a w c _ _ _ _ L CR pv_none) as (w' & c' & E & R & O & SA & GC).
  exists w', c'. split; [exact E|]. split; [eapply living_after; eauto|]. cbv zeta. rewrite R.
  destruct (court_chosen a (rr_draws (fw_rest w)) (meets who (p_females p) s w) 0 r0) as ((H1 & H2 & H4) & H5); auto.
  split; auto. split; auto. split; auto.
  destruct (chosen _ _ _ _) as [[k f]|]; destruct H5 as (-> & -> & ->); auto.
  unfold set_at. rewrite Nat.eqb_refl. repeat (split; auto). all: apply Nat.eqb_neq in H; cbn [r0 set_age rr_pregnancy rr_mate rr_litter]; now rewrite H.
Qed.
End Basic.

(** The one that is chosen. *)
Lemma chosen_spec mating (draws : nat -> num) l : forall i,
  match chosen mating draws i l with
  | None => forall k, (k < List.length l)%nat -> n_ltb (draws (i + k)) mating = false
  | Some (n, f) => exists k, n = i + k /\ nth_error l k = Some f /\ n_ltb (draws n) mating = true /\
      forall j, (j < k)%nat -> n_ltb (draws (i + j)) mating = false
  end.
Proof.
  induction l as [|f l IH]; intros i; cbn [chosen List.length].
  - intros k H. lia.
  - destruct (n_ltb (draws i) mating) eqn:E.
    + exists 0. rewrite Nat.add_0_r. split; auto. split; auto. split; auto. intros j H. lia.
    + specialize (IH (S i)). destruct (chosen mating draws (S i) l) as [[n g]|].
      * destruct IH as (k & -> & N & T & H). exists (S k). split; [lia|]. split; auto. split; [exact T|].
        intros j J. destruct j as [|j]; [now rewrite Nat.add_0_r|]. replace (i + S j) with (S i + j) by lia. apply H. lia.
      * intros k H. destruct k as [|k]; [now rewrite Nat.add_0_r|]. replace (i + S k) with (S i + k) by lia. apply IH. lia.
Qed.

(** ** Reports *)
Lemma reports_zero who s : reports (fun a => class2_of (who a)) s = (0, 0, 0).
Proof.
  assert (H : forall c, In c [rabbit_class; male_class; female_class] -> count_class (fun a => class2_of (who a)) s c = 0).
  { intros c I. unfold count_class. replace (filter _ (s_reg s)) with (@nil aid); auto. symmetry.
    induction (s_reg s) as [|x l IH]; auto. cbn [filter].
    replace (subclass (class2_of (who x)) (c_id c)) with false; auto.
    destruct I as [<-|[<-|[<-|[]]]]; destruct (who x); reflexivity. }
  unfold reports. rewrite !H; cbn; auto.
Qed.
Lemma reports_basic who p litter_of times s w c : RabbitSpec.reached who p litter_of times s w c ->
  let '(rabbits, males, females) := reports (fun a => class_of (who a)) s in
  rabbits = List.length (rr_nodes (fw_rest w)) /\ rabbits = males + females /\
  males = List.length (filter (fun a => match who a with Male => true | _ => false end) (rr_nodes (fw_rest w))).
Proof.
  intros R. destruct (network_of_the_living _ _ _ _ _ _ _ R) as (N1 & N2 & N3 & _ & _ & N4).
  unfold reports, count_class.
  assert (X : forall f g, (forall k, f k = g k) -> filter (fun a => f (who a)) (s_reg s) = filter (fun a => g (who a)) (s_reg s)).
  { intros f g H. apply filter_ext. intros a. apply H. }
  rewrite (X (fun k => subclass (class_of k) (c_id rabbit_class)) (fun k => match k with Accident => false | _ => true end)) by (intros []; reflexivity).
  rewrite (X (fun k => subclass (class_of k) (c_id male_class)) (fun k => match k with Male => true | _ => false end)) by (intros []; reflexivity).
  rewrite (X (fun k => subclass (class_of k) (c_id female_class)) (fun k => match k with Female => true | _ => false end)) by (intros []; reflexivity).
  split; [exact N4|]. split.
  - clear. induction (s_reg s) as [|a l IH]; auto. cbn [filter]. destruct (who a); cbn [List.length]; lia.
  - apply Permutation_length. apply NoDup_Permutation.
    + now apply NoDup_filter.
    + now apply NoDup_filter.
    + intros a. rewrite !filter_In, N3. destruct (who a); split; intros H; intuition congruence.
Qed.

(** ** What only males change *)
Lemma run_fops_rest {F W} s ops : forall (w w1 : fworld F W) l, run_fops s ops w = (w1, l) -> fw_rest w1 = fw_rest w.
Proof.
  induction ops as [|op ops IH]; cbn [run_fops]; intros w w1 l E.
  - now injection E as <- <-.
  - destruct op as [b|b v|op].
    + destruct (run_fops s ops _) as [w2 l2] eqn:E2. injection E as <- <-. now rewrite (IH _ _ _ E2).
    + rewrite (IH _ _ _ E). unfold call_set_state. destruct (n_ltb _ _); auto. destruct (fa_kind _); auto. destruct (set_state _ _ _); auto.
    + destruct (run_fops s ops w) as [w2 l2] eqn:E2. injection E as <- <-. eauto.
Qed.
Lemma inside_rest {F Q W} (u : code F Q W) s a q w w' l g : inside u s a q w = (w', l, g) ->
  fw_rest w' = fst (fst (c_resume u s a q w)).
Proof.
  unfold inside. destruct (c_resume u s a q w) as [[r ops] o]. destruct (run_fops s ops _) as [w1 l1] eqn:RF.
  apply run_fops_rest in RF. cbn [fw_rest fst] in RF. cbn [fst].
  destruct o as [v q'|v|d]; try (intros E; injection E as <- <- <-; exact RF).
  destruct (fa_kind _) as [states|f]; [|intros E; injection E as <- <- <-; exact RF].
  unfold finish. destruct (unpack2 v) as [[x y]|]; destruct (set_state _ _ _); intros E; injection E as <- <- <-; exact RF.
Qed.
(** Where the rest of the world comes from. *)
Lemma step_rest {F Q W} (u : code F Q W) fs s a w c w' c' l o : get_co c a = None ->
  agent_step u fs s a (w, c) = (w', c', l, o) ->
  fw_rest w' = fw_rest w \/
  exists f, (fa_kind (fw_agents w a) = KPlain f \/ exists states st, fa_kind (fw_agents w a) = KFsm states /\
               fa_cur (fw_agents w a) = Some st /\ st_fun st = f) /\
            fw_rest w' = fst (fst (c_resume u s a (c_start u f) w)).
Proof.
  intros G. unfold agent_step, decorated. cbn [fst snd]. rewrite G. cbn [send].
  destruct (step_gen u s a FStart w) as [[w1 l1] g] eqn:SG. intros E.
  assert (X : w' = w1).
  { destruct g as [v q|v|[]]; injection E as <- _ _ _; reflexivity. }
  subst w1. clear E. cbn [step_gen] in SG. destruct (fa_kind (fw_agents w a)) as [states|f].
  - destruct (fa_alive (fw_agents w a)); cbn [negb] in SG; [|injection SG as <- <- <-; auto].
    destruct (fa_cur (fw_agents w a)) as [st|]; [|injection SG as <- <- <-; auto].
    right. exists (st_fun st). split; [right; eauto 6|]. eapply inside_rest; eauto.
  - right. exists f. split; auto. eapply inside_rest; eauto.
Qed.
Lemma births2_conception n : forall a r, ir_conception (fst (fst (births2 n a r))) = ir_conception r.
Proof.
  induction n as [|n IH]; intros a r; auto. cbn [births2 inew_node]. unfold iadd_edge at 1.
  destruct (_ && _); auto. cbn [ir_mate].
  assert (GO : forall r2 (x : fop rfun), ir_conception (fst (fst (let '(r4, ops, fine) := births2 n a (iset_offspring r2 a (S (ir_offspring r2 a))) in (r4, x :: ops, fine)))) = ir_conception r2).
  { intros r2 x. specialize (IH a (iset_offspring r2 a (S (ir_offspring r2 a)))). destruct (births2 n a _) as [[r4 ops] fine]. exact IH. }
  destruct (ir_mate r a) as [m|]; [|rewrite GO; reflexivity].
  unfold iadd_edge. destruct (_ && _); auto. rewrite GO. reflexivity.
Qed.
Lemma accidents2_conception risk ag l : forall r, ir_conception (fst (accidents2 risk ag l r)) = ir_conception r.
Proof.
  induction l as [|b l IH]; intros r; auto. cbn [accidents2 idraw].
  destruct (match fa_cur (ag b) with Some st => _ | None => _ end); [apply IH|].
  destruct (prob _ _); [|rewrite IH; reflexivity]. unfold inet_die. destruct (fa_alive (ag b)).
  - match goal with |- context [accidents2 risk ag l ?x] => specialize (IH x); destruct (accidents2 risk ag l x) as [r3 o3] end. exact IH.
  - match goal with |- context [accidents2 risk ag l ?x] => specialize (IH x); destruct (accidents2 risk ag l x) as [r3 o3] end. exact IH.
Qed.
Lemma only_males_conceive {AR : Arith} who p litter_of times fs s w c a w' c' l o : get_co c a = None ->
  fa_kind (fw_agents w a) <> KPlain RFertileMale ->
  (forall st, fa_cur (fw_agents w a) = Some st -> st_fun st <> RFertileMale) ->
  agent_step (rabbit2_code who p litter_of times) fs s a (w, c) = (w', c', l, o) ->
  ir_conception (fw_rest w') = ir_conception (fw_rest w).
Proof.
  intros G NP NS E. destruct (step_rest _ fs s a w c w' c' l o G E) as [->|(f & H & ->)]; auto.
  assert (NF : f <> RFertileMale) by (destruct H as [H|(states & st & _ & C & <-)]; [congruence|auto]).
  clear - NF. cbn [rabbit2_code c_start c_resume]. set (r := fw_rest w).
  destruct f; try congruence; auto.
  - unfold newborn2_fn. cbv zeta. destruct (age _ _ _); reflexivity.
  - unfold youngling2_fn. destruct (age _ _ _); reflexivity.
  - unfold fertile_female2_fn. destruct (age _ _ _); auto. destruct (n_ltb _ _); auto. destruct (ir_conception r a); auto.
  - unfold pregnant2_fn. destruct (age _ _ _); auto. destruct (n_ltb _ _).
    { unfold inet_die. destruct (fa_alive _); reflexivity. }
    destruct (pregnancy _ _ _); auto. destruct (n_leb _ _); auto.
    pose proof (births2_conception (ir_litter r a) a r) as X. destruct (births2 _ _ _) as [[r1 ops] [|]]; exact X.
  - unfold inet_die. destruct (fa_alive _); reflexivity.
  - unfold accident2_fn. cbv zeta. destruct (Nat.eqb _ _); auto.
    match goal with |- context [accidents2 ?x ?y ?z r] => pose proof (accidents2_conception x y z r) as X; destruct (accidents2 x y z r) end. exact X.
Qed.
