(** Proofs about the patrons and the police. *)
From Coq Require Import ZArith List Bool Arith String Lia Permutation.
From Verif Require Import Num PyDict TimedModel TimedProofs AgentModel AgentProofs FsmModel FsmSpec FsmProofs PlainProofs InvProofs
  PubModel PubSpec PubProofs PatronModel PatronSpec.
Import ListNotations.
Local Open Scope string_scope.

Section Patrons.
Variable openness : aid -> num.
Variable max_pints : aid -> Z.
Variable tenfold : num -> nat.
Variable mix : (nat -> num) -> list aid -> (nat -> num) * list aid.
Notation code := (patron_code openness max_pints tenfold mix).

(** ** Making friends *)
Definition loops_only (l l' : list (aid * aid)) : Prop :=
  exists new, l' = (new ++ l)%list /\ forall e, In e new -> fst e = snd e.
Lemma loops_refl l : loops_only l l.
Proof. exists []. split; auto. intros e []. Qed.
Lemma loops_trans l1 l2 l3 : loops_only l1 l2 -> loops_only l2 l3 -> loops_only l1 l3.
Proof.
  intros (n1 & -> & H1) (n2 & -> & H2). exists (n2 ++ n1)%list. split; [apply app_assoc|].
  intros e J. apply in_app_or in J. destruct J; auto.
Qed.
Lemma loops_cons a l : loops_only l ((a, a) :: l).
Proof. exists [(a, a)]. split; auto. intros e [<-|[]]. reflexivity. Qed.
Lemma loops_in l l' e : loops_only l l' -> In e l -> In e l'.
Proof. intros (n & -> & _) J. apply in_or_app. auto. Qed.
Lemma loops_joined l l' a b : loops_only l l' -> a <> b -> joined l' a b <-> joined l a b.
Proof.
  intros (n & -> & H) NE. unfold joined. rewrite !in_app_iff. split; [|tauto].
  intros [[J|J]|[J|J]]; auto; apply H in J; cbn in J; congruence.
Qed.

(** Nothing but the network and the generator. *)
Definition quiet (r r' : prest) : Prop :=
  pr_city r' = pr_city r /\ pr_pints r' = pr_pints r /\ pr_drunk r' = pr_drunk r /\ pr_kicked r' = pr_kicked r /\
  loops_only (pr_edges r) (pr_edges r').
Lemma quiet_refl r : quiet r r.
Proof. unfold quiet. auto using loops_refl. Qed.
Lemma quiet_trans r1 r2 r3 : quiet r1 r2 -> quiet r2 r3 -> quiet r1 r3.
Proof.
  intros (A1 & A2 & A3 & A4 & A5) (B1 & B2 & B3 & B4 & B5).
  unfold quiet. rewrite B1, B2, B3, B4. eauto 6 using loops_trans.
Qed.
Lemma befriend_quiet self other force r r' b : befriend openness self other force r = (r', b) ->
  quiet r r' /\ (b = true -> In (self, self) (pr_edges r')).
Proof.
  unfold befriend, add_edge, draw. intros E.
  assert (Q : forall d, quiet r (set_draws r d)) by (intros d; unfold quiet; cbn; auto using loops_refl).
  assert (A : forall x, quiet x (set_edges x ((self, self) :: pr_edges x)))
    by (intros x; unfold quiet; cbn; auto using loops_cons).
  destruct force; [injection E as <- <-; split; auto; intros _; left; reflexivity|].
  destruct (n_ltb _ _); injection E as <- <-; (split; [|try discriminate]); auto.
  - refine (quiet_trans _ _ _ (Q _) (A _)).
  - intros _. left. reflexivity.
Qed.
Lemma each_quiet self l : forall b r r' b', each_friend openness self l b r = (r', b') ->
  quiet r r' /\ (b' = true -> b = true \/ In (self, self) (pr_edges r')).
Proof.
  induction l as [|f l IH]; cbn [each_friend]; intros b r r' b' E.
  - injection E as <- <-. split; auto using quiet_refl.
  - destruct (Nat.eqb f self); [now apply IH|].
    destruct (befriend openness f self false r) as [r1 yes] eqn:E1. apply befriend_quiet in E1 as [Q1 _].
    destruct yes.
    + destruct (befriend openness self f true r1) as [r2 y2] eqn:E2. cbn [fst] in E.
      assert (y2 = true) as -> by (cbn in E2; now injection E2).
      apply befriend_quiet in E2 as [Q2 I2]. destruct (IH _ _ _ _ E) as [Q3 _]. split; [eauto using quiet_trans|].
      intros _. right. destruct Q3 as (_ & _ & _ & _ & Q3). eapply loops_in; eauto.
    + destruct (IH _ _ _ _ E) as [Q3 I3]. split; [eauto using quiet_trans|exact I3].
Qed.
Lemma friends_quiet s ag a r r' g : friends_fn openness tenfold mix s ag a r = (r', g) ->
  quiet r r' /\ (g = GReturn PNone \/ g = GReturn (PState looking_for_pub) /\ In (a, a) (pr_edges r') \/
    g = GReturn (PState at_home) /\
    filter (no_pub r) (filter (state_is ag "looking_for_friends") (s_reg s)) = []).
Proof.
  unfold friends_fn. set (l0 := filter (no_pub r) (filter (state_is ag "looking_for_friends") (s_reg s))).
  assert (ID : filter (no_pub r) l0 = l0).
  { assert (H : forall x, In x l0 -> no_pub r x = true) by (intros x J; now apply filter_In in J).
    revert H. induction l0 as [|x l IH]; intros H; cbn; auto. rewrite (H x) by now left. f_equal. apply IH. intros y J. apply H. now right. }
  rewrite ID. destruct l0 as [|x l] eqn:E0.
  - intros [= <- <-]. split; auto using quiet_refl.
  - unfold try_friends. destruct (mix (pr_draws r) (x :: l)) as [d m].
    destruct (each_friend openness a _ false (set_draws r d)) as [r1 b] eqn:E1. intros [= <- <-].
    apply each_quiet in E1 as [Q I]. split.
    + eapply quiet_trans; [|exact Q]. unfold quiet. cbn. auto using loops_refl.
    + destruct b; auto. right. left. split; auto. destruct (I eq_refl); auto. discriminate.
Qed.

(** ** The code *)
Lemma plain_patrons : plain_code code.
Proof.
  intros s a q w r ops g E. cbn [c_resume patron_code] in E.
  destruct q; cbn in E.
  - destruct (friends_fn _ _ _ _ _ _ _) as [r1 g1] eqn:E1. injection E as <- <- <-.
    apply friends_quiet in E1 as [_ [->|[[-> _]|[-> _]]]]; constructor.
  - unfold pub_fn in E. destruct (PubModel.looking_for_pub _ _ _) as [c [[|]|]]; injection E as <- <- <-; constructor.
  - injection E as <- <- <-. destruct (Z.ltb _ _); constructor.
  - injection E as <- <- <-. match goal with |- context [if ?b then PState at_home else _] => destruct b end; constructor.
  - injection E as <- <- <-. constructor.
  - injection E as <- <- <-. constructor.
  - injection E as <- <- <-. constructor.
Qed.
Lemma no_ops s a q w : snd (fst (c_resume code s a q w)) = [].
Proof. cbn [c_resume patron_code]. destruct (match q with PFriends => _ | _ => _ end). reflexivity. Qed.

(** ** The network, in any history *)
Lemma edges_resume s a q w r ops g : c_resume code s a q w = (r, ops, g) -> loops_only (pr_edges (fw_rest w)) (pr_edges r).
Proof.
  cbn [c_resume patron_code]. destruct q.
  - destruct (friends_fn _ _ _ _ _ _ _) as [r1 g1] eqn:E1. intros [= <- <- <-]. apply friends_quiet in E1 as [Q _]. apply Q.
  - unfold pub_fn. destruct (PubModel.looking_for_pub _ _ _) as [c [[|]|]]; intros [= <- <- <-]; apply loops_refl.
  - intros [= <- <- <-]. apply loops_refl.
  - intros [= <- <- <-]. apply loops_refl.
  - intros [= <- <- <-]. apply loops_refl.
  - unfold patrol_fn. intros [= <- <- <-]. set (l := filter _ _).
    assert (H : forall l x, pr_edges (fold_left kick_out l x) = pr_edges x) by (induction l0; intros; cbn; auto; now rewrite IHl0).
    rewrite H. apply loops_refl.
  - intros [= <- <- <-]. apply loops_refl.
Qed.
Definition all_fsm (w : fworld pfun prest) : Prop := forall a, exists states, fa_kind (fw_agents w a) = KFsm states.
Lemma step_edges fs s a w c w' c' l o : rested c -> all_fsm w -> agent_step code fs s a (w, c) = (w', c', l, o) ->
  rested c' /\ all_fsm w' /\ loops_only (pr_edges (fw_rest w)) (pr_edges (fw_rest w')).
Proof.
  intros R K E. destruct (K a) as [st0 K0].
  destruct (quiet_step code fs s a w c w' c' l o _ plain_patrons R no_ops K0 E) as (R' & _ & [->|H]).
  - split; auto. split; auto. apply loops_refl.
  - destruct H as (st & r & g & C & A & CR & RW & OT & SA). split; auto. split.
    + intros b. destruct (Nat.eq_dec b a) as [->|NE]; [|rewrite OT; auto]. rewrite SA. cbn. eauto.
    + rewrite RW. eapply edges_resume. exact CR.
Qed.
Lemma hist_edges {AR : Arith} shuffle h s w c s' w' c' tr : fair shuffle -> (forall f, ~ In (CWorld f) h) -> rested c -> all_fsm w ->
  run_hist (patron_user openness max_pints tenfold mix shuffle) h s (w, c) = (s', (w', c'), tr) ->
  loops_only (pr_edges (fw_rest w)) (pr_edges (fw_rest w')).
Proof.
  intros FA HO R K E.
  set (P := fun x : fworld pfun prest * cors (frame pfun) =>
    rested (snd x) /\ all_fsm (fst x) /\ loops_only (pr_edges (fw_rest w)) (pr_edges (fw_rest (fst x)))).
  assert (PX : P (w', c')); [|apply PX].
  eapply (hist_keeps P); [|exact E| |].
  - split.
    + intros s0 a [w0 c0] (X1 & X2 & X3). cbn [patron_user u_step agent_user fst snd] in *.
      destruct (agent_step code _ s0 a (w0, c0)) as [[[w1 c1] l1] o1] eqn:E1.
      destruct (step_edges _ _ _ _ _ _ _ _ _ X1 X2 E1) as (Y1 & Y2 & Y3). unfold P. cbn [fst snd].
      eauto using loops_trans.
    + intros l [w0 c0] (X1 & X2 & X3). cbn [patron_user u_shuffle agent_user fst snd] in *.
      specialize (FA l (fw_rest w0)). destruct (shuffle l (fw_rest w0)) as [r1 l1].
      destruct FA as [_ (d & ->)]. unfold P. cbn in *. auto.
  - apply Forall_forall. intros [| | |f] J; cbn; auto. destruct (HO f J).
  - unfold P. cbn. auto using loops_refl.
Qed.

(** ** An evening without a network at the start *)
Variables (pubs : nat) (cap : Z) (patrons : nat).
Hypothesis MP : forall a, (0 <= max_pints a)%Z.
Notation all := (seq 0 (S patrons)).

Definition before (r : prest) (a : aid) : Prop :=
  c_pub (pr_city r) a = Some None /\ pr_pints r a = 0%Z /\ pr_drunk r a = false /\ pr_kicked r a = false.
Definition stage (r : prest) (a : aid) (st : state pfun) : Prop :=
  st = looking_for_friends /\ before r a \/
  st = looking_for_pub /\ before r a /\ In (a, a) (pr_edges r) \/
  (exists p, c_pub (pr_city r) a = Some (Some p)) /\
  (st = sober_in_pub /\ (0 <= pr_pints r a <= max_pints a)%Z /\ pr_drunk r a = false /\ pr_kicked r a = false \/
   st = drunk_in_pub /\ pr_pints r a = (max_pints a + 1)%Z /\ (pr_kicked r a = true -> pr_drunk r a = true) \/
   st = at_home /\ pr_pints r a = (max_pints a + 1)%Z /\ pr_drunk r a = true /\ pr_kicked r a = true).
Record counts (c : city) : Prop := Counts {
  ct_keys : forall p, dhas p (c_pubs c) = (p <? pubs)%nat;
  ct_pub : forall p b, dget p (c_pubs c) = Some b ->
    p_open b = true /\ p_capacity b = cap /\ p_occupancy b = (2 * number_inside c p all)%Z /\
    ((0 <= cap)%Z -> (p_occupancy b <= cap)%Z);
  ct_known : forall a p, c_pub c a = Some (Some p) -> (p < pubs)%nat }.
Definition evening_inv (reg : list aid) (x : fworld pfun prest * cors (frame pfun)) : Prop :=
  let w := fst x in let r := fw_rest w in
  reg = all /\ rested (snd x) /\ all_fsm w /\ (forall a, fa_alive (fw_agents w a) = true) /\
  fa_cur (fw_agents w 0) = Some patrol /\ c_pub (pr_city r) 0 = Some None /\
  (forall a, a <> 0 -> exists st, fa_cur (fw_agents w a) = Some st /\ stage r a st) /\
  (forall e, In e (pr_edges r) -> fst e = snd e) /\ counts (pr_city r).
Definition listed (x : fworld pfun prest * cors (frame pfun)) (a : aid) : Prop := In a all.

Lemma filter_one (a : aid) l : NoDup l -> In a l -> filter (Nat.eqb a) l = [a].
Proof.
  induction 1 as [|x l N D IH]; intros J; [destruct J|]. cbn [filter]. destruct (Nat.eqb a x) eqn:E.
  - apply Nat.eqb_eq in E. subst x. f_equal. clear - N. induction l as [|y l IH]; cbn; auto.
    destruct (Nat.eqb a y) eqn:E; [apply Nat.eqb_eq in E; subst; destruct N; now left|]. apply IH. intros J. apply N. now right.
  - destruct J as [J|J]; [subst; rewrite Nat.eqb_refl in E; discriminate|]. auto.
Qed.
Lemma own_neighbour s r a : s_reg s = all -> In a all -> (forall e, In e (pr_edges r) -> fst e = snd e) ->
  In (a, a) (pr_edges r) -> get_neighbors s r a = [a].
Proof.
  intros RG J L I. unfold get_neighbors. rewrite RG.
  transitivity (filter (Nat.eqb a) all); [|apply filter_one; auto using seq_NoDup].
  apply filter_ext. intros b. unfold linked. destruct (Nat.eqb a b) eqn:E.
  - apply Nat.eqb_eq in E. subst b. apply existsb_exists. exists (a, a). split; auto. cbn. now rewrite Nat.eqb_refl.
  - apply not_true_iff_false. intros X. apply existsb_exists in X as ([x y] & K & X). apply L in K. cbn in K, X. subst y.
    apply Nat.eqb_neq in E. apply orb_true_iff in X. destruct X as [X|X]; apply andb_true_iff in X as [X1 X2];
      apply Nat.eqb_eq in X1; apply Nat.eqb_eq in X2; congruence.
Qed.
Lemma enter_twice p (a : nat) c c' : counts c -> In a all -> c_pub c a = Some None ->
  enter p [a; a] c = (c', Returns true) ->
  counts c' /\ c_pub c' a = Some (Some p) /\ forall b, b <> a -> c_pub c' b = c_pub c b.
Proof.
  intros [K1 K2 K3] J O E. pose proof (enter_keys p [a; a] c) as KK. rewrite E in KK. cbn [fst] in KK. unfold enter in E.
  destruct (dget p (c_pubs c)) as [b|] eqn:G; [|discriminate]. destruct (K2 p b G) as (B1 & B2 & B3 & B4).
  destruct (negb (p_open b) || _) eqn:X; [discriminate|].
  set (c1 := City (dset p (Pub (p_open b) (p_capacity b) (p_occupancy b + Z.of_nat (List.length [a; a]))) (c_pubs c)) (c_pub c)) in *.
  apply (f_equal fst) in E. cbv beta iota delta [fst] in E. subst c'.
  assert (SA : forall x, c_pub (fold_left (fun c a => set_pub c a (Some (Some p))) [a; a] c1) x =
    if Nat.eqb x a then Some (Some p) else c_pub c x) by (intros x; cbn; now destruct (Nat.eqb x a)).
  split; [|split; [rewrite SA, Nat.eqb_refl; auto|intros x NE; apply Nat.eqb_neq in NE; rewrite SA, NE; auto]].
  constructor.
  - intros q. rewrite KK. apply K1.
  - intros q b' G'. rewrite enter_pubs in G'. cbn [c1 c_pubs] in G'. rewrite dget_set in G'.
    assert (NI : number_inside (fold_left (fun c a => set_pub c a (Some (Some p))) [a; a] c1) q all =
      (number_inside c q all + if Nat.eqb p q then 1 else 0)%Z).
    { cbn [fold_left]. rewrite !number_set by apply seq_NoDup. rewrite (in_existsb a all J).
      rewrite set_pub_is_in, Nat.eqb_refl. change (is_in c1 q a) with (is_in c q a).
      assert (is_in c q a = false) as -> by (unfold is_in; now rewrite O).
      change (number_inside c1 q all) with (number_inside c q all). destruct (Nat.eqb p q); lia. }
    rewrite NI. destruct (eqb q p) eqn:Q.
    + injection G' as <-. apply eqb_eq in Q. subst q. cbn [p_open p_capacity p_occupancy List.length]. rewrite Nat.eqb_refl.
      apply orb_false_iff in X as [_ X]. apply Z.ltb_ge in X. cbn [List.length] in X. split; auto. split; auto. lia.
    + apply eqb_neq in Q. assert (Nat.eqb p q = false) as -> by (apply Nat.eqb_neq; congruence). rewrite Z.add_0_r. now apply K2.
  - intros x q. rewrite SA. destruct (Nat.eqb x a); [|apply K3]. intros [= <-].
    apply Nat.ltb_lt. rewrite <- K1, dhas_get, G. reflexivity.
Qed.
Lemma try_twice (a : nat) l : forall c c' b, counts c -> In a all -> c_pub c a = Some None ->
  try_pubs a [a] l c = (c', b) ->
  (b = false /\ c' = c) \/
  (b = true /\ counts c' /\ (exists p, c_pub c' a = Some (Some p)) /\ forall x, x <> a -> c_pub c' x = c_pub c x).
Proof.
  induction l as [|p l IH]; cbn [try_pubs]; intros c c' b K J O E; [injection E as <- <-; auto|].
  destruct (enter p [a; a] c) as [c1 r] eqn:X. destruct r as [[|]| | | |].
  - injection E as <- <-. destruct (enter_twice _ _ _ _ K J O X) as (K' & A & B). eauto 8.
  - assert (c1 = c) as ->.
    { unfold enter in X. destruct (dget p (c_pubs c)); [|discriminate]. destruct (_ || _); injection X; congruence. }
    eauto.
  - exfalso. unfold enter in X. destruct (dget p (c_pubs c)); [|discriminate]. destruct (_ || _); discriminate.
  - assert (c1 = c) as ->.
    { unfold enter in X. destruct (dget p (c_pubs c)); [|now injection X]. destruct (_ || _); discriminate. }
    eauto.
  - exfalso. unfold enter in X. destruct (dget p (c_pubs c)); [|discriminate]. destruct (_ || _); discriminate.
  - exfalso. unfold enter in X. destruct (dget p (c_pubs c)); [|discriminate]. destruct (_ || _); discriminate.
Qed.

Lemma kicks l : forall r, let r' := fold_left kick_out l r in
  pr_city r' = pr_city r /\ pr_edges r' = pr_edges r /\ pr_pints r' = pr_pints r /\ pr_drunk r' = pr_drunk r /\
  pr_draws r' = pr_draws r /\ forall a, pr_kicked r' a = existsb (Nat.eqb a) l || pr_kicked r a.
Proof.
  induction l as [|b l IH]; intros r; cbn [fold_left existsb]; [repeat split|].
  destruct (IH (kick_out r b)) as (A & B & C & D & E & F). cbn zeta. rewrite A, B, C, D, E. repeat split.
  intros a. rewrite F. cbn [kick_out pr_kicked]. destruct (Nat.eqb a b), (existsb (Nat.eqb a) l); reflexivity.
Qed.
Lemma stage_ext r r' a st : stage r a st -> c_pub (pr_city r') a = c_pub (pr_city r) a -> pr_pints r' a = pr_pints r a ->
  pr_drunk r' a = pr_drunk r a -> pr_kicked r' a = pr_kicked r a -> loops_only (pr_edges r) (pr_edges r') -> stage r' a st.
Proof.
  unfold stage, before. intros H -> -> -> -> L. destruct H as [H|[(H1 & H2 & H3)|H]]; auto.
  right. left. split; auto. split; auto. eapply loops_in; eauto.
Qed.
(** A patron's next state. *)
Definition next (st st' : state pfun) : Prop := st' = st \/ follows (st_name st) (st_name st').

Lemma nobody_home_alone s (w : fworld pfun prest) a : In a (s_reg s) ->
  fa_cur (fw_agents w a) = Some looking_for_friends -> c_pub (pr_city (fw_rest w)) a = Some None ->
  filter (no_pub (fw_rest w)) (filter (state_is (fw_agents w) "looking_for_friends") (s_reg s)) <> [].
Proof.
  intros J C O E.
  assert (I : In a []); [|destruct I]. rewrite <- E. apply filter_In. split; [apply filter_In; split; auto|].
  - unfold state_is. now rewrite C.
  - unfold no_pub. now rewrite O.
Qed.
(** An activation changes the attributes of the agent itself, makes loops, or kicks out. *)
Lemma evening_step fs s a w c w' c' l o : evening_inv (s_reg s) (w, c) -> In a all ->
  agent_step code fs s a (w, c) = (w', c', l, o) ->
  evening_inv (s_reg s) (w', c') /\ l = [] /\ (forall b, b <> a -> fw_agents w' b = fw_agents w b) /\
  exists st st', fa_cur (fw_agents w a) = Some st /\ fa_cur (fw_agents w' a) = Some st' /\ next st st'.
Proof.
  intros I J E. pose proof I as (RG & RE & FS & AL & PO & PP & ST & LO & CT). cbn [fst snd] in *.
  destruct (FS a) as [k0 K0].
  destruct (quiet_step code fs s a w c w' c' l o _ plain_patrons RE no_ops K0 E) as (R' & -> & H).
  destruct H as [->|H].
  { split; [exact (conj RG (conj R' (conj FS (conj AL (conj PO (conj PP (conj ST (conj LO CT))))))))|]. split; auto. split; auto. destruct (Nat.eq_dec a 0) as [->|NE].
    - exists patrol, patrol. split; auto. split; auto. now left.
    - destruct (ST a NE) as (st & C & _). exists st, st. split; auto. split; auto. now left. }
  destruct H as (st & r & g & C & A & CR & RW & OT & SA).
  assert (FS' : all_fsm w').
  { intros b. destruct (Nat.eq_dec b a) as [->|NE]; [|rewrite OT; auto]. rewrite SA. cbn. eauto. }
  assert (AL' : forall b, fa_alive (fw_agents w' b) = true).
  { intros b. destruct (Nat.eq_dec b a) as [->|NE]; [|rewrite OT; auto]. rewrite SA. cbn. auto. }
  destruct (Nat.eq_dec a 0) as [->|NE].
  - (* the police *)
    rewrite PO in C. injection C as <-. cbn in CR. unfold patrol_fn in CR. injection CR as <- <-. cbn [goes_to] in SA.
    match type of RW with _ = fold_left kick_out ?x _ => set (ds := x) in * end.
    destruct (kicks ds (fw_rest w)) as (B1 & B2 & B3 & B4 & B5 & B6). rewrite <- RW in *.
    split; [|split; auto; split; auto; exists patrol, patrol; rewrite SA; cbn; split; auto; split; auto; now left].
    unfold evening_inv. cbn [fst snd]. rewrite B1, B2.
    refine (conj RG (conj R' (conj FS' (conj AL' (conj _ (conj PP (conj _ (conj LO CT)))))))).
    { rewrite SA. reflexivity. }
    intros b NB. destruct (ST b NB) as (st & C & S). exists st. rewrite OT by auto. split; auto.
    unfold stage, before in *. rewrite B1, B2, B3, B4, B6. destruct (existsb (Nat.eqb b) ds) eqn:X; [|exact S].
    apply existsb_exists in X as (y & Y & X). apply Nat.eqb_eq in X. subst y. apply filter_In in Y as [Y D].
    apply filter_In in Y as [_ Y]. unfold state_is in Y. rewrite C in Y. apply String.eqb_eq in Y. cbn [orb].
    destruct S as [[-> _]|[[-> _]|[P [[-> _]|[[-> (S1 & S2)]|[-> _]]]]]]; try discriminate Y. right. right. split; auto.
  - destruct (ST a NE) as (st0 & C0 & S). rewrite C in C0. injection C0 as <-.
    (* the others *)
    assert (DONE : forall st', fa_cur (fw_agents w' a) = Some st' -> stage r a st' -> next st st' ->
      (forall b, b <> a -> c_pub (pr_city r) b = c_pub (pr_city (fw_rest w)) b /\ pr_pints r b = pr_pints (fw_rest w) b /\
         pr_drunk r b = pr_drunk (fw_rest w) b /\ pr_kicked r b = pr_kicked (fw_rest w) b) ->
      loops_only (pr_edges (fw_rest w)) (pr_edges r) -> counts (pr_city r) ->
      evening_inv (s_reg s) (w', c') /\ [] = @nil sop /\ (forall b, b <> a -> fw_agents w' b = fw_agents w b) /\
      exists st st', fa_cur (fw_agents w a) = Some st /\ fa_cur (fw_agents w' a) = Some st' /\ next st st').
    { intros st' C' S' NX SM LP CT'. split; [|split; auto; split; auto; exists st, st'; auto].
      unfold evening_inv. cbn [fst snd]. rewrite RW. split; auto. split; auto. split; auto. split; auto.
      split; [rewrite OT; auto|]. split; [destruct (SM 0) as [-> _]; auto|]. split; [|split; auto].
      - intros b NB. destruct (Nat.eq_dec b a) as [->|NE']; [eauto|]. rewrite OT by auto.
        destruct (ST b NB) as (stb & Cb & Sb). exists stb. split; auto. destruct (SM b NE') as (M1 & M2 & M3 & M4).
        eapply stage_ext; eauto.
      - intros e K. destruct LP as (new & EN & HN). rewrite EN in K. apply in_app_or in K. destruct K; auto. }
    rewrite SA in DONE |- *. cbn [fa_cur set_cur] in DONE |- *.
    unfold stage in S. destruct S as [[-> B]|[[-> (B & L)]|[P [[-> (S1 & S2 & S3)]|[[-> (S1 & S2)]|[-> (S1 & S2 & S3)]]]]]]; cbn in CR.
    + destruct (friends_fn _ _ _ _ _ _ _) as [r1 g1] eqn:E1. injection CR as -> ->.
      apply friends_quiet in E1 as [(Q1 & Q2 & Q3 & Q4 & Q5) G]. 
      assert (SM : forall b, b <> a -> c_pub (pr_city r) b = c_pub (pr_city (fw_rest w)) b /\ pr_pints r b = pr_pints (fw_rest w) b /\
         pr_drunk r b = pr_drunk (fw_rest w) b /\ pr_kicked r b = pr_kicked (fw_rest w) b) by (rewrite Q1, Q2, Q3, Q4; auto).
      assert (B' : before r a) by (unfold before; rewrite Q1, Q2, Q3, Q4; exact B).
      assert (CT' : counts (pr_city r)) by now rewrite Q1.
      destruct G as [->|[[-> L]|[-> F]]].
      * apply (DONE looking_for_friends); [reflexivity|left; auto|now left|exact SM|exact Q5|exact CT'].
      * apply (DONE looking_for_pub); [reflexivity|right; left; auto|right; exists 0; auto|exact SM|exact Q5|exact CT'].
      * exfalso. revert F. apply (nobody_home_alone s w a); auto; [now rewrite RG|apply B].
    + unfold pub_fn in CR. rewrite (own_neighbour s (fw_rest w) a RG J LO L) in CR.
      unfold PubModel.looking_for_pub in CR. destruct B as (B1 & B2). rewrite B1 in CR.
      destruct (try_pubs a [a] (available (pr_city (fw_rest w))) (pr_city (fw_rest w))) as [c1 b] eqn:TR.
      destruct (try_twice _ _ _ _ _ CT J B1 TR) as [[-> ->]|(-> & CT1 & P & OP)]; injection CR as <- <-.
      * apply (DONE looking_for_pub); [reflexivity|right; left; unfold before; cbn; auto|now left|intros b NB; cbn; auto|apply loops_refl|exact CT].
      * apply (DONE sober_in_pub); [reflexivity| |right; exists 1; auto|intros b NB; cbn; auto|apply loops_refl|exact CT1].
        right. right. cbn. split; auto. left. destruct B2 as (-> & -> & ->). split; auto. split; auto. specialize (MP a). lia.
    + injection CR as <- <-. unfold sober_fn in *. cbn [set_pints pr_pints] in *. rewrite Nat.eqb_refl in *.
      assert (SM : forall b, b <> a -> c_pub (pr_city (set_pints (fw_rest w) a (pr_pints (fw_rest w) a + 1))) b =
         c_pub (pr_city (fw_rest w)) b /\ (if Nat.eqb b a then (pr_pints (fw_rest w) a + 1)%Z else pr_pints (fw_rest w) b) = pr_pints (fw_rest w) b /\
         pr_drunk (fw_rest w) b = pr_drunk (fw_rest w) b /\ pr_kicked (fw_rest w) b = pr_kicked (fw_rest w) b).
      { intros b NB. apply Nat.eqb_neq in NB. rewrite NB. auto. }
      destruct (max_pints a <? pr_pints (fw_rest w) a + 1)%Z eqn:X.
      * apply Z.ltb_lt in X. apply (DONE drunk_in_pub); [reflexivity| |right; exists 2; auto|exact SM|apply loops_refl|exact CT].
        right. right. cbn. rewrite Nat.eqb_refl. split; auto. right. left. split; auto. split; [lia|congruence].
      * apply Z.ltb_ge in X. apply (DONE sober_in_pub); [reflexivity| |now left|exact SM|apply loops_refl|exact CT].
        right. right. cbn. rewrite Nat.eqb_refl. split; auto. left. split; auto. split; [lia|auto].
    + injection CR as <- <-. cbn [set_drunk pr_kicked] in *.
      assert (SM : forall b, b <> a -> c_pub (pr_city (fw_rest w)) b = c_pub (pr_city (fw_rest w)) b /\ pr_pints (fw_rest w) b = pr_pints (fw_rest w) b /\
         (if Nat.eqb b a then true else pr_drunk (fw_rest w) b) = pr_drunk (fw_rest w) b /\ pr_kicked (fw_rest w) b = pr_kicked (fw_rest w) b).
      { intros b NB. apply Nat.eqb_neq in NB. rewrite NB. auto. }
      destruct (pr_kicked (fw_rest w) a) eqn:X.
      * apply (DONE at_home); [reflexivity| |right; exists 3; auto|exact SM|apply loops_refl|exact CT].
        right. right. cbn. rewrite Nat.eqb_refl. split; auto. right. right. auto.
      * apply (DONE drunk_in_pub); [reflexivity| |now left|exact SM|apply loops_refl|exact CT].
        right. right. cbn. rewrite Nat.eqb_refl. split; auto. 
    + injection CR as <- <-. apply (DONE at_home); [reflexivity| |now left|intros b NB; auto|apply loops_refl|exact CT].
      right. right. split; auto. right. right. auto.
Qed.

Lemma evening_step_inv shuffle : step_inv (patron_user openness max_pints tenfold mix shuffle) evening_inv listed.
Proof.
  intros s a [w c] [w' c'] ops o G Q E. cbn [patron_user agent_user u_step] in E.
  destruct (evening_step _ _ _ _ _ _ _ _ _ G Q E) as (G' & -> & _). split; auto. split; auto. intros b t [].
Qed.
Lemma evening_shuffle_inv shuffle : fair shuffle ->
  shuffle_inv (patron_user openness max_pints tenfold mix shuffle) evening_inv listed.
Proof.
  intros FA l reg [w c] [w' c'] l' G E. cbn [patron_user agent_user u_shuffle fst snd] in E.
  specialize (FA l (fw_rest w)). destruct (shuffle l (fw_rest w)) as [r' l1]. injection E as <- <- <-.
  destruct FA as [PE (d & ->)]. split; [exact G|]. split; [auto|].
  intros b J. eapply Permutation_in; [apply Permutation_sym; exact PE|exact J].
Qed.
Lemma add_run {AR : Arith} {X} (u : user X) (l : list aid) : forall s x, NoDup (s_reg s ++ l) ->
  exists s' tr, run_hist u (map (fun a => CAdd a None) l) s x = (s', x, tr) /\ s_reg s' = (s_reg s ++ l)%list /\
  forall t b a, In (t, b) (s_queue s') -> In a b -> In a l \/ exists t' b', In (t', b') (s_queue s) /\ In a b'.
Proof.
  induction l as [|a l IH]; cbn [map run_hist run_cmd run_op]; intros s x N.
  - exists s, []. rewrite app_nil_r. split; auto. split; auto. eauto 6.
  - assert (NI : existsb (Nat.eqb a) (s_reg s) = false).
    { apply not_true_iff_false. intros E. apply existsb_exists in E as (y & J & E). apply Nat.eqb_eq in E. subst y.
      apply NoDup_remove_2 in N. apply N. apply in_or_app. auto. }
    assert (R : s_reg (timed_add s a None) = (s_reg s ++ [a])%list).
    { unfold timed_add, reg_add. cbn [timed_schedule set_queue s_reg]. now rewrite NI. }
    assert (Q : s_queue (timed_add s a None) = insert_bucket (s_queue s) (or_num None (s_time s)) a).
    { unfold timed_add, reg_add. cbn [timed_schedule set_queue s_reg]. now rewrite NI. }
    destruct (IH (timed_add s a None) x) as (s' & tr & E & R' & Q'); [rewrite R, <- app_assoc; exact N|].
    rewrite E. eexists _, _. split; [reflexivity|]. split; [rewrite R', R, <- app_assoc; reflexivity|].
    intros t b c J K. destruct (Q' t b c J K) as [L|(t' & b' & J' & K')]; [left; now right|].
    rewrite Q in J'. destruct (insert_bucket_In _ _ _ _ _ _ J' K') as [->|H]; [left; now left|auto].
Qed.
Lemma run_starts {AR : Arith} shuffle ordered di edges draws n s w c tr :
  crawl_run openness max_pints tenfold mix shuffle ordered di pubs cap edges draws patrons n = (s, (w, c), tr) ->
  exists s0 tr', s_reg s0 = all /\ (forall t b a, In (t, b) (s_queue s0) -> In a b -> In a all) /\
  run_hist (patron_user openness max_pints tenfold mix shuffle) (repeat CStep n) s0
    (crawl_world pubs cap edges draws, no_cors) = (s, (w, c), tr').
Proof.
  unfold crawl_run. rewrite run_hist_app.
  destruct (add_run (patron_user openness max_pints tenfold mix shuffle) all (timed_init (negb ordered) di)
    (crawl_world pubs cap edges draws, no_cors)) as (s0 & tr0 & E & R & Q); [cbn [timed_init s_reg app]; apply seq_NoDup|].
  rewrite E. destruct (run_hist _ (repeat CStep n) s0 _) as [[s1 x1] tr1] eqn:E1. intros [= -> -> <-].
  exists s0, tr1. split; [exact R|]. split; auto. intros t b a J K. destruct (Q t b a J K) as [H|(t' & b' & [] & _)]; auto.
Qed.
Lemma start_inv draws : evening_inv all (crawl_world pubs cap [] draws, no_cors).
Proof.
  unfold evening_inv. cbn [fst snd crawl_world fw_rest fw_agents pr_city pr_edges].
  split; [reflexivity|]. split; [intros a; now left|]. split; [intros a; eexists; reflexivity|].
  split; [intros a; reflexivity|]. split; [reflexivity|]. split; [reflexivity|]. split; [|split; [intros e []|]].
  - intros a NE. destruct a; [congruence|]. exists looking_for_friends. split; [reflexivity|]. left. split; auto. repeat split.
  - constructor.
    + intros p. destruct (p <? pubs)%nat eqn:L.
      * apply Nat.ltb_lt in L. now apply new_keys.
      * rewrite dhas_get. destruct (dget p (c_pubs (new_city pubs cap))) as [b|] eqn:G; auto.
        exfalso. apply dget_in in G. cbn [new_city c_pubs] in G. apply in_map_iff in G as (i & EQ & J).
        injection EQ as -> _. apply in_seq in J. apply Nat.ltb_ge in L. lia.
    + intros p b G. rewrite (new_get _ _ _ _ G), new_number. repeat split. auto.
    + intros a p. cbn. discriminate.
Qed.
Lemma reached_inv s w c : reached openness max_pints tenfold mix pubs cap [] patrons s w c -> evening_inv (s_reg s) (w, c).
Proof.
  intros (AR & shuffle & ordered & di & draws & n & tr & FA & E).
  destruct (run_starts _ _ _ _ _ _ _ _ _ _ E) as (s0 & tr0 & R & Q & E0).
  destruct (steps_inv _ evening_inv listed (evening_step_inv shuffle) (evening_shuffle_inv shuffle FA) n s0
    (crawl_world pubs cap [] draws, no_cors) s (w, c) tr0) as [H _]; auto.
  split; [rewrite R; apply start_inv|]. intros t b a J K. exact (Q t b a J K).
Qed.

(** ** What follows *)
Lemma stage_described w a st : stage (fw_rest w) a st -> In (st_name st) evening /\ as_described max_pints w a (st_name st).
Proof.
  assert (IN : forall p, c_pub (pr_city (fw_rest w)) a = Some (Some p) -> ~ outside w a) by (intros p H X; now apply (X p)).
  assert (OUT : before (fw_rest w) a -> outside w a) by (intros (H & _) p X; unfold inside in X; congruence).
  unfold stage, as_described. intros [[-> B]|[(-> & B & _)|[[p P] [[-> (S1 & S2 & S3)]|[[-> (S1 & S2)]|[-> (S1 & S2 & S3)]]]]]]; cbn;
    try (split; [tauto|]); eauto; pose proof (OUT B); destruct B; auto.
Qed.
Lemma life s w c a : reached openness max_pints tenfold mix pubs cap [] patrons s w c -> a_patron patrons a ->
  exists name, In name evening /\ in_state name w a /\ as_described max_pints w a name.
Proof.
  intros R [P1 P2]. apply reached_inv in R. destruct R as (_ & _ & _ & _ & _ & _ & ST & _). destruct (ST a) as (st & C & S); [lia|].
  apply stage_described in S as [S1 S2]. exists (st_name st). split; auto. split; auto. exists st. auto.
Qed.
Lemma order s w c a fs w' c' l o : reached openness max_pints tenfold mix pubs cap [] patrons s w c -> In a (s_reg s) ->
  agent_step code fs s a (w, c) = (w', c', l, o) ->
  (forall b, b <> a -> fa_cur (fw_agents w' b) = fa_cur (fw_agents w b)) /\
  exists x y, in_state x w a /\ in_state y w' a /\ (y = x \/ follows x y).
Proof.
  intros R J E. apply reached_inv in R. pose proof R as (RG & _). rewrite RG in J.
  destruct (evening_step _ _ _ _ _ _ _ _ _ R J E) as (_ & _ & OT & st & st' & C & C' & NX). split.
  - intros b NB. now rewrite OT.
  - exists (st_name st), (st_name st'). unfold in_state. repeat split; eauto. destruct NX as [->|NX]; auto.
Qed.
Lemma doubled s w c p b : reached openness max_pints tenfold mix pubs cap [] patrons s w c ->
  dget p (c_pubs (pr_city (fw_rest w))) = Some b ->
  p_capacity b = cap /\ p_occupancy b = (2 * number_inside (pr_city (fw_rest w)) p (the_patrons patrons))%Z.
Proof.
  intros R G. apply reached_inv in R. destruct R as (_ & _ & _ & _ & _ & PP & _ & _ & CT). cbn [fst snd] in *.
  destruct (ct_pub _ CT p b G) as (_ & C & O & _). split; auto. rewrite O. cbn [seq]. rewrite number_cons.
  assert (is_in (pr_city (fw_rest w)) p 0 = false) as -> by (unfold is_in; now rewrite PP). reflexivity.
Qed.

Lemma home_inside s w c a : reached openness max_pints tenfold mix pubs cap [] patrons s w c -> a_patron patrons a ->
  in_state "at_home" w a -> exists p, inside (pr_city (fw_rest w)) a p.
Proof.
  intros R [P1 P2] (st & C & N). apply reached_inv in R. destruct R as (_ & _ & _ & _ & _ & _ & ST & _). destruct (ST a) as (st' & C' & S); [lia|].
  cbn [fst] in C'. rewrite C in C'. injection C' as <-. destruct S as [[-> _]|[[-> _]|[P _]]]; try discriminate N. exact P.
Qed.
(** *** How many may drink *)
Fixpoint total (c : city) (l : list aid) (n : nat) : Z :=
  match n with 0 => 0 | S n' => total c l n' + number_inside c n' l end.
Lemma total_cons c a l n : total c (a :: l) n =
  (total c l n + match c_pub c a with Some (Some p) => if (p <? n)%nat then 1 else 0 | _ => 0 end)%Z.
Proof.
  induction n as [|n IH]; cbn [total].
  - destruct (c_pub c a) as [[p|]|]; reflexivity.
  - rewrite IH, number_cons. unfold is_in. destruct (c_pub c a) as [[p|]|]; try lia.
    destruct (Nat.eqb p n) eqn:E; [apply Nat.eqb_eq in E; subst p|apply Nat.eqb_neq in E].
    + rewrite (proj2 (Nat.ltb_ge n n)), (proj2 (Nat.ltb_lt n (S n))) by lia. lia.
    + destruct (p <? n)%nat eqn:L; [apply Nat.ltb_lt in L|apply Nat.ltb_ge in L].
      * rewrite (proj2 (Nat.ltb_lt p (S n))) by lia. lia.
      * rewrite (proj2 (Nat.ltb_ge p (S n))) by lia. lia.
Qed.
Lemma total_all c n l : (forall a p, c_pub c a = Some (Some p) -> (p < n)%nat) ->
  Z.of_nat (List.length (filter (fun a => match c_pub c a with Some (Some _) => true | _ => false end) l)) = total c l n.
Proof.
  intros K. induction l as [|a l IH].
  - cbn [filter List.length]. clear K. induction n as [|n IHn]; auto. cbn [total]. rewrite <- IHn, number_nil. reflexivity.
  - rewrite total_cons. cbn [filter]. destruct (c_pub c a) as [[p|]|] eqn:P; try lia.
    rewrite (proj2 (Nat.ltb_lt _ _) (K a p P)). cbn [List.length]. lia.
Qed.
Lemma few_places s w c : reached openness max_pints tenfold mix pubs cap [] patrons s w c -> (0 <= cap)%Z ->
  (Z.of_nat (List.length (filter (fun a => match c_pub (pr_city (fw_rest w)) a with Some (Some _) => true | _ => false end) (the_patrons patrons)))
   <= Z.of_nat pubs * (cap / 2))%Z.
Proof.
  intros R CP. pose proof R as R0. apply reached_inv in R. destruct R as (_ & _ & _ & _ & _ & PP & _ & _ & CT). cbn [fst snd] in *.
  rewrite (total_all (pr_city (fw_rest w)) pubs) by apply (ct_known _ CT).
  assert (H : forall n, (n <= pubs)%nat -> (total (pr_city (fw_rest w)) (the_patrons patrons) n <= Z.of_nat n * (cap / 2))%Z).
  { induction n as [|n IH]; intros L; cbn [total]; [lia|]. specialize (IH ltac:(lia)).
    assert (X : (number_inside (pr_city (fw_rest w)) n (the_patrons patrons) <= cap / 2)%Z); [|lia].
    assert (G : exists b, dget n (c_pubs (pr_city (fw_rest w))) = Some b).
    { pose proof (ct_keys _ CT n) as K. rewrite (proj2 (Nat.ltb_lt n pubs)), dhas_get in K by lia.
      destruct (dget n _) as [b|]; [eauto|discriminate]. }
    destruct G as [b G]. destruct (doubled _ _ _ _ _ R0 G) as [C O].
    apply Z.div_le_lower_bound; [lia|]. rewrite <- O. apply (ct_pub _ CT n b G); auto. }
  apply H. lia.
Qed.

(** *** A patron alone *)
Definition fair_mix : Prop := forall d l x, In x (snd (mix d l)) -> In x l.
Lemma each_none self l : forall b r, (forall x, In x l -> x = self) -> each_friend openness self l b r = (r, b).
Proof.
  induction l as [|x l IH]; intros b r H; cbn [each_friend]; auto. rewrite (H x), Nat.eqb_refl by now left.
  apply IH. intros y J. apply H. now right.
Qed.
Lemma alone_step fs s a w c w' c' l o : fair_mix -> patrons = 1 -> evening_inv (s_reg s) (w, c) -> In a all ->
  fa_cur (fw_agents w 1) = Some looking_for_friends ->
  agent_step code fs s a (w, c) = (w', c', l, o) -> fa_cur (fw_agents w' 1) = Some looking_for_friends.
Proof.
  intros FM P1 I J C E. destruct (evening_step _ _ _ _ _ _ _ _ _ I J E) as (_ & _ & OT & _).
  destruct (Nat.eq_dec a 1) as [->|NE]; [|rewrite OT; auto]. pose proof I as (RG & RE & FS & AL & PO & _). cbn [fst snd] in *.
  destruct (FS 1) as [k0 K0].
  destruct (quiet_step code fs s 1 w c w' c' l o _ plain_patrons RE no_ops K0 E) as (_ & _ & [->|H]); auto.
  destruct H as (st & r & g & C1 & A & CR & RW & _ & SA). rewrite C in C1. injection C1 as <-. rewrite SA. cbn [fa_cur set_cur].
  cbn in CR. destruct (friends_fn _ _ _ _ _ _ _) as [r1 g1] eqn:E1. injection CR as -> ->.
  unfold friends_fn in E1. rewrite RG, P1 in E1.
  assert (F : forall x, In x (filter (no_pub (fw_rest w)) (filter (no_pub (fw_rest w))
    (filter (state_is (fw_agents w) "looking_for_friends") (seq 0 2)))) -> x = 1).
  { intros x X. apply filter_In in X as [X _]. apply filter_In in X as [X _]. apply filter_In in X as [X Y].
    destruct X as [<-|[<-|[]]]; auto. unfold state_is in Y. rewrite PO in Y. discriminate. }
  match type of E1 with match ?x with _ => _ end = _ => destruct x as [|x0 l0] eqn:EL end.
  - exfalso. destruct I as (_ & _ & _ & _ & _ & _ & ST & _). cbn [fst snd] in ST. destruct (ST 1 ltac:(lia)) as (st & C2 & S2). rewrite C in C2.
    injection C2 as <-. destruct S2 as [[_ B]|[[X _]|[_ [[X _]|[[X _]|[X _]]]]]]; try discriminate X.
    destruct B as [B _]. match type of EL with ?x = [] => assert (X : In 1 x); [|rewrite EL in X; destruct X] end. clear EL.
    assert (NP : no_pub (fw_rest w) 1 = true) by (unfold no_pub; now rewrite B).
    apply filter_In. split; auto. apply filter_In. split; auto. apply filter_In. split; [right; left; reflexivity|].
    unfold state_is. now rewrite C.
  - unfold try_friends in E1. pose proof (FM (pr_draws (fw_rest w)) (x0 :: l0)) as FX.
    destruct (mix (pr_draws (fw_rest w)) (x0 :: l0)) as [d m]. cbn [snd] in FX.
    rewrite each_none in E1; [injection E1 as <- <-; reflexivity|].
    intros y Y. apply F, FX. rewrite <- (firstn_skipn (tenfold (openness 1)) m). apply in_or_app. auto.
Qed.
Lemma alone s w c : fair_mix -> patrons = 1 -> reached openness max_pints tenfold mix pubs cap [] patrons s w c ->
  fa_cur (fw_agents w 1) = Some looking_for_friends.
Proof.
  intros FM P1 (AR & shuffle & ordered & di & draws & n & tr & FA & E).
  destruct (run_starts _ _ _ _ _ _ _ _ _ _ E) as (s0 & tr0 & R & Q & E0).
  set (Inv := fun reg (x : fworld pfun prest * cors (frame pfun)) =>
    evening_inv reg x /\ fa_cur (fw_agents (fst x) 1) = Some looking_for_friends).
  assert (V : inv Inv listed s (w, c)); [|destruct V as [[_ V] _]; exact V].
  eapply (steps_inv (patron_user openness max_pints tenfold mix shuffle) Inv listed); [| | |exact E0].
  - intros s1 a [w1 c1] [w2 c2] ops o [G C] L X. pose proof (evening_step_inv shuffle _ _ _ _ _ _ G L X) as (H1 & H2 & H3).
    split; [split; [exact H1|]|split; [exact H2|exact H3]]. exact (alone_step _ _ _ _ _ _ _ _ _ FM P1 G L C X).
  - intros l reg [w1 c1] [w2 c2] l' [G C] X. pose proof (evening_shuffle_inv shuffle FA _ _ _ _ _ G X) as (H1 & H2 & H3).
    split; [split; [exact H1|]|split; [exact H2|exact H3]]. cbn [fst patron_user agent_user u_shuffle] in *.
    destruct (shuffle l (fw_rest w1)). injection X as <- _ _. exact C.
  - split; [rewrite R; split; [apply start_inv|reflexivity]|]. intros t b a J K. exact (Q t b a J K).
Qed.
End Patrons.

(** ** The police *)
Lemma patrols openness max_pints tenfold mix fs s w c a : (exists states, fa_kind (fw_agents w a) = KFsm states) ->
  fa_alive (fw_agents w a) = true -> fa_cur (fw_agents w a) = Some patrol -> get_co c a = None ->
  exists w' c', agent_step (patron_code openness max_pints tenfold mix) fs s a (w, c) = (w', c', [], Ret None) /\
  (forall b, fa_cur (fw_agents w' b) = fa_cur (fw_agents w b)) /\
  let r := fw_rest w in let r' := fw_rest w' in
  pr_city r' = pr_city r /\ pr_edges r' = pr_edges r /\ pr_pints r' = pr_pints r /\ pr_drunk r' = pr_drunk r /\
  forall b, pr_kicked r' b = true <-> pr_kicked r b = true \/ (In b (s_reg s) /\ in_state "drunk_in_pub" w b /\ pr_drunk r b = true).
Proof.
  intros [k K] A C G.
  set (ds := filter (pr_drunk (fw_rest w)) (filter (state_is (fw_agents w) "drunk_in_pub") (s_reg s))).
  exists (upd (FWorld (fw_agents w) (fold_left kick_out ds (fw_rest w))) a (set_cur (fw_agents w a) (Some patrol))).
  eexists. split.
  { unfold agent_step, decorated. cbn [fst snd]. rewrite G. cbn [send step_gen]. rewrite K, A. cbn [negb]. rewrite C.
    unfold FsmModel.inside. cbn [c_resume c_start patron_code st_fun patrol patrol_fn run_fops fw_agents fw_rest]. rewrite K.
    unfold finish. cbn [unpack2 set_state fw_agents]. rewrite C. fold ds. reflexivity. }
  destruct (kicks ds (fw_rest w)) as (B1 & B2 & B3 & B4 & _ & B6). cbn [upd fw_agents fw_rest]. split.
  - intros b. destruct (Nat.eqb b a) eqn:E; auto. apply Nat.eqb_eq in E. subst b. now rewrite C.
  - cbn zeta. split; auto. split; auto. split; auto. split; auto. intros b. rewrite B6, orb_true_iff.
    assert (X : existsb (Nat.eqb b) ds = true <-> In b (s_reg s) /\ in_state "drunk_in_pub" w b /\ pr_drunk (fw_rest w) b = true).
    { split.
      - intros X. apply existsb_exists in X as (y & Y & X). apply Nat.eqb_eq in X. subst y.
        apply filter_In in Y as [Y D]. apply filter_In in Y as [Y Z]. split; auto. split; auto.
        unfold state_is in Z. destruct (fa_cur (fw_agents w b)) as [st|] eqn:CB; [|discriminate]. apply String.eqb_eq in Z. exists st. auto.
      - intros (X1 & (st & X2 & X3) & X4). apply existsb_exists. exists b. split; [|apply Nat.eqb_refl].
        apply filter_In. split; auto. apply filter_In. split; auto. unfold state_is. rewrite X2, X3. reflexivity. }
    tauto.
Qed.
