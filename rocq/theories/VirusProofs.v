(** Proofs about VirusModel. *)
From Coq Require Import ZArith List Bool Arith String Lia Permutation.
From Verif Require Import Num PyDict TimedModel TimedProofs AgentModel AgentProofs FsmModel RoundProofs NoopSpec NoopProofs VirusModel VirusSpec.
Import ListNotations.
Local Open Scope string_scope.
Local Open Scope list_scope.

(** * Generic: steps in rounds *)
Section Rounds.
Context {AR : Arith} {W : Type}.
Variable u : user W.
Variable di : num.
Variable K : nat.
Hypothesis T : ticks di K.
(** [P k l w]: after [k] steps the agents [l] are in the queue. *)
Variable P : nat -> list aid -> W -> Prop.
Hypothesis HP : forall k l w, P k l w -> exists J : list ev -> W -> Prop, J [] w /\
  (forall h s a w w' ops o, J h w -> u_step u s a w = (w', ops, o) -> (forall t, J (h ++ [EvAct t a o]) w') /\ ops = [] /\ regular di di o) /\
  (forall h l w w' l', J h w -> u_shuffle u l w = (w', l') -> J h w' /\ Permutation l l') /\
  (forall t m w', NoDup l -> Permutation l (map fst m) -> J (round t m) w' -> P (S k) (stayers m) w') /\ (l = [] -> P (S k) [] w).
Definition at_boundary (k : nat) (reg : list aid) (sh : bool) (s : sched) (l : list aid) (w : W) : Prop :=
  NoDup l /\ P k l w /\ s_reg s = reg /\ s_di s = di /\ s_shuffle s = sh /\
  match l with [] => s_queue s = [] /\ s_steps s <= k | _ => s_steps s = k /\ s_time s = tick di k /\ s_queue s = [(tick di k, l)] end.

Lemma ticks_tick k : k < K -> nonneg (tick di k) = true /\ n_truthy (tick di (S k)) = true /\ n_eqb (tick di (S k)) (tick di (S k)) = true /\
  n_eqb (tick di (S k)) PInf = false.
Proof.
  intros L. assert (N : forall j, j <= K -> nonneg (tick di j) = true).
  { induction j as [|j IH]; intros Lj; [reflexivity|]. destruct (T j) as [A _]; [lia|]. unfold nonneg in *.
    eapply n_leb_trans; [apply IH; lia|]. now apply n_ltb_leb. }
  destruct (T k L) as [A B]. pose proof (N k ltac:(lia)) as Nk. split; [exact Nk|].
  set (when := tick di (S k)) in *. assert (Q : n_ltb (Fin 0) when = true) by (eapply n_leb_ltb_trans; eauto).
  split; [|split].
  - unfold n_truthy. now rewrite (n_ltb_neq' _ _ Q).
  - destruct when; try discriminate B; try discriminate Q. cbn. apply Z.eqb_refl.
  - now apply n_ltb_neq.
Qed.
Lemma stayers_nodup m : NoDup (map fst m) -> NoDup (stayers m).
Proof.
  unfold stayers. induction m as [|[a o] m IH]; cbn; auto. intros N. apply NoDup_cons_iff in N as [N1 N2].
  destruct (stays o); cbn; auto. constructor; auto. intros I. apply N1. apply in_map_iff in I as ([b p] & E & I). apply filter_In in I as [I _].
  cbn in E. subst b. now apply (in_map fst) in I.
Qed.
Lemma one_round k reg sh s l w s' w' tr x : k < K -> at_boundary k reg sh s l w -> timed_step u s w = (s', w', tr, x) ->
  exists m, tr = round (s_time s) m /\ Permutation l (map fst m) /\ x = false /\ at_boundary (S k) reg sh s' (stayers m) w' /\
    s_steps s' = match l with [] => s_steps s | _ => S (s_steps s) end.
Proof.
  intros LK (N & HPk & R & D & Sh & Q) E. destruct (HP k l w HPk) as (J & J0 & JS & JF & JE & Jn). destruct l as [|a0 l0].
  { destruct Q as [Q1 Q2]. unfold timed_step in E. rewrite Q1 in E. injection E as <- <- <- <-. exists []. split; [reflexivity|]. split; [constructor|].
    split; [reflexivity|]. split; [|reflexivity]. split; [constructor|]. split; [now apply Jn|]. cbn. repeat (split; [assumption|]). lia. }
  destruct Q as (Q1 & Q2 & Q3). destruct (ticks_tick k LK) as (T1 & T2 & T3 & T4). set (l := a0 :: l0) in *.
  assert (NE : l <> []) by discriminate. rewrite <- Q2 in T1, Q3. assert (EW : tick di (S k) = n_add di (s_time s)) by (cbn [tick]; now rewrite Q2).
  rewrite EW in T2, T3, T4.
  destruct (step_round u J di di JS JF [] s w s' w' tr x l T1 T2 T3 T4 J0 D NE Q3 E) as (m & -> & M2 & -> & M4 & ->).
  exists m. split; [reflexivity|]. split; [exact M2|]. split; [reflexivity|]. cbn [app] in M4.
  assert (ND : NoDup (stayers m)) by (apply stayers_nodup; eapply Permutation_NoDup; eauto).
  split; [|reflexivity]. split; [exact ND|]. split; [eapply JE; eauto|]. cbn. split; [exact R|]. split; [exact D|]. split; [exact Sh|].
  destruct (stayers m) as [|b m']; cbn; [split; [reflexivity|lia]|]. rewrite Q1, <- EW. auto.
Qed.
Lemma some_rounds reg sh k : forall j s l w s' w' tr, j + k <= K -> at_boundary j reg sh s l w -> run_hist u (repeat CStep k) s w = (s', w', tr) ->
  exists l', at_boundary (j + k) reg sh s' l' w'.
Proof.
  induction k as [|k IH]; intros j s l w s' w' tr L B E; cbn [repeat run_hist run_cmd] in E.
  - injection E as <- <- <-. exists l. now rewrite Nat.add_0_r.
  - destruct (timed_step u s w) as [[[s1 w1] tr1] x] eqn:E1. destruct (run_hist u (repeat CStep k) s1 w1) as [[s2 w2] tr2] eqn:E2.
    injection E as <- <- <-. destruct (one_round j reg sh s l w s1 w1 tr1 x ltac:(lia) B E1) as (m & _ & _ & _ & B1 & _).
    destruct (IH (S j) s1 _ w1 _ _ _ ltac:(lia) B1 E2) as (l' & B2). exists l'. now replace (j + S k) with (S j + k) by lia.
Qed.
(** A model: adding agents, changing the world, and steps. *)
Lemma whole_run sh f l k w s' w' tr : k <= K -> NoDup l -> P 0 l (f w) ->
  run_hist u ((map (fun a => CAdd a None) l ++ [CWorld f] ++ repeat CStep k)%list) (timed_init sh di) w = (s', w', tr) ->
  exists l', at_boundary k l sh s' l' w'.
Proof.
  intros L N H E. rewrite run_hist_app, (start_single u sh di w l N) in E. cbn [app run_hist run_cmd] in E.
  destruct (run_hist u (repeat CStep k) (Sched (Fin 0) 0 (single (Fin 0) l) l sh di) (f w)) as [[s1 w1] tr1] eqn:E1. injection E as <- <- <-.
  apply (some_rounds l sh k 0 _ l _ _ _ _ L) in E1; [exact E1|]. split; [exact N|]. split; [exact H|]. cbn. repeat (split; [reflexivity|]).
  destruct l; cbn; auto.
Qed.
End Rounds.

Definition later (g g' : draws) : Prop := exists j, forall n, g' n = g (j + n).
Lemma later_refl g : later g g. Proof. now exists 0. Qed.
Lemma later_trans g1 g2 g3 : later g1 g2 -> later g2 g3 -> later g1 g3.
Proof. intros [i H] [j K]. exists (i + j). intros n. rewrite K, H. f_equal. lia. Qed.
Lemma later_next g : later g (fun n => g (S n)). Proof. now exists 1. Qed.
Lemma later_unit one g g' : later g g' -> unit_draws one g -> unit_draws one g'.
Proof. intros [j H] U n. rewrite H. apply U. Qed.
Lemma roll_sure one p g : unit_draws one g -> n_leb one p = true -> fst (vroll p g) = true.
Proof. intros U L. cbn. unfold prob. destruct (U 0) as [_ A]. eapply n_ltb_leb_trans; eauto. Qed.
Lemma roll_never one p g : unit_draws one g -> n_leb p (Fin 0) = true -> fst (vroll p g) = false.
Proof.
  intros U L. cbn. unfold prob. destruct (U 0) as [A _]. assert (B : n_leb p (g 0) = true) by (eapply n_leb_trans; eauto).
  destruct (n_ltb (g 0) p) eqn:E; auto. pose proof (n_ltb_leb_trans _ _ _ E B) as X. now rewrite n_ltb_irrefl in X.
Qed.

Section Virus.
Context {AR : Arith}.
Variable nbrs : aid -> list aid.
Variables spread check recovery gain : num.
Variable shuffle : list aid -> draws -> draws * list aid.
Hypothesis HSh : rearranges shuffle.
Notation user_a := (virus_user nbrs spread check recovery gain shuffle).
Notation user_b := (step_user nbrs spread check recovery gain shuffle).

(** * soil_states.py *)
Definition st_of (x : status) : state vfun := match x with Susceptible => susceptible_st | Infected => infected_st | Resistant => resistant_st end.
Definition agent_at (x : status) : fagent vfun := FAgent (KFsm (fst (meta virus_class))) true (Some (st_of x)).
Definition fine (x : fworld vfun vrest * cors (frame vfun)) (st : aid -> status) : Prop :=
  forall a, fw_agents (fst x) a = agent_at (st a) /\ get_co (snd x) a = None.
Definition flag (x : fworld vfun vrest * cors (frame vfun)) : aid -> bool := vr_flag (fw_rest (fst x)).
Definition rng (x : fworld vfun vrest * cors (frame vfun)) : draws := vr_draws (fw_rest (fst x)).

Lemma fine_name x st a : fine x st -> forall c, in_state (st_name (st_of c)) (fw_agents (fst x) a) = match st a, c with
  | Susceptible, Susceptible | Infected, Infected | Resistant, Resistant => true | _, _ => false end.
Proof. intros F c. destruct (F a) as [-> _]. unfold in_state. cbn. destruct (st a), c; reflexivity. Qed.
Lemma mark_spec l : forall r, later (vr_draws r) (vr_draws (mark spread l r)) /\
  (forall b, vr_flag (mark spread l r) b = true -> vr_flag r b = true \/ In b l) /\
  (forall b, vr_flag r b = true -> vr_flag (mark spread l r) b = true) /\
  (forall one, unit_draws one (vr_draws r) -> n_leb one spread = true -> forall b, In b l -> vr_flag (mark spread l r) b = true).
Proof.
  induction l as [|c l IH]; intros r; cbn [mark].
  { split; [apply later_refl|]. split; [auto|]. split; [auto|]. intros ? ? ? b []. }
  set (r1 := VRest (if prob (vr_draws r 0) spread then set_flag (vr_flag r) c true else vr_flag r) (fun n => vr_draws r (S n))).
  cbn [vroll]. fold r1. destruct (IH r1) as (A1 & A2 & A3 & A4). cbn [vr_draws vr_flag r1] in A1, A2, A3, A4.
  assert (M : forall b, vr_flag r b = true -> vr_flag r1 b = true).
  { intros b H. cbn. destruct (prob _ _); auto. unfold set_flag. destruct (Nat.eqb b c); auto. }
  split; [exact (later_trans _ _ _ (later_next _) A1)|]. split; [|split].
  - intros b H. apply A2 in H as [H|H]; [|now right; right]. destruct (prob _ _); auto. unfold set_flag in H.
    destruct (Nat.eqb_spec b c); auto. subst. right. now left.
  - intros b H. now apply A3, M.
  - intros one U L b [->|I].
    + apply A3. pose proof (roll_sure one spread _ U L) as X. cbn in X. rewrite X. unfold set_flag. now rewrite Nat.eqb_refl.
    + apply (A4 one); auto. apply (later_unit one _ _ (later_next _) U).
Qed.

(** What an activation does. *)
Definition act_a (st : aid -> status) (f : aid -> bool) (g : draws) (a : aid) (st' : aid -> status) (f' : aid -> bool) (g' : draws) (o : outcome) : Prop :=
  (forall b, b <> a -> st' b = st b) /\ later g g' /\
  match st a with
  | Susceptible => o = Ret None /\ st' a = (if f a then Infected else Susceptible) /\ (forall b, f' b = if f a then set_flag f a false b else f b)
  | Infected => o = Ret None /\ (forall one, unit_draws one g -> n_leb recovery (Fin 0) = true -> st' a = Infected) /\
      (forall one, unit_draws one g -> n_leb one check = true -> n_leb one recovery = true -> n_leb one gain = true -> st' a = Resistant) /\
      (forall b, f' b = true -> f b = true \/ In b (nbrs a) /\ st b = Susceptible) /\ (forall b, f b = true -> f' b = true) /\
      (forall one, unit_draws one g -> n_leb one spread = true -> forall b, In b (nbrs a) -> st b = Susceptible -> f' b = true)
  | Resistant => o = Ret (Some PInf) /\ st' a = Resistant /\ f' = f
  end.
Lemma act_fn s a w c st r v y o : fine (w, c) st ->
  c_resume (virus_code nbrs spread check recovery gain) s a (st_fun (st_of (st a))) w = (r, [], GReturn v) ->
  v = PNone /\ y = st a /\ o = Ret None \/ v = PState (st_of y) /\ o = Ret None \/ v = PNum PInf /\ y = st a /\ o = Ret (Some PInf) ->
  exists x', u_step user_a s a (w, c) = (x', [], o) /\ fine x' (fun b => if Nat.eqb b a then y else st b) /\ fw_rest (fst x') = r.
Proof.
  intros F E H. destruct (F a) as [Fa Fc]. cbn [fst snd] in Fa, Fc.
  assert (RS : forall y z, (forall b, get_co (set_co (set_co (set_co c a y) a z) a None) b = None)).
  { intros y0 z b. rewrite !get_set_co. destruct (Nat.eqb b a); auto. apply F. }
  cbn [u_step virus_user agent_user]. unfold agent_step, decorated. cbn [fst snd]. rewrite Fc. cbn [send step_gen].
  rewrite Fa. cbn [fa_kind fa_alive fa_cur agent_at negb]. unfold inside. change (c_start _ ?f) with f. rewrite E. cbn [run_fops fw_agents]. rewrite Fa.
  cbn [fa_kind agent_at].
  destruct H as [(-> & -> & ->)|[(-> & ->)|(-> & -> & ->)]]; cbn; eexists; (split; [reflexivity|]); (split; [|reflexivity]);
    intros b; (split; [|apply RS]); cbn; try (destruct (Nat.eqb_spec b a); [subst; rewrite ?Fa; reflexivity|apply F]).
Qed.
Lemma act_a_step s a x x' ops o st : fine x st -> u_step user_a s a x = (x', ops, o) ->
  exists st', fine x' st' /\ ops = [] /\ act_a st (flag x) (rng x) a st' (flag x') (rng x') o.
Proof.
  intros F E. destruct x as [w c]. unfold flag, rng. cbn [fst]. set (R := fw_rest w) in *.
  assert (Fn : forall y r v o0, c_resume (virus_code nbrs spread check recovery gain) s a (st_fun (st_of (st a))) w = (r, [], GReturn v) ->
    v = PNone /\ y = st a /\ o0 = Ret None \/ v = PState (st_of y) /\ o0 = Ret None \/ v = PNum PInf /\ y = st a /\ o0 = Ret (Some PInf) ->
    act_a st (vr_flag R) (vr_draws R) a (fun b => if Nat.eqb b a then y else st b) (vr_flag r) (vr_draws r) o0 ->
    exists st', fine x' st' /\ ops = [] /\ act_a st (vr_flag R) (vr_draws R) a st' (vr_flag (fw_rest (fst x'))) (vr_draws (fw_rest (fst x'))) o).
  { intros y r v o0 C H A. destruct (act_fn s a w c st r v y o0 F C H) as (x1 & E1 & F1 & R1).
    assert (E2 : (x', ops, o) = (x1, [], o0)) by (rewrite <- E; exact E1). injection E2 as -> -> ->. eexists. split; [exact F1|]. split; [reflexivity|].
    now rewrite R1. }
  assert (Oth : forall y b, b <> a -> (if Nat.eqb b a then y else st b) = st b) by (intros y b NE; apply Nat.eqb_neq in NE; now rewrite NE).
  destruct (st a) eqn:Sa; cbn [st_of st_fun susceptible_st infected_st resistant_st] in Fn; cbn [c_resume virus_code] in Fn; fold R in Fn.
  - unfold susceptible_fn in Fn. destruct (vr_flag R a) eqn:Ff.
    + eapply (Fn Infected); [reflexivity|right; left; split; reflexivity|]. split; [apply Oth|]. split; [apply later_refl|]. rewrite Sa, Ff, Nat.eqb_refl. cbn. auto.
    + eapply (Fn Susceptible); [reflexivity|left; auto|]. split; [apply Oth|]. split; [apply later_refl|]. rewrite Sa, Ff, Nat.eqb_refl. auto.
  - unfold infected_fn in Fn. set (l := filter _ (nbrs a)) in Fn.
    assert (Il : forall b, In b l <-> In b (nbrs a) /\ st b = Susceptible).
    { intros b. unfold l. rewrite filter_In. change "susceptible" with (st_name (st_of Susceptible)).
      pose proof (fine_name (w, c) st b F Susceptible) as X. cbn [fst] in X. rewrite X. destruct (st b); intuition congruence. }
    destruct (mark_spec l R) as (M1 & M2 & M3 & M4). set (r := mark spread l R) in *. cbn [vroll] in Fn. cbv zeta in Fn.
    assert (G : forall y r', vr_flag r' = vr_flag r -> later (vr_draws r) (vr_draws r') ->
      (forall one, unit_draws one (vr_draws R) -> n_leb recovery (Fin 0) = true -> y = Infected) ->
      (forall one, unit_draws one (vr_draws R) -> n_leb one check = true -> n_leb one recovery = true -> n_leb one gain = true -> y = Resistant) ->
      act_a st (vr_flag R) (vr_draws R) a (fun b => if Nat.eqb b a then y else st b) (vr_flag r') (vr_draws r') (Ret None)).
    { intros y r' H1 H2 H3 H4. split; [apply Oth|]. split; [exact (later_trans _ _ _ M1 H2)|]. rewrite Sa, Nat.eqb_refl, H1. split; [reflexivity|].
      split; [exact H3|]. split; [exact H4|]. split; [|split; [exact M3|]].
      - intros b H. apply M2 in H as [H|H]; auto. apply Il in H. auto.
      - intros one U L b I S. apply (M4 one); auto. now apply Il. }
    assert (Sure : forall one k p, unit_draws one (vr_draws R) -> n_leb one p = true -> prob (vr_draws r k) p = true).
    { intros one k p U L. destruct M1 as [j M1]. rewrite M1. pose proof (roll_sure one p (fun n => vr_draws R (j + k + n)) (fun n => U _) L) as X.
      cbn in X. now rewrite Nat.add_0_r in X. }
    destruct (prob (vr_draws r 0) check) eqn:PC.
    + destruct (prob (vr_draws r 1) recovery) eqn:PR.
      * assert (NR : forall y one, unit_draws one (vr_draws R) -> n_leb recovery (Fin 0) = true -> y = Infected).
        { intros y one U L. destruct M1 as [j M1]. rewrite M1 in PR. assert (X : fst (vroll recovery (fun n => vr_draws R (j + 1 + n))) = false).
          { apply (roll_never one); auto. intros n. apply U. }
          cbn in X. rewrite Nat.add_0_r in X. congruence. }
        eapply (Fn (if prob (vr_draws r 2) gain then Resistant else Susceptible)); [reflexivity| |].
        -- right. left. destruct (prob (vr_draws r 2) gain); auto.
        -- apply G; [reflexivity| |apply NR|]; [now exists 3|]. intros one U L1 L2 L3. now rewrite (Sure one 2 gain U L3).
      * eapply (Fn Infected); [reflexivity|right; left; split; reflexivity|]. apply G; [reflexivity| |auto|]; [now exists 2|].
        intros one U L1 L2 L3. rewrite (Sure one 1 recovery U L2) in PR. discriminate PR.
    + eapply (Fn Infected); [reflexivity|left; auto|]. apply G; [reflexivity| |auto|]; [now exists 1|].
      intros one U L1 L2 L3. rewrite (Sure one 0 check U L1) in PC. discriminate PC.
  - eapply (Fn Resistant); [reflexivity|right; right; auto|]. split; [apply Oth|]. split; [apply later_refl|]. rewrite Sa, Nat.eqb_refl. auto.
Qed.

(** * soil_step.py *)
Lemma infect_all_spec l : forall w, later (sw_draws w) (sw_draws (infect_all spread l w)) /\
  (forall b, sw_status (infect_all spread l w) b = sw_status w b \/ In b l /\ sw_status (infect_all spread l w) b = Infected) /\
  (forall b, sw_status w b = Infected -> sw_status (infect_all spread l w) b = Infected) /\
  (forall one, unit_draws one (sw_draws w) -> n_leb one spread = true -> forall b, In b l -> sw_status (infect_all spread l w) b = Infected).
Proof.
  induction l as [|c l IH]; intros w; cbn [infect_all].
  { split; [apply later_refl|]. split; [auto|]. split; [auto|]. intros ? ? ? b []. }
  set (w1 := SWorld (if prob (sw_draws w 0) spread then set_status (sw_status w) c Infected else sw_status w) (fun n => sw_draws w (S n))).
  cbn [vroll]. fold w1. destruct (IH w1) as (A1 & A2 & A3 & A4).
  assert (M : forall b, sw_status w1 b = sw_status w b \/ b = c /\ sw_status w1 b = Infected).
  { intros b. cbn. destruct (prob _ _); auto. unfold set_status. destruct (Nat.eqb_spec b c); auto. }
  split; [exact (later_trans _ _ _ (later_next _) A1)|]. split; [|split].
  - intros b. destruct (A2 b) as [H|[H1 H2]]; [|right; split; [now right|exact H2]]. destruct (M b) as [H1|[-> H1]]; rewrite H, H1; auto.
    right. split; [now left|reflexivity].
  - intros b H. apply A3. destruct (M b) as [H1|[-> H1]]; congruence.
  - intros one U L b [->|I].
    + apply A3. cbn. pose proof (roll_sure one spread _ U L) as X. cbn in X. rewrite X. unfold set_status. now rewrite Nat.eqb_refl.
    + apply (A4 one); auto. apply (later_unit one _ _ (later_next _) U).
Qed.
Definition act_b (st : aid -> status) (g : draws) (a : aid) (st' : aid -> status) (g' : draws) (o : outcome) : Prop :=
  later g g' /\
  match st a with
  | Infected => (forall b, b <> a -> st' b = st b \/ In b (nbrs a) /\ st b = Susceptible /\ st' b = Infected) /\
      (forall one, unit_draws one g -> n_leb one spread = true -> forall b, b <> a -> In b (nbrs a) -> st b = Susceptible -> st' b = Infected) /\
      (st' a <> Resistant /\ o = Ret None \/ st' a = Resistant /\ o = Ret (Some PInf)) /\
      (forall one, unit_draws one g -> n_leb recovery (Fin 0) = true -> st' a = Infected) /\
      (forall one, unit_draws one g -> n_leb one check = true -> n_leb one recovery = true -> n_leb one gain = true -> st' a = Resistant)
  | _ => (forall b, st' b = st b) /\ o = Ret None
  end.
Lemma act_b_step s a w w' ops o : u_step user_b s a w = (w', ops, o) ->
  ops = [] /\ act_b (sw_status w) (sw_draws w) a (sw_status w') (sw_draws w') o.
Proof.
  intros E. cbn [u_step step_user] in E. unfold virus_step in E. destruct (is_infected (sw_status w a)) eqn:Ia.
  - assert (Sa : sw_status w a = Infected) by (destruct (sw_status w a); try discriminate Ia; reflexivity).
    unfold try_to_infect in E. set (l := filter _ (nbrs a)) in E. destruct (infect_all_spec l w) as (M1 & M2 & M3 & M4).
    assert (Il : forall b, In b l <-> In b (nbrs a) /\ sw_status w b = Susceptible).
    { intros b. unfold l. rewrite filter_In. destruct (sw_status w b); cbn; intuition congruence. }
    set (w1 := infect_all spread l w) in *. pose proof (M3 a Sa) as S1.
    assert (G : forall st2 g2 d, (forall b, b <> a -> st2 b = sw_status w1 b) -> later (sw_draws w1) g2 ->
      (st2 a <> Resistant /\ d = None \/ st2 a = Resistant /\ d = Some PInf) ->
      (forall one, unit_draws one (sw_draws w) -> n_leb recovery (Fin 0) = true -> st2 a = Infected) ->
      (forall one, unit_draws one (sw_draws w) -> n_leb one check = true -> n_leb one recovery = true -> n_leb one gain = true -> st2 a = Resistant) ->
      act_b (sw_status w) (sw_draws w) a st2 g2 (Ret d)).
    { intros st2 g2 d H1 H2 H3 H4 H5. split; [exact (later_trans _ _ _ M1 H2)|]. rewrite Sa. split; [|split; [|split; [|split; assumption]]].
      - intros b NE. rewrite H1 by assumption. destruct (M2 b) as [H|[H H6]]; auto. right. apply Il in H as [? ?]. auto.
      - intros one U L b NE I S. rewrite H1 by assumption. apply (M4 one); auto. now apply Il.
      - destruct H3 as [[? ->]|[? ->]]; auto. }
    assert (Sure : forall one k p, unit_draws one (sw_draws w) -> n_leb one p = true -> prob (sw_draws w1 k) p = true).
    { intros one k p U L. destruct M1 as [j M1]. rewrite M1. pose proof (roll_sure one p (fun n => sw_draws w (j + k + n)) (fun n => U _) L) as X.
      cbn in X. now rewrite Nat.add_0_r in X. }
    unfold try_check in E. cbn [vroll sw_draws sw_status] in E. rewrite S1 in E. cbn [is_infected] in E. rewrite andb_true_r in E.
    destruct (prob (sw_draws w1 0) check) eqn:PC.
    + unfold try_remove in E. cbn [vroll sw_draws sw_status] in E. destruct (prob (sw_draws w1 1) recovery) eqn:PR.
      * assert (NR : forall y one, unit_draws one (sw_draws w) -> n_leb recovery (Fin 0) = true -> y = Infected).
        { intros y one U L. destruct M1 as [j M1]. rewrite M1 in PR. assert (X : fst (vroll recovery (fun n => sw_draws w (j + 1 + n))) = false).
          { apply (roll_never one); auto. intros n. apply U. }
          cbn in X. rewrite Nat.add_0_r in X. congruence. }
        unfold try_gain in E. cbn [vroll sw_draws sw_status] in E.
        destruct (prob (sw_draws w1 2) gain) eqn:PG; injection E as <- <- <-; (split; [reflexivity|]); apply G; cbn; unfold set_status.
        -- intros b NE. apply Nat.eqb_neq in NE. now rewrite NE.
        -- now exists 3.
        -- rewrite Nat.eqb_refl. auto.
        -- apply NR.
        -- now rewrite Nat.eqb_refl.
        -- intros b NE. apply Nat.eqb_neq in NE. now rewrite NE.
        -- now exists 3.
        -- rewrite Nat.eqb_refl. left. split; [discriminate|reflexivity].
        -- apply NR.
        -- intros one U L1 L2 L3. rewrite (Sure one 2 gain U L3) in PG. discriminate PG.
      * injection E as <- <- <-. split; [reflexivity|]. apply G; cbn; auto.
        -- now exists 2.
        -- left. rewrite S1. split; [discriminate|reflexivity].
        -- intros one U L1 L2 L3. rewrite (Sure one 1 recovery U L2) in PR. discriminate PR.
    + injection E as <- <- <-. split; [reflexivity|]. apply G; cbn; auto.
      * now exists 1.
      * left. rewrite S1. split; [discriminate|reflexivity].
      * intros one U L1 L2 L3. rewrite (Sure one 0 check U L1) in PC. discriminate PC.
  - unfold try_check in E. cbn [vroll sw_draws sw_status] in E. rewrite Ia, andb_false_r in E. injection E as <- <- <-. split; [reflexivity|].
    split; [apply later_next|]. cbn. destruct (sw_status w a); try discriminate Ia; auto.
Qed.
End Virus.

(** * Both versions, in rounds *)
Section Frame.
Context {AR : Arith} {W : Type}.
Variable u : user W.
Variable di : num.
Variable K : nat.
Hypothesis T : ticks di K.
Variable shuffle : list aid -> draws -> draws * list aid.
Variable ok : W -> (aid -> status) -> Prop.
Variable flag : W -> aid -> bool.
Variable rng : W -> draws.
Variable act : (aid -> status) -> (aid -> bool) -> draws -> aid -> (aid -> status) -> (aid -> bool) -> draws -> outcome -> Prop.
Hypothesis HA : forall s a x x' ops o st, ok x st -> u_step u s a x = (x', ops, o) ->
  exists st', ok x' st' /\ ops = [] /\ act st (flag x) (rng x) a st' (flag x') (rng x') o.
Hypothesis HO : forall st f g a st' f' g' o, act st f g a st' f' g' o -> o = Ret None \/ o = Ret (Some PInf).
Hypothesis HU : forall l x x' l' st, ok x st -> u_shuffle u l x = (x', l') ->
  ok x' st /\ flag x' = flag x /\ rng x' = fst (shuffle l (rng x)) /\ Permutation l l'.
Definition boundary := nat -> list aid -> (aid -> status) -> (aid -> bool) -> draws -> Prop.
(** [B] holds between the steps if some relation holds inside of them. *)
Definition preserved (B : boundary) : Prop := forall k l st f g, B k l st f g -> exists R : list ev -> (aid -> status) -> (aid -> bool) -> draws -> Prop,
  R [] st f g /\
  (forall h st f g a st' f' g' o t, R h st f g -> act st f g a st' f' g' o -> R (h ++ [EvAct t a o]) st' f' g') /\
  (forall h st f g l, R h st f g -> R h st f (fst (shuffle l g))) /\
  (forall t m st' f' g', NoDup l -> Permutation l (map fst m) -> R (round t m) st' f' g' -> B (S k) (stayers m) st' f' g') /\
  (l = [] -> B (S k) [] st f g).
Definition between (B : boundary) (k : nat) (l : list aid) (x : W) : Prop := exists st, ok x st /\ B k l st (flag x) (rng x).
Lemma frame_HP B : preserved B -> forall k l w, between B k l w -> exists J : list ev -> W -> Prop, J [] w /\
  (forall h s a w w' ops o, J h w -> u_step u s a w = (w', ops, o) -> (forall t, J (h ++ [EvAct t a o]) w') /\ ops = [] /\ regular di di o) /\
  (forall h l w w' l', J h w -> u_shuffle u l w = (w', l') -> J h w' /\ Permutation l l') /\
  (forall t m w', NoDup l -> Permutation l (map fst m) -> J (round t m) w' -> between B (S k) (stayers m) w') /\ (l = [] -> between B (S k) [] w).
Proof.
  intros HB k l w (st & F & Bk). destruct (HB k l st _ _ Bk) as (R & R0 & RS & RF & RE & Rn).
  exists (fun h x => exists st, ok x st /\ R h st (flag x) (rng x)). split; [eauto|]. split; [|split; [|split]].
  - intros h s a x x' ops o (st1 & F1 & R1) E. destruct (HA _ _ _ _ _ _ _ F1 E) as (st2 & F2 & -> & A).
    split; [intros t; exists st2; eauto|]. split; [reflexivity|]. destruct (HO _ _ _ _ _ _ _ _ A) as [-> | ->]; cbn; auto.
  - intros h l1 x x' l' (st1 & F1 & R1) E. destruct (HU _ _ _ _ _ F1 E) as (F2 & E1 & E2 & Pm). split; [|exact Pm]. exists st1. split; [exact F2|].
    rewrite E1, E2. auto.
  - intros t m x' N Pm (st1 & F1 & R1). exists st1. eauto.
  - intros El. exists st. auto.
Qed.
Definition bound (B : boundary) := at_boundary di (between B).
Lemma bound_weaken (B B' : boundary) k reg sh s l x : bound B k reg sh s l x -> between B' k l x -> bound B' k reg sh s l x.
Proof. intros (H1 & H2 & H3) X. split; auto. Qed.
Lemma frame_run B sh f l k w s' w' tr : preserved B -> k <= K -> NoDup l -> between B 0 l (f w) ->
  run_hist u ((map (fun a => CAdd a None) l ++ [CWorld f] ++ repeat CStep k)%list) (timed_init sh di) w = (s', w', tr) ->
  exists l', bound B k l sh s' l' w'.
Proof. intros HB. apply (whole_run u di K T (between B) (frame_HP B HB)). Qed.
Lemma frame_more B reg sh k j s l w s' w' tr : preserved B -> j + k <= K -> bound B j reg sh s l w -> run_hist u (repeat CStep k) s w = (s', w', tr) ->
  exists l', bound B (j + k) reg sh s' l' w'.
Proof. intros HB. apply (some_rounds u di K T (between B) (frame_HP B HB)). Qed.
Lemma frame_step B k reg sh s l w s' w' tr x : preserved B -> k < K -> bound B k reg sh s l w -> timed_step u s w = (s', w', tr, x) ->
  exists m, tr = round (s_time s) m /\ Permutation l (map fst m) /\ x = false /\ bound B (S k) reg sh s' (stayers m) w' /\
    s_steps s' = match l with [] => s_steps s | _ => S (s_steps s) end.
Proof. intros HB. apply (one_round u di K T (between B) (frame_HP B HB)). Qed.
Lemma split_run f l sh k j w s2 w2 tr2 :
  run_hist u ((map (fun a => CAdd a None) l ++ [CWorld f] ++ repeat CStep (k + j))%list) (timed_init sh di) w = (s2, w2, tr2) ->
  exists s1 w1 tr1 tr, run_hist u ((map (fun a => CAdd a None) l ++ [CWorld f] ++ repeat CStep k)%list) (timed_init sh di) w = (s1, w1, tr1) /\
    run_hist u (repeat CStep j) s1 w1 = (s2, w2, tr) /\ tr2 = tr1 ++ tr.
Proof.
  intros E. rewrite repeat_app, !app_assoc, run_hist_app in E. rewrite <- !app_assoc in E.
  destruct (run_hist u (map (fun a => CAdd a None) l ++ [CWorld f] ++ repeat CStep k) (timed_init sh di) w) as [[s1 w1] tr1].
  destruct (run_hist u (repeat CStep j) s1 w1) as [[s3 w3] tr3] eqn:E3. injection E as <- <- <-. eauto 8.
Qed.
(** A property of statuses, flags and draws that activations and shuffles keep. *)
Lemma kept (I : (aid -> status) -> (aid -> bool) -> draws -> Prop) :
  (forall st f g a st' f' g' o, I st f g -> act st f g a st' f' g' o -> I st' f' g') -> (forall st f g l, I st f g -> I st f (fst (shuffle l g))) ->
  preserved (fun _ _ => I).
Proof.
  intros H1 H2 k l st f g H. exists (fun _ => I). split; [exact H|]. split; [intros; eauto|]. split; [auto|]. split; auto.
Qed.
End Frame.

Lemma actors_app h1 h2 : actors (h1 ++ h2) = actors h1 ++ actors h2.
Proof. induction h1 as [|[] h1 IH]; cbn; auto. now rewrite IH. Qed.
Lemma actors_round t m : actors (round t m) = map fst m.
Proof. unfold round. induction m as [|[a o] m IH]; cbn; auto. now rewrite IH. Qed.
Lemma event_actor h t a o : In (EvAct t a o) h -> In a (actors h).
Proof. induction h as [|e h IH]; cbn [In]; [auto|]. intros [->|I]; [now left|]. destruct e; cbn; auto. Qed.
Lemma nodup_snoc (l : list aid) a : NoDup (l ++ [a]) <-> NoDup l /\ ~ In a l.
Proof.
  split.
  - intros N. split; [now apply nodup_left in N|]. intros I. apply NoDup_remove_2 in N. rewrite app_nil_r in N. auto.
  - intros [N I]. apply (Permutation_NoDup (Permutation_cons_append l a)). now constructor.
Qed.
Lemma round_in t m s a o : In (EvAct s a o) (round t m) <-> s = t /\ In (a, o) m.
Proof.
  unfold round. rewrite in_map_iff. split.
  - intros ([b p] & E & I). cbn in E. injection E as <- <- <-. auto.
  - intros [-> I]. exists (a, o). auto.
Qed.
Lemma stayers_in m a : In a (stayers m) <-> exists o, In (a, o) m /\ stays o = true.
Proof.
  unfold stayers. rewrite in_map_iff. split.
  - intros ([b o] & E & I). apply filter_In in I as [I S]. cbn in *. subst b. eauto.
  - intros (o & I & S). exists (a, o). split; [reflexivity|]. apply filter_In. auto.
Qed.
Lemma acted_once (m : list (aid * outcome)) a o o' : NoDup (map fst m) -> In (a, o) m -> In (a, o') m -> o = o' :> outcome.
Proof.
  induction m as [|[b p] m IH]; [intros _ []|]. cbn [map fst In]. intros N [E1|I1] [E2|I2]; [congruence| | |].
  - injection E1 as -> ->. apply NoDup_cons_iff in N as [N _]. destruct N. now apply (in_map fst) in I2.
  - injection E2 as -> ->. apply NoDup_cons_iff in N as [N _]. destruct N. now apply (in_map fst) in I1.
  - apply NoDup_cons_iff in N as [_ N]. auto.
Qed.

Section Claims.
Context {AR : Arith}.
Variable nbrs : aid -> list aid.
Variables spread check recovery gain : num.
Variable shuffle : list aid -> draws -> draws * list aid.
Hypothesis HSh : rearranges shuffle.
Notation user_a := (virus_user nbrs spread check recovery gain shuffle).
Notation user_b := (step_user nbrs spread check recovery gain shuffle).
Variable di : num.
Variable n : nat.
Variable chosen : list aid.

(** soil_states.py: the start. *)
Definition st0 (a : aid) : status := if existsb (Nat.eqb a) chosen && existsb (Nat.eqb a) (virus_ids n) then Infected else Susceptible.
Lemma in_existsb a l : existsb (Nat.eqb a) l = true <-> In a l.
Proof.
  rewrite existsb_exists. split; [intros (b & I & E); apply Nat.eqb_eq in E; now subst|]. intros I. exists a. split; [exact I|apply Nat.eqb_refl].
Qed.
Lemma outbreak_fine g : fine (outbreak n chosen (virus_world g)) st0 /\ flag (outbreak n chosen (virus_world g)) = (fun _ => false) /\
  rng (outbreak n chosen (virus_world g)) = g.
Proof.
  unfold outbreak. cbn [virus_world fst snd].
  assert (G : forall l w st, fine (w, no_cors) st ->
    let w' := fold_left (fun w a => call_set_state (timed_init false (Fin 0)) w a (PState infected_st)) l w in
    fine (w', no_cors) (fun a => if existsb (Nat.eqb a) l then Infected else st a) /\ fw_rest w' = fw_rest w).
  { induction l as [|b l IH]; intros w st F; cbn [fold_left existsb]; [split; auto|].
    assert (E : call_set_state (timed_init false (Fin 0)) w b (PState infected_st) = upd w b (agent_at Infected)).
    { unfold call_set_state. cbn [timed_init s_time n_ltb Z.ltb Z.compare]. destruct (F b) as [X _]. cbn [fst] in X. rewrite X. reflexivity. }
    rewrite E. destruct (IH (upd w b (agent_at Infected)) (fun a => if Nat.eqb a b then Infected else st a)) as [F1 F2].
    { intros a. split; [|reflexivity]. cbn. destruct (Nat.eqb a b); [reflexivity|apply F]. }
    split; [|exact F2]. intros a. destruct (F1 a) as [A1 A2]. split; [|exact A2]. rewrite A1. destruct (Nat.eqb a b), (existsb (Nat.eqb a) l); reflexivity. }
  destruct (G (filter (fun a => existsb (Nat.eqb a) chosen) (virus_ids n)) (FWorld (fun _ => new_agent) (VRest (fun _ => false) g)) (fun _ => Susceptible))
    as [F1 F2]. { intros a. split; reflexivity. }
  split; [|unfold flag, rng; cbn [fst]; rewrite F2; auto].
  intros a. destruct (F1 a) as [A1 A2]. split; [|exact A2]. rewrite A1. unfold st0. f_equal.
  destruct (existsb (Nat.eqb a) chosen && existsb (Nat.eqb a) (virus_ids n)) eqn:E1.
  - apply andb_true_iff in E1 as [E1 E2]. assert (X : existsb (Nat.eqb a) (filter (fun a => existsb (Nat.eqb a) chosen) (virus_ids n)) = true).
    { apply in_existsb, filter_In. split; [now apply in_existsb|exact E1]. } now rewrite X.
  - destruct (existsb (Nat.eqb a) (filter _ _)) eqn:X; [|reflexivity]. apply in_existsb, filter_In in X as [X1 X2]. apply in_existsb in X1.
    rewrite X1, X2 in E1. discriminate E1.
Qed.
Lemma step_outbreak_st0 g a : sw_status (step_outbreak n chosen (SWorld (fun _ => Susceptible) g)) a = st0 a.
Proof.
  unfold step_outbreak. cbn [sw_status].
  assert (G : forall l st, fold_left (fun st a => set_status st a Infected) l st a = if existsb (Nat.eqb a) l then Infected else st a).
  { induction l as [|b l IH]; intros st; cbn [fold_left existsb]; [reflexivity|]. rewrite IH. unfold set_status.
    destruct (Nat.eqb a b), (existsb (Nat.eqb a) l); reflexivity. }
  rewrite G. unfold st0. destruct (existsb (Nat.eqb a) chosen && existsb (Nat.eqb a) (virus_ids n)) eqn:E1.
  - apply andb_true_iff in E1 as [E1 E2]. assert (X : existsb (Nat.eqb a) (filter (fun a => existsb (Nat.eqb a) chosen) (virus_ids n)) = true).
    { apply in_existsb, filter_In. split; [now apply in_existsb|exact E1]. } now rewrite X.
  - destruct (existsb (Nat.eqb a) (filter _ _)) eqn:X; [|reflexivity]. apply in_existsb, filter_In in X as [X1 X2]. apply in_existsb in X1.
    rewrite X1, X2 in E1. discriminate E1.
Qed.

(** The two frames. *)
Notation act1 := (act_a nbrs spread check recovery gain).
Notation act2 := (fun st (_ : aid -> bool) g a st' (_ : aid -> bool) g' o => act_b nbrs spread check recovery gain st g a st' g' o).
Definition ok_b (w : sworld) (st : aid -> status) : Prop := forall a, st a = sw_status w a.
Definition no_flag (w : sworld) (a : aid) : bool := false.
Lemma a_HO st f g a st' f' g' o : act1 st f g a st' f' g' o -> o = Ret None \/ o = Ret (Some PInf).
Proof. intros (_ & _ & H). destruct (st a); destruct H as [H _]; auto. Qed.
Lemma a_HU l x x' l' st : fine x st -> u_shuffle user_a l x = (x', l') ->
  fine x' st /\ flag x' = flag x /\ rng x' = fst (shuffle l (rng x)) /\ Permutation l l'.
Proof.
  intros F E. cbn [u_shuffle virus_user agent_user] in E. unfold flag, rng. pose proof (HSh l (vr_draws (fw_rest (fst x)))) as Pm.
  destruct (shuffle l (vr_draws (fw_rest (fst x)))) as [g1 l1]. injection E as <- <-. cbn. auto.
Qed.
Lemma b_HA s a x x' ops o st : ok_b x st -> u_step user_b s a x = (x', ops, o) ->
  exists st', ok_b x' st' /\ ops = [] /\ act2 st (no_flag x) (sw_draws x) a st' (no_flag x') (sw_draws x') o.
Proof.
  intros F E. destruct (act_b_step _ _ _ _ _ _ _ _ _ _ _ _ E) as [-> [A1 A2]]. exists (sw_status x'). split; [intros b; reflexivity|]. split; [reflexivity|].
  split; [exact A1|]. rewrite <- F in A2. destruct (st a).
  - destruct A2 as [A2 ->]. split; [|reflexivity]. intros b. now rewrite A2, F.
  - destruct A2 as (B1 & B2 & B3 & B4 & B5). split; [|split; [|auto]].
    + intros b NE. rewrite F. now apply B1.
    + intros one U L b NE I S. rewrite F in S. eauto.
  - destruct A2 as [A2 ->]. split; [|reflexivity]. intros b. now rewrite A2, F.
Qed.
Lemma b_HO st (f : aid -> bool) g a st' (f' : aid -> bool) g' o : act2 st f g a st' f' g' o -> o = Ret None \/ o = Ret (Some PInf).
Proof. intros (_ & H). destruct (st a); [destruct H as [_ H]; auto| |destruct H as [_ H]; auto]. destruct H as (_ & _ & [[_ H]|[_ H]] & _); auto. Qed.
Lemma b_HU l x x' l' st : ok_b x st -> u_shuffle user_b l x = (x', l') ->
  ok_b x' st /\ no_flag x' = no_flag x /\ sw_draws x' = fst (shuffle l (sw_draws x)) /\ Permutation l l'.
Proof.
  intros F E. cbn [u_shuffle step_user] in E. pose proof (HSh l (sw_draws x)) as Pm.
  destruct (shuffle l (sw_draws x)) as [g1 l1]. injection E as <- <-. cbn. auto.
Qed.
Lemma ids_nodup : NoDup (virus_ids n).
Proof. apply seq_NoDup. Qed.

Definition bound_a (B : boundary) := bound di fine flag rng B.
Definition bound_b (B : boundary) := bound di ok_b no_flag sw_draws B.
Notation pres_a := (preserved shuffle act1).
Notation pres_b := (preserved shuffle act2).
Lemma a_run K B sh k g s x tr : ticks di K -> pres_a B -> k <= K -> B 0 (virus_ids n) st0 (fun _ => false) g ->
  virus_run nbrs spread check recovery gain shuffle sh di n chosen k g = (s, x, tr) -> exists l, bound_a B k (virus_ids n) sh s l x.
Proof.
  intros T HB L H E. destruct (outbreak_fine g) as (F1 & F2 & F3).
  refine (frame_run user_a di K T shuffle fine flag rng act1 (act_a_step nbrs spread check recovery gain shuffle) a_HO a_HU B sh (outbreak n chosen) (virus_ids n) k
    (virus_world g) s x tr HB L ids_nodup _ E). exists st0. split; [exact F1|]. now rewrite F2, F3.
Qed.
Lemma b_run K B sh k g s x tr : ticks di K -> pres_b B -> k <= K -> B 0 (virus_ids n) st0 (fun _ => false) g ->
  step_run nbrs spread check recovery gain shuffle sh di n chosen k g = (s, x, tr) -> exists l, bound_b B k (virus_ids n) sh s l x.
Proof.
  intros T HB L H E.
  refine (frame_run user_b di K T shuffle ok_b no_flag sw_draws act2 b_HA b_HO b_HU B sh (step_outbreak n chosen) (virus_ids n) k
    (SWorld (fun _ => Susceptible) g) s x tr HB L ids_nodup _ E). exists st0. split; [|exact H]. intros a. now rewrite step_outbreak_st0.
Qed.
Definition a_more K T := frame_more user_a di K T shuffle fine flag rng act1 (act_a_step nbrs spread check recovery gain shuffle) a_HO a_HU.
Definition b_more K T := frame_more user_b di K T shuffle ok_b no_flag sw_draws act2 b_HA b_HO b_HU.
Definition a_step K T := frame_step user_a di K T shuffle fine flag rng act1 (act_a_step nbrs spread check recovery gain shuffle) a_HO a_HU.
Definition b_step K T := frame_step user_b di K T shuffle ok_b no_flag sw_draws act2 b_HA b_HO b_HU.

Lemma st0_infected a : st0 a = Infected <-> In a chosen /\ In a (virus_ids n).
Proof.
  unfold st0. rewrite <- !in_existsb, <- andb_true_iff. destruct (existsb (Nat.eqb a) chosen && existsb (Nat.eqb a) (virus_ids n)); split; auto; discriminate.
Qed.
Lemma st0_not_resistant a : st0 a <> Resistant.
Proof. unfold st0. destruct (_ && _); discriminate. Qed.
Lemma act_a_resistant st f g a st' f' g' o : act1 st f g a st' f' g' o -> forall b, st b = Resistant -> st' b = Resistant.
Proof.
  intros (A1 & _ & A3) b H. destruct (Nat.eq_dec b a) as [->|NE]; [|now rewrite A1]. rewrite H in A3. now destruct A3 as (_ & A3 & _).
Qed.
Lemma act_b_others st g a st' g' o : act_b nbrs spread check recovery gain st g a st' g' o -> forall b, b <> a -> st' b = st b \/ st a = Infected /\ In b (nbrs a) /\ st b = Susceptible /\ st' b = Infected.
Proof. intros (_ & A) b NE. destruct (st a); [left; apply A| |left; apply A]. destruct A as (A & _). destruct (A b NE) as [H|H]; auto. Qed.
Lemma act_b_resistant st g a st' g' o : act_b nbrs spread check recovery gain st g a st' g' o -> forall b, st b = Resistant -> st' b = Resistant.
Proof.
  intros A b H. destruct (Nat.eq_dec b a) as [->|NE].
  - destruct A as [_ A]. rewrite H in A. destruct A as [A _]. now rewrite A.
  - destruct (act_b_others _ _ _ _ _ _ A b NE) as [E|(_ & _ & E & _)]; congruence.
Qed.

(** Who is in the queue. *)
Definition next_a (k : nat) (l1 : list aid) (st1 : aid -> status) : boundary := fun j l st f g =>
  j = k /\ l = l1 /\ (forall a, st a = st1 a) \/
  j = S k /\ (forall a, In a l <-> In a l1 /\ st1 a <> Resistant) /\ (forall a, st1 a = Resistant -> st a = Resistant) \/ S k < j.
Lemma next_a_preserved k l1 st1 : pres_a (next_a k l1 st1).
Proof.
  intros j l st f g [(-> & -> & H)|[(-> & H)|H]].
  2,3: exists (fun _ _ _ _ => True); repeat (split; [auto|]); intros; right; right; lia.
  exists (fun h st f g => NoDup (actors h) -> forall a, (st1 a = Resistant -> st a = Resistant) /\ (~ In a (actors h) -> st a = st1 a) /\
    (forall t o, In (EvAct t a o) h -> (o = Ret (Some PInf) /\ st1 a = Resistant \/ o = Ret None /\ st1 a <> Resistant))).
  split; [|split; [|split; [|split]]].
  - intros _ a. split; [now rewrite H|]. split; [auto|]. intros ? ? [].
  - clear st f g H. intros h st f g a st' f' g' o t R A N b. rewrite actors_app in N |- *. cbn [actors] in N |- *. apply nodup_snoc in N as [N NI].
    destruct (R N b) as (R1 & R2 & R3). split; [intros X; eapply act_a_resistant; eauto|]. split.
    + intros X. assert (NE : b <> a) by (intros ->; apply X, in_or_app; right; now left). destruct A as [A _]. rewrite A by exact NE. apply R2.
      intros I. apply X, in_or_app. auto.
    + intros t' o' I. apply in_app_or in I as [I|[I|[]]]; [now apply (R3 t')|]. injection I as -> -> ->. specialize (R2 NI). destruct A as (_ & _ & A).
      rewrite <- R2. destruct (st b); destruct A as [-> _]; auto; right; split; auto; discriminate.
  - auto.
  - intros t m st' f' g' N Pm R. rewrite actors_round in R. pose proof (Permutation_NoDup Pm N) as N'. specialize (R N').
    right. left. split; [reflexivity|]. split; [|intros a; apply R]. intros a. rewrite stayers_in. split.
    + intros (o & I & S). split; [apply (Permutation_in a (Permutation_sym Pm)); now apply (in_map fst) in I|].
      destruct (proj2 (proj2 (R a)) t o) as [[-> _]|[_ X]]; [apply round_in; auto|discriminate S|exact X].
    + intros [I X]. apply (Permutation_in a Pm) in I. apply in_map_iff in I as ([b o] & E & I). cbn in E. subst b. exists o. split; [exact I|].
      destruct (proj2 (proj2 (R a)) t o) as [[_ Y]|[-> _]]; [apply round_in; auto|contradiction|reflexivity].
  - intros ->. right. left. split; [reflexivity|]. split; [|intros a Y; now rewrite H]. intros a. split; [intros []|intros [[] _]].
Qed.
Definition queue_a : boundary := fun k l st f g => (forall a, In a (virus_ids n) -> st a <> Resistant -> In a l) /\ (forall a, In a l -> In a (virus_ids n)).
Lemma queue_a_preserved : pres_a queue_a.
Proof.
  intros k l st f g [H1 H2]. destruct (next_a_preserved k l st k l st f g) as (R & R1 & R2 & R3 & R4 & R5).
  { left. auto. }
  exists R. split; [exact R1|]. split; [exact R2|]. split; [exact R3|].
  assert (G : forall l' st' f' g', next_a k l st (S k) l' st' f' g' -> queue_a (S k) l' st' f' g').
  { intros l' st' f' g' [(X & _)|[(_ & X & Y)|X]]; [lia| |lia]. split.
    - intros a I NR. apply X. split; [apply H1; auto|]; intros E; apply NR; auto.
    - intros a I. apply X in I as [I _]. auto. }
  split; [intros t m st' f' g' N Pm HR; apply (G _ _ _ _ (R4 t m st' f' g' N Pm HR))|intros E; apply (G _ _ _ _ (R5 E))].
Qed.

Definition queue_b : boundary := fun k l st f g => forall a, In a l <-> In a (virus_ids n) /\ st a <> Resistant.
Lemma queue_b_preserved : pres_b queue_b.
Proof.
  intros k l st1 f1 g1 H.
  exists (fun h st f g => NoDup (actors h) -> forall a, (st1 a = Resistant -> st a = Resistant) /\ (st1 a <> Resistant ->
    (~ In a (actors h) -> st a <> Resistant) /\
    (forall t o, In (EvAct t a o) h -> (o = Ret (Some PInf) /\ st a = Resistant \/ o = Ret None /\ st a <> Resistant)))).
  split; [|split; [|split; [|split]]].
  - intros _ a. split; [auto|]. intros X. split; [auto|]. intros ? ? [].
  - intros h st f g a st' f' g' o t R A N b. rewrite actors_app in N |- *. cbn [actors] in N |- *. apply nodup_snoc in N as [N NI].
    destruct (R N b) as (R1 & R2). split; [intros X; eapply act_b_resistant; eauto|]. intros NR. destruct (R2 NR) as [R3 R4]. split.
    + intros X. assert (NE : b <> a) by (intros ->; apply X, in_or_app; right; now left).
      destruct (act_b_others _ _ _ _ _ _ A b NE) as [-> |(_ & _ & _ & ->)]; [|discriminate]. apply R3. intros I. apply X, in_or_app. auto.
    + intros t' o' I. apply in_app_or in I as [I|[I|[]]].
      * assert (NE : b <> a) by (intros ->; apply NI; eapply event_actor; eauto).
        destruct (act_b_others _ _ _ _ _ _ A b NE) as [-> |(_ & _ & E1 & ->)]; [now apply (R4 t')|].
        destruct (R4 t' o' I) as [[_ X]|[-> _]]; [congruence|]. right. split; [reflexivity|discriminate].
      * injection I as -> -> ->. specialize (R3 NI). destruct A as (_ & A). destruct (st b) eqn:Sb.
        -- destruct A as [A ->]. right. rewrite A, Sb. split; [reflexivity|discriminate].
        -- destruct A as (_ & _ & [[X ->]|[X ->]] & _); auto.
        -- now contradict R3.
  - auto.
  - intros t m st' f' g' N Pm R. rewrite actors_round in R. pose proof (Permutation_NoDup Pm N) as N'. specialize (R N').
    intros a. rewrite stayers_in. split.
    + intros (o & I & S). assert (J : In a l) by (apply (Permutation_in a (Permutation_sym Pm)); now apply (in_map fst) in I).
      apply H in J as [J NR]. split; [exact J|]. destruct (proj2 (proj2 (R a) NR) t o) as [[-> _]|[_ X]]; [apply round_in; auto|discriminate S|exact X].
    + intros [I X]. assert (NR : st1 a <> Resistant) by (intros E; apply X, (proj1 (R a)), E). assert (J : In a l) by (apply H; auto).
      apply (Permutation_in a Pm) in J. apply in_map_iff in J as ([b o] & E & J). cbn in E. subst b. exists o. split; [exact J|].
      destruct (proj2 (proj2 (R a) NR) t o) as [[_ Y]|[-> _]]; [apply round_in; auto|contradiction|reflexivity].
  - intros -> a. apply H.
Qed.

(** How fast the virus is. *)
Notation near := (within nbrs chosen).
Lemma near_more k a : near k a -> near (S k) a.
Proof. cbn. auto. Qed.
Lemma near_mono j k a : j <= k -> near j a -> near k a.
Proof. induction 1; auto. intros H1. apply near_more. auto. Qed.
Definition speed_a : boundary := fun k l st f g => forall a, st a = Infected \/ f a = true -> near k a.
Lemma speed_a_preserved : pres_a speed_a.
Proof.
  intros k l st1 f1 g1 H.
  exists (fun h st f g => NoDup (actors h) -> (forall a, st a = Infected \/ f a = true -> near (S k) a) /\
    (forall a, ~ In a (actors h) -> st a = Infected -> near k a)).
  split; [|split; [|split; [|split]]].
  - intros _. split; [intros a X; apply near_more; auto|auto].
  - intros h st f g a st' f' g' o t R A N. rewrite actors_app in N |- *. cbn [actors] in N |- *. apply nodup_snoc in N as [N NI].
    destruct (R N) as [R1 R2]. destruct A as (A1 & _ & A2). split.
    + destruct (st a) eqn:Sa.
      * destruct A2 as (_ & A2 & A3). intros b [X|X].
        -- destruct (Nat.eq_dec b a) as [->|NE]; [|apply R1; left; now rewrite <- A1]. rewrite A2 in X. destruct (f a) eqn:Fa; [auto|discriminate X].
        -- rewrite A3 in X. destruct (f a); [|auto]. unfold set_flag in X. destruct (Nat.eqb b a); [discriminate X|auto].
      * destruct A2 as (_ & _ & _ & A3 & _). intros b [X|X].
        -- destruct (Nat.eq_dec b a) as [->|NE]; [auto|apply R1; left; now rewrite <- A1].
        -- destruct (A3 b X) as [Y|[Y _]]; [auto|]. cbn. right. exists a. auto.
      * destruct A2 as (_ & A2 & ->). intros b [X|X]; [|auto]. destruct (Nat.eq_dec b a) as [->|NE]; [congruence|apply R1; left; now rewrite <- A1].
    + intros b NB X. assert (NE : b <> a) by (intros ->; apply NB, in_or_app; right; now left). apply R2; [|now rewrite <- A1].
      intros I. apply NB, in_or_app. auto.
  - auto.
  - intros t m st' f' g' N Pm R. rewrite actors_round in R. pose proof (Permutation_NoDup Pm N) as N'. exact (proj1 (R N')).
  - intros -> a X. apply near_more. auto.
Qed.

(** Contagion for sure, without recovery. *)
Variable one : num.
Hypothesis HUn : keeps_unit one shuffle.
Definition closed : Prop := forall a b, In a (virus_ids n) -> In b (nbrs a) -> In b (virus_ids n).
Definition sure_a : boundary := fun k l st f g => unit_draws one g /\ (forall a, In a (virus_ids n) -> In a l) /\ (forall a, st a <> Resistant) /\
  (forall d a, 2 * d <= k -> near d a -> st a = Infected) /\ (forall d a, 2 * d + 1 <= k -> near (S d) a -> st a = Infected \/ f a = true).
Lemma sure_a_preserved : n_leb one spread = true -> n_leb recovery (Fin 0) = true -> closed -> (forall a, In a chosen -> In a (virus_ids n)) -> pres_a sure_a.
Proof.
  intros Sp Re Cl Ch k l st1 f1 g1 (U & Q & NR & H1 & H2).
  assert (NI : forall d a, near d a -> In a (virus_ids n)).
  { induction d as [|d IH]; cbn; [exact Ch|]. intros a [X|(b & X & Y)]; [auto|]. eapply Cl; eauto. }
  exists (fun h st f g => unit_draws one g /\ (forall a, st a <> Resistant) /\ (forall a, st1 a = Infected -> st a = Infected) /\
    (forall a, st1 a = Infected \/ f1 a = true -> In a (actors h) -> st a = Infected) /\ (forall a, f1 a = true -> st a = Infected \/ f a = true) /\
    (forall a b, st1 b = Infected -> In b (actors h) -> In a (nbrs b) -> st a = Infected \/ f a = true) /\
    (forall t a o, In (EvAct t a o) h -> o = Ret None)).
  split; [|split; [|split; [|split]]].
  - split; [exact U|]. split; [exact NR|]. split; [auto|]. split; [intros ? _ []|]. split; [auto|]. split; [intros ? ? _ []|intros ? ? ? []].
  - intros h st f g a st' f' g' o t (R0 & R1 & R2 & R3 & R4 & R5 & R6) (A1 & A2 & A3).
    split; [eapply later_unit; eauto|].
    assert (KI : forall b, st b = Infected -> st' b = Infected).
    { intros b X. destruct (Nat.eq_dec b a) as [->|NE]; [|now rewrite A1]. rewrite X in A3. destruct A3 as (_ & A3 & _). apply (A3 one); auto. }
    assert (KF : forall b, st b = Infected \/ f b = true -> st' b = Infected \/ f' b = true).
    { intros b [X|X]; [auto|]. destruct (st a) eqn:Sa.
      - destruct A3 as (_ & A3 & A4). destruct (Nat.eq_dec b a) as [->|NE]; [rewrite X in A3; auto|]. right. rewrite A4. destruct (f a); auto.
        unfold set_flag. apply Nat.eqb_neq in NE. now rewrite NE.
      - destruct A3 as (_ & _ & _ & _ & A3 & _). auto.
      - destruct A3 as (_ & _ & ->). auto. }
    assert (KO : o = Ret None). { destruct (st a) eqn:Sa; [apply A3|apply A3|destruct (R1 a Sa)]. }
    assert (KR : forall b, st' b <> Resistant).
    { intros b X. destruct (Nat.eq_dec b a) as [->|NE]; [|rewrite A1 in X by exact NE; now apply (R1 b)]. destruct (st a) eqn:Sa; [| |now apply (R1 a)].
      - destruct A3 as (_ & A3 & _). rewrite A3 in X. destruct (f a); discriminate X.
      - rewrite (KI a Sa) in X. discriminate X. }
    split; [exact KR|]. split; [auto|]. rewrite actors_app. cbn [actors]. split; [|split; [auto|split]].
    + intros b X I. apply in_app_or in I as [I|[->|[]]]; [apply KI, R3; auto|]. destruct X as [X|X]; [auto|].
      destruct (R4 b X) as [Y|Y]; [auto|]. destruct (st b) eqn:Sb; [|auto|now destruct (R1 b)]. destruct A3 as (_ & A3 & _). now rewrite Y in A3.
    + intros b c X I Y. apply in_app_or in I as [I|[->|[]]]; [apply KF, (R5 b c); auto|]. pose proof (R2 c X) as Z.
      rewrite Z in A3. destruct A3 as (_ & _ & _ & _ & _ & A3). destruct (st b) eqn:Sb; [right; apply (A3 one); auto|left; auto|now destruct (R1 b)].
    + intros t' b o' I. apply in_app_or in I as [I|[I|[]]]; [eauto|]. now injection I as <- <- <-.
  - intros h st f g l' (R0 & R). split; [apply HUn; exact R0|exact R].
  - intros t m st' f' g' N Pm (R0 & R1 & R2 & R3 & R4 & R5 & R6).
    assert (Al : forall a, In a (virus_ids n) -> In a (actors (round t m))) by (intros a I; rewrite actors_round; apply (Permutation_in a Pm); auto).
    split; [exact R0|]. split; [|split; [exact R1|split]].
    + intros a I. apply stayers_in. pose proof (Al a I) as J. rewrite actors_round in J. apply in_map_iff in J as ([b o] & E & J). cbn in E. subst b.
      exists o. split; [exact J|]. now rewrite (R6 t a o) by (apply round_in; auto).
    + intros d a L X. destruct (le_lt_dec (2 * d) k) as [L1|L1]; [apply R2; eapply H1; eauto|]. destruct d as [|d]; [lia|].
      apply R3; [|apply Al; eapply NI; eauto]. apply (H2 d); [lia|exact X].
    + intros d a L [X|(b & X & Y)]; [left; apply R2, (H1 d); [lia|exact X]|]. apply (R5 a b); [apply (H1 d); [lia|exact X]|apply Al; eapply NI; eauto|exact Y].
  - intros El. subst l. assert (NO : forall d a, near d a -> False) by (intros d a X; apply (Q a); eapply NI; eauto).
    split; [exact U|]. split; [exact Q|]. split; [exact NR|]. split; intros d a L X; destruct (NO _ _ X).
Qed.
Definition sure_b : boundary := fun k l st f g => unit_draws one g /\ (forall a, In a (virus_ids n) -> In a l) /\ (forall a, st a <> Resistant) /\
  (forall a, near k a -> st a = Infected).
Lemma sure_b_preserved : n_leb one spread = true -> n_leb recovery (Fin 0) = true -> closed -> (forall a, In a chosen -> In a (virus_ids n)) -> pres_b sure_b.
Proof.
  intros Sp Re Cl Ch k l st1 f1 g1 (U & Q & NR & H1).
  assert (NI : forall d a, near d a -> In a (virus_ids n)).
  { induction d as [|d IH]; cbn; [exact Ch|]. intros a [X|(b & X & Y)]; [auto|]. eapply Cl; eauto. }
  exists (fun h st f g => unit_draws one g /\ (forall a, st a <> Resistant) /\ (forall a, st1 a = Infected -> st a = Infected) /\
    (forall a b, st1 b = Infected -> In b (actors h) -> In a (nbrs b) -> st a = Infected) /\
    (forall t a o, In (EvAct t a o) h -> o = Ret None)).
  split; [|split; [|split; [|split]]].
  - split; [exact U|]. split; [exact NR|]. split; [auto|]. split; [intros ? ? _ []|intros ? ? ? []].
  - intros h st f g a st' f' g' o t (R0 & R1 & R2 & R3 & R4) A.
    assert (KI : forall b, st b = Infected -> st' b = Infected).
    { intros b X. destruct (Nat.eq_dec b a) as [->|NE].
      - destruct A as [_ A]. rewrite X in A. destruct A as (_ & _ & _ & A & _). apply (A one); auto.
      - destruct (act_b_others _ _ _ _ _ _ A b NE) as [E|(_ & _ & _ & E)]; congruence. }
    assert (KR : forall b, st' b <> Resistant).
    { intros b X. destruct (Nat.eq_dec b a) as [->|NE].
      - destruct (st a) eqn:Sa; [|rewrite (KI a Sa) in X; discriminate X|now apply (R1 a)]. destruct A as [_ A]. rewrite Sa in A. destruct A as [A _]. congruence.
      - destruct (act_b_others _ _ _ _ _ _ A b NE) as [E|(_ & _ & _ & E)]; [apply (R1 b)|]; congruence. }
    assert (KO : o = Ret None).
    { destruct A as [_ A]. destruct (st a) eqn:Sa; [apply A| |apply A]. destruct A as (_ & _ & [[_ X]|[X _]] & _); [exact X|destruct (KR a X)]. }
    split; [destruct A as [A _]; eapply later_unit; eauto|]. split; [exact KR|]. split; [auto|]. rewrite actors_app. cbn [actors]. split.
    + intros b c X I Y. apply in_app_or in I as [I|[->|[]]]; [eauto|]. pose proof (R2 c X) as Z. destruct (Nat.eq_dec b c) as [->|NE]; [auto|].
      destruct A as [_ A]. rewrite Z in A. destruct A as (_ & A & _). destruct (st b) eqn:Sb; [apply (A one); auto|auto|now destruct (R1 b)].
    + intros t' b o' I. apply in_app_or in I as [I|[I|[]]]; [eauto|]. now injection I as <- <- <-.
  - intros h st f g l' (R0 & R). split; [apply HUn; exact R0|exact R].
  - intros t m st' f' g' N Pm (R0 & R1 & R2 & R3 & R4).
    assert (Al : forall a, In a (virus_ids n) -> In a (actors (round t m))) by (intros a I; rewrite actors_round; apply (Permutation_in a Pm); auto).
    split; [exact R0|]. split; [|split; [exact R1|]].
    + intros a I. apply stayers_in. pose proof (Al a I) as J. rewrite actors_round in J. apply in_map_iff in J as ([b o] & E & J). cbn in E. subst b.
      exists o. split; [exact J|]. now rewrite (R4 t a o) by (apply round_in; auto).
    + intros a [X|(b & X & Y)]; [auto|]. apply (R3 a b); [auto|apply Al; eapply NI; eauto|exact Y].
  - intros El. subst l. assert (NO : forall d a, near d a -> False) by (intros d a X; apply (Q a); eapply NI; eauto).
    split; [exact U|]. split; [exact Q|]. split; [exact NR|]. intros a X; destruct (NO _ _ X).
Qed.

(** Recovery and resistance for sure. *)
Definition cure_a : boundary := fun k l st f g => unit_draws one g /\
  match k with
  | 0 => (forall a, In a l -> st a = Infected)
  | 1 => (forall a, In a l -> st a = Resistant)
  | _ => l = []
  end.
Lemma cure_a_preserved : n_leb one check = true -> n_leb one recovery = true -> n_leb one gain = true -> pres_a cure_a.
Proof.
  intros Sc Sr Sg k l st1 f1 g1 (U & H).
  exists (fun h st f g => unit_draws one g /\ (NoDup (actors h) -> (forall a, In a l -> st1 a = Infected -> ~ In a (actors h) -> st a = Infected) /\
    (forall a, In a l -> st1 a = Infected -> In a (actors h) -> st a = Resistant) /\
    (forall a, st1 a = Resistant -> st a = Resistant /\ forall t o, In (EvAct t a o) h -> o = Ret (Some PInf)))).
  split; [|split; [|split; [|split]]].
  - split; [exact U|]. intros _. split; [auto|]. split; [intros ? ? ? []|]. intros a X. split; [auto|]. intros ? ? [].
  - intros h st f g a st' f' g' o t (R0 & R) A. split; [destruct A as (_ & A & _); eapply later_unit; eauto|].
    rewrite actors_app. cbn [actors]. intros N. apply nodup_snoc in N as [N NI].
    destruct (R N) as (R1 & R2 & R3). split; [|split].
    + intros b I X NB. assert (NE : b <> a) by (intros ->; apply NB, in_or_app; right; now left). destruct A as [A _]. rewrite A by exact NE. apply R1; auto.
      intros J. apply NB, in_or_app. auto.
    + intros b I X J. apply in_app_or in J as [J|[->|[]]]; [eapply act_a_resistant; eauto|]. specialize (R1 b I X NI). destruct A as (_ & _ & A).
      rewrite R1 in A. destruct A as (_ & _ & A & _). apply (A one); auto.
    + intros b X. destruct (R3 b X) as [Y Z]. split; [eapply act_a_resistant; eauto|]. intros t' o' J. apply in_app_or in J as [J|[J|[]]]; [eauto|].
      injection J as -> -> ->. destruct A as (_ & _ & A). rewrite Y in A. apply A.
  - intros h st f g l' (R0 & R). split; [apply HUn; exact R0|exact R].
  - intros t m st' f' g' N Pm (R0 & R). rewrite actors_round in R. destruct (R (Permutation_NoDup Pm N)) as (R1 & R2 & R3). split; [exact R0|].
    assert (IL : forall a, In a (stayers m) -> In a l).
    { intros a I. apply stayers_in in I as (o & I & _). apply (Permutation_in a (Permutation_sym Pm)). now apply (in_map fst) in I. }
    destruct k as [|[|k]].
    + intros a I. pose proof (IL a I) as J. apply R2; auto. apply (Permutation_in a Pm), J.
    + destruct (stayers m) as [|a m'] eqn:E; [reflexivity|]. assert (I : In a (stayers m)) by (rewrite E; now left). pose proof (IL a (or_introl eq_refl)) as J.
      apply stayers_in in I as (o & I & S). destruct (R3 a (H a J)) as [_ Z]. rewrite (Z t o) in S by (apply round_in; auto). discriminate S.
    + subst l. apply Permutation_nil in Pm. destruct m; [reflexivity|discriminate Pm].
  - intros ->. split; [exact U|]. destruct k as [|k]; [intros ? []|]. destruct k; [reflexivity|exact H].
Qed.
Definition cure_b : boundary := fun k l st f g => unit_draws one g /\ match k with 0 => (forall a, In a l -> st a = Infected) | _ => l = [] end.
Lemma cure_b_preserved : n_leb one check = true -> n_leb one recovery = true -> n_leb one gain = true -> pres_b cure_b.
Proof.
  intros Sc Sr Sg k l st1 f1 g1 (U & H).
  exists (fun h st f g => unit_draws one g /\ (NoDup (actors h) -> (forall a, In a l -> st1 a = Infected -> ~ In a (actors h) -> st a = Infected) /\
    (forall a, In a l -> st1 a = Infected -> forall t o, In (EvAct t a o) h -> o = Ret (Some PInf)))).
  split; [|split; [|split; [|split]]].
  - split; [exact U|]. intros _. split; [auto|]. intros ? ? ? ? ? [].
  - intros h st f g a st' f' g' o t (R0 & R) A. split; [destruct A as (A & _); eapply later_unit; eauto|].
    rewrite actors_app. cbn [actors]. intros N. apply nodup_snoc in N as [N NI].
    destruct (R N) as (R1 & R2). split.
    + intros b I X NB. assert (NE : b <> a) by (intros ->; apply NB, in_or_app; right; now left).
      assert (Y : st b = Infected) by (apply R1; auto; intros J; apply NB, in_or_app; auto).
      destruct (act_b_others _ _ _ _ _ _ A b NE) as [->|(_ & _ & _ & ->)]; auto.
    + intros b I X t' o' J. apply in_app_or in J as [J|[J|[]]]; [eauto|]. injection J as -> -> ->. specialize (R1 b I X NI). destruct A as (_ & A).
      rewrite R1 in A. destruct A as (_ & _ & A1 & _ & A2). specialize (A2 one R0 Sc Sr Sg). destruct A1 as [[A1 _]|[_ A1]]; [contradiction|exact A1].
  - intros h st f g l' (R0 & R). split; [apply HUn; exact R0|exact R].
  - intros t m st' f' g' N Pm (R0 & R). rewrite actors_round in R. destruct (R (Permutation_NoDup Pm N)) as (R1 & R2). split; [exact R0|].
    assert (IL : forall a, In a (stayers m) -> In a l).
    { intros a I. apply stayers_in in I as (o & I & _). apply (Permutation_in a (Permutation_sym Pm)). now apply (in_map fst) in I. }
    destruct k as [|k].
    + destruct (stayers m) as [|a m'] eqn:E; [reflexivity|]. assert (I : In a (stayers m)) by (rewrite E; now left). pose proof (IL a (or_introl eq_refl)) as J.
      apply stayers_in in I as (o & I & S). rewrite (R2 a J (H a J) t o) in S by (apply round_in; auto). discriminate S.
    + subst l. apply Permutation_nil in Pm. destruct m; [reflexivity|discriminate Pm].
  - intros ->. split; [exact U|]. reflexivity.
Qed.

(** * The claims *)
Lemma fine_state_id x st a name : fine x st -> (state_id x a name <-> name = st_name (st_of (st a))).
Proof.
  intros F. unfold state_id. destruct (F a) as [-> _]. cbn. split; [intros (z & [= <-] & E); auto|]. intros ->. eauto.
Qed.
Definition anything : boundary := fun _ _ _ _ _ => True.
Lemma any_a : pres_a anything. Proof. apply kept; auto. Qed.
Lemma any_b : pres_b anything. Proof. apply kept; auto. Qed.
Lemma count_three {X} (p q r : X -> bool) l : (forall x, (if p x then 1 else 0) + (if q x then 1 else 0) + (if r x then 1 else 0) = 1) ->
  List.length (filter p l) + List.length (filter q l) + List.length (filter r l) = List.length l.
Proof. intros H. induction l as [|x l IH]; [reflexivity|]. specialize (H x). cbn. destruct (p x), (q x), (r x); cbn in *; lia. Qed.
Lemma filter_sample (l m : list aid) p : NoDup l -> NoDup m -> incl m l -> (forall a, In a l -> p a = true <-> In a m) -> List.length (filter p l) = List.length m.
Proof.
  intros N1 N2 I H. apply Permutation_length. apply NoDup_Permutation; [now apply NoDup_filter|exact N2|]. intros a. rewrite filter_In. split.
  - intros [A B]. now apply H.
  - intros A. split; [now apply I|]. apply H; auto.
Qed.
Lemma filter_none {X} (p : X -> bool) l : (forall x, In x l -> p x = false) -> filter p l = [].
Proof. induction l as [|x l IH]; cbn; auto. intros H. rewrite (H x) by now left. apply IH. auto. Qed.
Definition at_start : boundary := fun k _ st _ _ => k = 0 -> forall a, st a = st0 a.
Lemma start_a : pres_a at_start.
Proof. intros k l st f g H. exists (fun _ _ _ _ => True). split; [auto|]. split; [auto|]. split; [auto|]. split; [intros ? ? ? ? ? _ _ _ X|intros _ X]; discriminate X. Qed.
Lemma start_b : pres_b at_start.
Proof. intros k l st f g H. exists (fun _ _ _ _ => True). split; [auto|]. split; [auto|]. split; [auto|]. split; [intros ? ? ? ? ? _ _ _ X|intros _ X]; discriminate X. Qed.
Lemma count_ids : List.length (virus_ids n) = n.
Proof. apply seq_length. Qed.
Lemma three_counts x st l : fine x st ->
  List.length (filter (fun a => in_state "susceptible" (fw_agents (fst x) a)) l) + List.length (filter (fun a => in_state "infected" (fw_agents (fst x) a)) l) +
  List.length (filter (fun a => in_state "resistant" (fw_agents (fst x) a)) l) = List.length l.
Proof.
  intros F. apply count_three. intros a. change "susceptible" with (st_name (st_of Susceptible)). change "infected" with (st_name (st_of Infected)).
  change "resistant" with (st_name (st_of Resistant)). rewrite !(fine_name x st a F). destruct (st a); reflexivity.
Qed.
Lemma infected_start (l : list aid) (p : aid -> bool) size : sample n chosen size -> (forall a, p a = match st0 a with Infected => true | _ => false end) ->
  List.length (filter p (virus_ids n)) = size.
Proof.
  intros (S1 & S2 & S3) H. rewrite <- S3. apply filter_sample; [apply ids_nodup|exact S1|exact S2|]. intros a I. rewrite H.
  pose proof (st0_infected a) as X. destruct (st0 a); split; intros Y; try discriminate Y; try reflexivity; try (apply X; auto; fail).
  - assert (Z : Susceptible = Infected) by (apply X; auto). discriminate Z.
  - assert (Z : Resistant = Infected) by (apply X; auto). discriminate Z.
Qed.
Lemma outbreak_a sh size g s x tr : sample n chosen (Nat.min size n) ->
  virus_run nbrs spread check recovery gain shuffle sh di n chosen 0 g = (s, x, tr) ->
  count_in "infected" s x = Nat.min size n /\ count_in "susceptible" s x = n - Nat.min size n /\ count_in "resistant" s x = 0.
Proof.
  intros S E.
  assert (T0 : ticks di 0) by (intros j L; lia).
  destruct (a_run 0 at_start sh 0 g s x tr T0 start_a) as (l & _ & (st & F & H) & R & _); [lia|intros _ a; reflexivity|exact E|].
  specialize (H eq_refl). unfold count_in. rewrite R. pose proof (three_counts x st (virus_ids n) F) as C. rewrite count_ids in C.
  assert (I : List.length (filter (fun a => in_state "infected" (fw_agents (fst x) a)) (virus_ids n)) = Nat.min size n).
  { apply infected_start; [constructor|exact S|]. intros a. change "infected" with (st_name (st_of Infected)). rewrite (fine_name x st a F), H. destruct (st0 a); reflexivity. }
  assert (Z : filter (fun a => in_state "resistant" (fw_agents (fst x) a)) (virus_ids n) = []).
  { apply filter_none. intros a _. change "resistant" with (st_name (st_of Resistant)). rewrite (fine_name x st a F), H. pose proof (st0_not_resistant a).
    destruct (st0 a); congruence. }
  rewrite I, Z in *. cbn [List.length] in *. lia.
Qed.
Lemma outbreak_b sh size g s x tr : sample n chosen (Nat.min size n) ->
  step_run nbrs spread check recovery gain shuffle sh di n chosen 0 g = (s, x, tr) ->
  count_status is_infected s x = Nat.min size n /\ count_status is_susceptible s x = n - Nat.min size n /\ count_status is_resistant s x = 0.
Proof.
  intros S E.
  assert (T0 : ticks di 0) by (intros j L; lia).
  destruct (b_run 0 at_start sh 0 g s x tr T0 start_b) as (l & _ & (st & F & H) & R & _); [lia|intros _ a; reflexivity|exact E|].
  specialize (H eq_refl). unfold count_status. rewrite R.
  assert (C := count_three (fun a => is_susceptible (sw_status x a)) (fun a => is_infected (sw_status x a)) (fun a => is_resistant (sw_status x a)) (virus_ids n)).
  rewrite count_ids in C. specialize (C ltac:(intros a; destruct (sw_status x a); reflexivity)).
  assert (I : List.length (filter (fun a => is_infected (sw_status x a)) (virus_ids n)) = Nat.min size n).
  { apply infected_start; [constructor|exact S|]. intros a. rewrite <- F, H. destruct (st0 a); reflexivity. }
  assert (Z : filter (fun a => is_resistant (sw_status x a)) (virus_ids n) = []).
  { apply filter_none. intros a _. rewrite <- F, H. pose proof (st0_not_resistant a). destruct (st0 a); try reflexivity; congruence. }
  rewrite I, Z in *. cbn [List.length] in *. lia.
Qed.
Lemma sums_a k sh g s x tr : ticks di k -> virus_run nbrs spread check recovery gain shuffle sh di n chosen k g = (s, x, tr) ->
  count_in "susceptible" s x + count_in "infected" s x + count_in "resistant" s x = n.
Proof.
  intros T E. destruct (a_run k anything sh k g s x tr T any_a) as (l & _ & (st & F & H) & R & _); [lia|exact I|exact E|].
  unfold count_in. rewrite R, (three_counts x st (virus_ids n) F). apply count_ids.
Qed.
Lemma sums_b k sh g s x tr : ticks di k -> step_run nbrs spread check recovery gain shuffle sh di n chosen k g = (s, x, tr) ->
  count_status is_susceptible s x + count_status is_infected s x + count_status is_resistant s x = n.
Proof.
  intros T E. destruct (b_run k anything sh k g s x tr T any_b) as (l & _ & (st & F & H) & R & _); [lia|exact I|exact E|].
  unfold count_status. rewrite R, count_three; [apply count_ids|]. intros a; destruct (sw_status x a); reflexivity.
Qed.
(** Only susceptible agents are marked. *)
Lemma marked_a k sh g s x tr : ticks di k -> virus_run nbrs spread check recovery gain shuffle sh di n chosen k g = (s, x, tr) ->
  forall a, vr_flag (fw_rest (fst x)) a = true -> state_id x a "susceptible".
Proof.
  intros T E. assert (HP : pres_a (fun _ _ st f _ => forall a, f a = true -> st a = Susceptible)).
  { apply (kept _ _ (fun st f _ => forall a, f a = true -> st a = Susceptible)); [|auto].
    intros st f g0 a st' f' g' o H (A1 & _ & A2) b X. destruct (st a) eqn:Sa.
    - destruct A2 as (_ & A2 & A3). rewrite A3 in X. destruct (Nat.eq_dec b a) as [->|NE].
      + rewrite A2. destruct (f a); [|reflexivity]. unfold set_flag in X. rewrite Nat.eqb_refl in X. discriminate X.
      + rewrite A1 by exact NE. apply H. destruct (f a); [|exact X]. unfold set_flag in X. apply Nat.eqb_neq in NE. now rewrite NE in X.
    - destruct A2 as (_ & _ & _ & A2 & _). assert (Y : st b = Susceptible) by (destruct (A2 b X) as [Y|[_ Y]]; auto).
      rewrite A1; [exact Y|]. intros ->. congruence.
    - destruct A2 as (_ & A2 & ->). rewrite A1; [auto|]. intros ->. rewrite (H a X) in Sa. discriminate Sa. }
  destruct (a_run k _ sh k g s x tr T HP) as (l & _ & (st & F & H) & R & _); [lia|intros a X; discriminate X|exact E|].
  intros a X. apply (fine_state_id x st a "susceptible" F). now rewrite (H a X).
Qed.

(** Two runs of different lengths. *)
Lemma two_a k j sh g s1 x1 tr1 s2 x2 tr2 : ticks di (k + j) ->
  virus_run nbrs spread check recovery gain shuffle sh di n chosen k g = (s1, x1, tr1) ->
  virus_run nbrs spread check recovery gain shuffle sh di n chosen (k + j) g = (s2, x2, tr2) ->
  forall B0 : boundary, pres_a B0 -> B0 0 (virus_ids n) st0 (fun _ => false) g ->
  exists l1 tr, bound_a B0 k (virus_ids n) sh s1 l1 x1 /\ run_hist user_a (repeat CStep j) s1 x1 = (s2, x2, tr) /\ tr2 = tr1 ++ tr.
Proof.
  intros T E1 E2 B0 P0 H0. destruct (a_run (k + j) B0 sh k g s1 x1 tr1 T P0) as (l & B); [lia|exact H0|exact E1|].
  unfold virus_run in E2. apply split_run in E2 as (s3 & x3 & tr3 & tr & E3 & E4 & E5). unfold virus_run in E1. rewrite E1 in E3.
  injection E3 as <- <- <-. eauto.
Qed.
Lemma two_b k j sh g s1 x1 tr1 s2 x2 tr2 : ticks di (k + j) ->
  step_run nbrs spread check recovery gain shuffle sh di n chosen k g = (s1, x1, tr1) ->
  step_run nbrs spread check recovery gain shuffle sh di n chosen (k + j) g = (s2, x2, tr2) ->
  forall B0 : boundary, pres_b B0 -> B0 0 (virus_ids n) st0 (fun _ => false) g ->
  exists l1 tr, bound_b B0 k (virus_ids n) sh s1 l1 x1 /\ run_hist user_b (repeat CStep j) s1 x1 = (s2, x2, tr) /\ tr2 = tr1 ++ tr.
Proof.
  intros T E1 E2 B0 P0 H0. destruct (b_run (k + j) B0 sh k g s1 x1 tr1 T P0) as (l & B); [lia|exact H0|exact E1|].
  unfold step_run in E2. apply split_run in E2 as (s3 & x3 & tr3 & tr & E3 & E4 & E5). unfold step_run in E1. rewrite E1 in E3.
  injection E3 as <- <- <-. eauto.
Qed.
(** A property of statuses and flags, relative to those after [k] steps, that activations keep. *)
Lemma since_a k j sh g s1 x1 tr1 s2 x2 tr2 (B0 : boundary) (Rel : (aid -> status) -> (aid -> bool) -> draws -> (aid -> status) -> (aid -> bool) -> draws -> Prop) :
  ticks di (k + j) ->
  virus_run nbrs spread check recovery gain shuffle sh di n chosen k g = (s1, x1, tr1) ->
  virus_run nbrs spread check recovery gain shuffle sh di n chosen (k + j) g = (s2, x2, tr2) ->
  pres_a B0 -> B0 0 (virus_ids n) st0 (fun _ => false) g ->
  (forall st f g, pres_a (fun _ _ => Rel st f g)) ->
  (forall l st, fine x1 st -> B0 k l st (flag x1) (rng x1) -> Rel st (flag x1) (rng x1) st (flag x1) (rng x1)) ->
  exists st1 st2, fine x1 st1 /\ fine x2 st2 /\ Rel st1 (flag x1) (rng x1) st2 (flag x2) (rng x2).
Proof.
  intros T E1 E2 P0 H0 HR H1. destruct (two_a k j sh g s1 x1 tr1 s2 x2 tr2 T E1 E2 B0 P0 H0) as (l & tr & B & E & _).
  destruct (proj1 (proj2 B)) as (st & F & HB).
  assert (B' : bound_a (fun _ _ => Rel st (flag x1) (rng x1)) k (virus_ids n) sh s1 l x1).
  { eapply bound_weaken; [exact B|]. exists st. eauto. }
  destruct (a_more (k + j) T _ (virus_ids n) sh j k s1 l x1 s2 x2 tr (HR _ _ _) (le_n _) B' E) as (l' & B2).
  destruct (proj1 (proj2 B2)) as (st2 & F2 & X). exists st, st2. auto.
Qed.
Lemma since_b k j sh g s1 x1 tr1 s2 x2 tr2 (B0 : boundary) (Rel : (aid -> status) -> draws -> (aid -> status) -> draws -> Prop) :
  ticks di (k + j) ->
  step_run nbrs spread check recovery gain shuffle sh di n chosen k g = (s1, x1, tr1) ->
  step_run nbrs spread check recovery gain shuffle sh di n chosen (k + j) g = (s2, x2, tr2) ->
  pres_b B0 -> B0 0 (virus_ids n) st0 (fun _ => false) g ->
  (forall st g, pres_b (fun _ _ st' _ g' => Rel st g st' g')) ->
  (forall l st, ok_b x1 st -> B0 k l st (no_flag x1) (sw_draws x1) -> Rel st (sw_draws x1) st (sw_draws x1)) ->
  exists st1 st2, ok_b x1 st1 /\ ok_b x2 st2 /\ Rel st1 (sw_draws x1) st2 (sw_draws x2).
Proof.
  intros T E1 E2 P0 H0 HR H1. destruct (two_b k j sh g s1 x1 tr1 s2 x2 tr2 T E1 E2 B0 P0 H0) as (l & tr & B & E & _).
  destruct (proj1 (proj2 B)) as (st & F & HB).
  assert (B' : bound_b (fun _ _ st' _ g' => Rel st (sw_draws x1) st' g') k (virus_ids n) sh s1 l x1).
  { eapply bound_weaken; [exact B|]. exists st. eauto. }
  destruct (b_more (k + j) T _ (virus_ids n) sh j k s1 l x1 s2 x2 tr (HR _ _) (le_n _) B' E) as (l' & B2).
  destruct (proj1 (proj2 B2)) as (st2 & F2 & X). exists st, st2. auto.
Qed.

Notation run_a := (virus_run nbrs spread check recovery gain shuffle).
Notation run_b := (step_run nbrs spread check recovery gain shuffle).
Lemma named x st a c : fine x st -> state_id x a (st_name (st_of c)) <-> st a = c.
Proof. intros F. rewrite (fine_state_id x st a _ F). destruct c, (st a); cbn; split; intros H; try discriminate H; reflexivity. Qed.
Lemma forever_a k j sh g s1 x1 tr1 s2 x2 tr2 : ticks di (k + j) -> run_a sh di n chosen k g = (s1, x1, tr1) -> run_a sh di n chosen (k + j) g = (s2, x2, tr2) ->
  forall a, state_id x1 a "resistant" -> state_id x2 a "resistant".
Proof.
  intros T E1 E2 a.
  destruct (since_a k j sh g s1 x1 tr1 s2 x2 tr2 anything (fun st _ _ st' _ _ => forall a, st a = Resistant -> st' a = Resistant) T E1 E2 any_a I) as (st1 & st2 & F1 & F2 & H).
  - intros st f0 g0. apply (kept _ _ (fun st' (_ : aid -> bool) (_ : draws) => forall a, st a = Resistant -> st' a = Resistant)); [|auto].
    intros. eapply act_a_resistant; eauto.
  - auto.
  - change "resistant" with (st_name (st_of Resistant)). rewrite (named x1 st1 a Resistant F1), (named x2 st2 a Resistant F2). apply H.
Qed.
Lemma forever_b k j sh g s1 x1 tr1 s2 x2 tr2 : ticks di (k + j) -> run_b sh di n chosen k g = (s1, x1, tr1) -> run_b sh di n chosen (k + j) g = (s2, x2, tr2) ->
  forall a, sw_status x1 a = Resistant -> sw_status x2 a = Resistant.
Proof.
  intros T E1 E2 a.
  destruct (since_b k j sh g s1 x1 tr1 s2 x2 tr2 anything (fun st _ st' _ => forall a, st a = Resistant -> st' a = Resistant) T E1 E2 any_b I) as (st1 & st2 & F1 & F2 & H).
  - intros st g0. apply (kept _ _ (fun st' (_ : aid -> bool) (_ : draws) => forall a, st a = Resistant -> st' a = Resistant)); [|auto].
    intros st0' f0 g1 b st' f' g' o H A c X. eapply act_b_resistant; eauto.
  - auto.
  - rewrite <- (F1 a), <- (F2 a). apply H.
Qed.
Lemma queue_a_start g : queue_a 0 (virus_ids n) st0 (fun _ => false) g.
Proof. split; auto. Qed.
Lemma queue_b_start g : queue_b 0 (virus_ids n) st0 (fun _ => false) g.
Proof. intros a. pose proof (st0_not_resistant a). split; [auto|]. now intros [X _]. Qed.
Lemma first_a sh g s x tr s' x' tr' e : ticks di 1 -> run_a sh di n chosen 0 g = (s, x, tr) -> timed_step user_a s x = (s', x', tr', e) ->
  Permutation (virus_ids n) (actors tr') /\ e = false.
Proof.
  intros T E1 E2. destruct (a_run 1 queue_a sh 0 g s x tr T queue_a_preserved) as (l & B); [lia|apply queue_a_start|exact E1|].
  destruct (a_step 1 T queue_a 0 (virus_ids n) sh s l x s' x' tr' e queue_a_preserved ltac:(lia) B E2) as (m & -> & M1 & M2 & _).
  split; [|exact M2]. rewrite actors_round. rewrite <- M1. destruct B as (N & (st & F & Q1 & Q2) & _). 
  destruct (a_run 1 at_start sh 0 g s x tr T start_a) as (l2 & (_ & (st2 & F2 & H2) & _)); [lia|intros _ a; reflexivity|exact E1|].
  apply NoDup_Permutation; [apply ids_nodup|exact N|]. intros a. split; [|auto]. intros X. apply Q1; [exact X|].
  intros Y. apply (named x st a Resistant F) in Y. apply (named x st2 a Resistant F2) in Y. rewrite (H2 eq_refl) in Y. now apply st0_not_resistant in Y.
Qed.
Lemma next_acts_a k sh g s1 x1 tr1 s2 x2 tr2 s3 x3 tr3 e : ticks di (S (S k)) -> run_a sh di n chosen k g = (s1, x1, tr1) ->
  run_a sh di n chosen (S k) g = (s2, x2, tr2) -> timed_step user_a s2 x2 = (s3, x3, tr3, e) ->
  Permutation (filter (fun a => negb (in_state "resistant" (fw_agents (fst x1) a))) (virus_ids n)) (actors tr3) /\ e = false.
Proof.
  intros T E1 E2 E3. assert (T1 : ticks di (k + 1)) by (intros j L; apply T; lia). rewrite <- (Nat.add_1_r k) in E2.
  destruct (two_a k 1 sh g s1 x1 tr1 s2 x2 tr2 T1 E1 E2 queue_a queue_a_preserved (queue_a_start g)) as (l & tr & B & E & _).
  destruct B as (BN & (st & F & Q1 & Q2) & BR). cbn [repeat run_hist run_cmd] in E.
  destruct (timed_step user_a s1 x1) as [[[s4 x4] tr4] e4] eqn:E4. injection E as <- <- <-.
  assert (B : bound_a (next_a k l st) k (virus_ids n) sh s1 l x1).
  { split; [exact BN|]. split; [|exact BR]. exists st. split; [exact F|]. left. auto. }
  destruct (a_step (S (S k)) T (next_a k l st) k (virus_ids n) sh s1 l x1 s4 x4 tr4 e4 (next_a_preserved k l st) ltac:(lia) B E4) as (m & _ & _ & _ & B2 & _).
  destruct (a_step (S (S k)) T (next_a k l st) (S k) (virus_ids n) sh s4 (stayers m) x4 s3 x3 tr3 e (next_a_preserved k l st) ltac:(lia) B2 E3) as (m' & -> & M1 & M2 & _).
  split; [|exact M2]. rewrite actors_round, <- M1. destruct B2 as (N2 & (st2 & F2 & H2) & _).
  apply NoDup_Permutation; [apply NoDup_filter, ids_nodup|exact N2|]. intros a. destruct H2 as [(X & _)|[(_ & X & _)|X]]; [lia| |lia].
  rewrite filter_In, (X a). pose proof (fine_name x1 st a F Resistant) as Y. cbn [st_of st_name resistant_st] in Y. rewrite Y. split.
  - intros [Z1 Z2]. assert (NR : st a <> Resistant) by (intros Z; now rewrite Z in Z2). split; [apply Q1; auto|exact NR].
  - intros [Z1 Z2]. split; [auto|]. destruct (st a); auto.
Qed.
Lemma next_acts_b k sh g s1 x1 tr1 s2 x2 tr2 e : ticks di (S k) -> run_b sh di n chosen k g = (s1, x1, tr1) -> timed_step user_b s1 x1 = (s2, x2, tr2, e) ->
  Permutation (filter (fun a => negb (is_resistant (sw_status x1 a))) (virus_ids n)) (actors tr2) /\ e = false.
Proof.
  intros T E1 E2. destruct (b_run (S k) queue_b sh k g s1 x1 tr1 T queue_b_preserved) as (l & B); [lia|apply queue_b_start|exact E1|].
  destruct (b_step (S k) T queue_b k (virus_ids n) sh s1 l x1 s2 x2 tr2 e queue_b_preserved ltac:(lia) B E2) as (m & -> & M1 & M2 & _).
  split; [|exact M2]. rewrite actors_round, <- M1. destruct B as (N & (st & F & Q) & _). apply NoDup_Permutation; [apply NoDup_filter, ids_nodup|exact N|].
  intros a. rewrite filter_In, (Q a), <- (F a). destruct (st a); cbn; intuition congruence.
Qed.
(** Reach. *)
Lemma near_a k sh g s x tr : ticks di k -> run_a sh di n chosen k g = (s, x, tr) ->
  forall a, state_id x a "infected" \/ vr_flag (fw_rest (fst x)) a = true -> near k a.
Proof.
  intros T E. destruct (a_run k speed_a sh k g s x tr T speed_a_preserved) as (l & _ & (st & F & H) & _); [lia| |exact E|].
  - intros a [X|X]; [|discriminate X]. now apply st0_infected in X.
  - intros a X. apply H. destruct X as [X|X]; [left; now apply (named x st a Infected F)|right; exact X].
Qed.
Lemma near_b k sh g s x tr : ticks di k -> run_b sh di n chosen k g = (s, x, tr) -> forall a, sw_status x a = Infected -> exists j, near j a.
Proof.
  intros T E. assert (HP : pres_b (fun _ _ st _ _ => forall a, st a = Infected -> exists j, near j a)).
  { apply (kept _ _ (fun st (_ : aid -> bool) (_ : draws) => forall a, st a = Infected -> exists j, near j a)); [|auto].
    intros st f g0 a st' f' g' o H A b X. destruct (Nat.eq_dec b a) as [->|NE].
    - apply H. destruct (st a) eqn:Sa; [| reflexivity |]; destruct A as [_ A]; rewrite Sa in A; destruct A as [A _]; congruence.
    - destruct (act_b_others _ _ _ _ _ _ A b NE) as [Y|(Y1 & Y2 & _)]; [apply H; congruence|].
      destruct (H a Y1) as [j Y]. exists (S j). right. eauto. }
  destruct (b_run k _ sh k g s x tr T HP) as (l & _ & (st & F & H) & _); [lia| |exact E|].
  - intros a X. exists 0. now apply st0_infected in X.
  - intros a X. apply H. now rewrite F.
Qed.
(** Contagion without recovery. *)
Lemma spreads_a k sh g s x tr : ticks di k -> n_leb one spread = true -> n_leb recovery (Fin 0) = true -> closed -> (forall a, In a chosen -> In a (virus_ids n)) ->
  unit_draws one g -> run_a sh di n chosen k g = (s, x, tr) -> forall d a, 2 * d <= k -> near d a -> state_id x a "infected".
Proof.
  intros T Sp Re Cl Ch U E. destruct (a_run k sure_a sh k g s x tr T (sure_a_preserved Sp Re Cl Ch)) as (l & _ & (st & F & H) & _); [lia| |exact E|].
  - split; [exact U|]. split; [auto|]. split; [apply st0_not_resistant|]. split; [|intros; lia]. intros d a L X. replace d with 0 in X by lia.
    apply st0_infected. auto.
  - intros d a L X. apply (named x st a Infected F). destruct H as (_ & _ & _ & H & _). eauto.
Qed.
Lemma spreads_b k sh g s x tr : ticks di k -> n_leb one spread = true -> n_leb recovery (Fin 0) = true -> closed -> (forall a, In a chosen -> In a (virus_ids n)) ->
  unit_draws one g -> run_b sh di n chosen k g = (s, x, tr) -> forall a, near k a -> sw_status x a = Infected.
Proof.
  intros T Sp Re Cl Ch U E. destruct (b_run k sure_b sh k g s x tr T (sure_b_preserved Sp Re Cl Ch)) as (l & _ & (st & F & H) & _); [lia| |exact E|].
  - split; [exact U|]. split; [auto|]. split; [apply st0_not_resistant|]. intros a X. apply st0_infected. auto.
  - intros a X. rewrite <- F. destruct H as (_ & _ & _ & H). auto.
Qed.
Definition sane : boundary := fun _ _ _ _ g => unit_draws one g.
Lemma sane_a : pres_a sane.
Proof. apply (kept _ _ (fun _ _ g => unit_draws one g)); [|intros; apply HUn; auto]. intros st f g a st' f' g' o H (_ & A & _). eapply later_unit; eauto. Qed.
Lemma sane_b : pres_b sane.
Proof. apply (kept _ _ (fun _ _ g => unit_draws one g)); [|intros; apply HUn; auto]. intros st f g a st' f' g' o H (A & _). eapply later_unit; eauto. Qed.
Lemma ill_a k j sh g s1 x1 tr1 s2 x2 tr2 : ticks di (k + j) -> n_leb recovery (Fin 0) = true -> unit_draws one g ->
  run_a sh di n chosen k g = (s1, x1, tr1) -> run_a sh di n chosen (k + j) g = (s2, x2, tr2) -> forall a, state_id x1 a "infected" -> state_id x2 a "infected".
Proof.
  intros T Re U E1 E2 a.
  destruct (since_a k j sh g s1 x1 tr1 s2 x2 tr2 sane (fun st _ _ st' _ g' => unit_draws one g' /\ forall a, st a = Infected -> st' a = Infected) T E1 E2 sane_a U) as (st1 & st2 & F1 & F2 & _ & H).
  - intros st f0 g0. apply (kept _ _ (fun st' (_ : aid -> bool) g' => unit_draws one g' /\ forall a, st a = Infected -> st' a = Infected)).
    + intros st0' f1 g1 b st' f' g' o [U1 H] (A1 & A2 & A3). split; [eapply later_unit; eauto|]. intros c X. specialize (H c X).
      destruct (Nat.eq_dec c b) as [->|NE]; [|now rewrite A1]. rewrite H in A3. destruct A3 as (_ & A3 & _). eauto.
    + intros st0' f1 g1 l [U1 H]. split; [apply HUn; exact U1|exact H].
  - intros l st F HB. split; [exact HB|auto].
  - change "infected" with (st_name (st_of Infected)). rewrite (named x1 st1 a Infected F1), (named x2 st2 a Infected F2). apply H.
Qed.
Lemma ill_b k j sh g s1 x1 tr1 s2 x2 tr2 : ticks di (k + j) -> n_leb recovery (Fin 0) = true -> unit_draws one g ->
  run_b sh di n chosen k g = (s1, x1, tr1) -> run_b sh di n chosen (k + j) g = (s2, x2, tr2) -> forall a, sw_status x1 a = Infected -> sw_status x2 a = Infected.
Proof.
  intros T Re U E1 E2 a.
  destruct (since_b k j sh g s1 x1 tr1 s2 x2 tr2 sane (fun st _ st' g' => unit_draws one g' /\ forall a, st a = Infected -> st' a = Infected) T E1 E2 sane_b U) as (st1 & st2 & F1 & F2 & _ & H).
  - intros st g0. apply (kept _ _ (fun st' (_ : aid -> bool) g' => unit_draws one g' /\ forall a, st a = Infected -> st' a = Infected)).
    + intros st0' f1 g1 b st' f' g' o [U1 H] A. split; [destruct A as [A _]; eapply later_unit; eauto|]. intros c X. specialize (H c X).
      destruct (Nat.eq_dec c b) as [->|NE].
      * destruct A as [_ A]. rewrite H in A. destruct A as (_ & _ & _ & A & _). eauto.
      * destruct (act_b_others _ _ _ _ _ _ A c NE) as [Y|(_ & _ & _ & Y)]; congruence.
    + intros st0' f1 g1 l [U1 H]. split; [apply HUn; exact U1|exact H].
  - intros l st F HB. split; [exact HB|auto].
  - rewrite <- (F1 a), <- (F2 a). apply H.
Qed.
(** Extinction. *)
Lemma extinct_a k j sh g s1 x1 tr1 s2 x2 tr2 : ticks di (k + j) -> run_a sh di n chosen k g = (s1, x1, tr1) -> run_a sh di n chosen (k + j) g = (s2, x2, tr2) ->
  (forall a, ~ state_id x1 a "infected" /\ vr_flag (fw_rest (fst x1)) a = false) -> forall a name, state_id x2 a name <-> state_id x1 a name.
Proof.
  intros T E1 E2 N a name.
  destruct (since_a k j sh g s1 x1 tr1 s2 x2 tr2 anything (fun st _ _ st' f' _ => forall a, st' a = st a /\ st a <> Infected /\ f' a = false) T E1 E2 any_a I) as (st1 & st2 & F1 & F2 & H).
  - intros st f0 g0. apply (kept _ _ (fun st' f' (_ : draws) => forall a, st' a = st a /\ st a <> Infected /\ f' a = false)); [|auto].
    intros st0' f1 g1 b st' f' g' o H (A1 & _ & A2) c. destruct (H c) as (H1 & H2 & H3). destruct (H b) as (G1 & G2 & G3).
    destruct (st0' b) eqn:Sb; [|congruence|].
    + destruct A2 as (_ & A2 & A3). rewrite G3 in A2, A3. split; [|split; [exact H2|now rewrite A3]].
      destruct (Nat.eq_dec c b) as [->|NE]; [congruence|]. rewrite A1 by exact NE. exact H1.
    + destruct A2 as (_ & A2 & ->). split; [|auto]. destruct (Nat.eq_dec c b) as [->|NE]; [congruence|]. rewrite A1 by exact NE. exact H1.
  - intros l st F _ b. split; [reflexivity|]. split; [|apply N]. intros X. apply (proj1 (N b)). now apply (named x1 st b Infected F).
  - rewrite (fine_state_id x2 st2 a name F2), (fine_state_id x1 st1 a name F1). destruct (H a) as (-> & _). reflexivity.
Qed.
Lemma extinct_b k j sh g s1 x1 tr1 s2 x2 tr2 : ticks di (k + j) -> run_b sh di n chosen k g = (s1, x1, tr1) -> run_b sh di n chosen (k + j) g = (s2, x2, tr2) ->
  (forall a, sw_status x1 a <> Infected) -> forall a, sw_status x2 a = sw_status x1 a.
Proof.
  intros T E1 E2 N a.
  destruct (since_b k j sh g s1 x1 tr1 s2 x2 tr2 anything (fun st _ st' _ => forall a, st' a = st a /\ st a <> Infected) T E1 E2 any_b I) as (st1 & st2 & F1 & F2 & H).
  - intros st g0. apply (kept _ _ (fun st' (_ : aid -> bool) (_ : draws) => forall a, st' a = st a /\ st a <> Infected)); [|auto].
    intros st0' f1 g1 b st' f' g' o H [_ A] c. destruct (H c) as (H1 & H2). destruct (H b) as (G1 & G2). split; [|exact H2].
    destruct (st0' b) eqn:Sb; [|congruence|]; destruct A as [A _]; now rewrite A.
  - intros l st F _ b. split; [reflexivity|]. rewrite F. apply N.
  - rewrite <- (F1 a), <- (F2 a). apply H.
Qed.
(** Steps. *)
Lemma steps_a k sh g s x tr a : ticks di k -> run_a sh di n chosen k g = (s, x, tr) -> In a (virus_ids n) -> ~ state_id x a "resistant" -> s_steps s = k.
Proof.
  intros T E I N. destruct (a_run k queue_a sh k g s x tr T queue_a_preserved) as (l & _ & (st & F & Q1 & Q2) & _ & _ & _ & S); [lia|apply queue_a_start|exact E|].
  assert (J : In a l). { apply Q1; [exact I|]. intros X. apply N. now apply (named x st a Resistant F). }
  destruct l; [destruct J|apply S].
Qed.
Lemma steps_b k sh g s x tr a : ticks di k -> run_b sh di n chosen k g = (s, x, tr) -> In a (virus_ids n) -> sw_status x a <> Resistant -> s_steps s = k.
Proof.
  intros T E I N. destruct (b_run k queue_b sh k g s x tr T queue_b_preserved) as (l & _ & (st & F & Q) & _ & _ & _ & S); [lia|apply queue_b_start|exact E|].
  assert (J : In a l). { apply Q. split; [exact I|]. now rewrite F. }
  destruct l; [destruct J|apply S].
Qed.
Lemma idle {W} (u : user W) s w j : s_queue s = [] -> run_hist u (repeat CStep j) s w = (s, w, []).
Proof. intros Q. induction j as [|j IH]; [reflexivity|]. cbn [repeat run_hist run_cmd]. unfold timed_step. rewrite Q, IH. reflexivity. Qed.
Lemma all_infected g l : (forall a, In a (virus_ids n) -> In a chosen) -> incl l (virus_ids n) -> unit_draws one g -> cure_b 0 l st0 (fun _ => false) g.
Proof. intros H I U. split; [exact U|]. intros a X. apply st0_infected. auto. Qed.
Lemma stuck_b k sh g s x tr : ticks di (S k) -> n_leb one check = true -> n_leb one recovery = true -> n_leb one gain = true -> unit_draws one g ->
  (forall a, In a (virus_ids n) -> In a chosen) -> 0 < n -> run_b sh di n chosen (S k) g = (s, x, tr) -> s_steps s = 1 /\ s_queue s = [].
Proof.
  intros T C1 C2 C3 U Ch Np E. pose proof (cure_b_preserved C1 C2 C3) as P. assert (H0 : cure_b 0 (virus_ids n) st0 (fun _ => false) g) by (apply all_infected; auto; apply incl_refl).
  destruct (run_b sh di n chosen 0 g) as [[s0 x0] tr0] eqn:E0. destruct (two_b 0 (S k) sh g s0 x0 tr0 s x tr T E0 E cure_b P H0) as (l & tr' & B & E' & _).
  assert (T1 : ticks di (S k)) by exact T. cbn [repeat run_hist run_cmd] in E'. destruct (timed_step user_b s0 x0) as [[[s1 x1] tr1] e1] eqn:E1.
  destruct (b_step (S k) T cure_b 0 (virus_ids n) sh s0 l x0 s1 x1 tr1 e1 P ltac:(lia) B E1) as (m & _ & _ & _ & B1 & St).
  destruct (b_run (S k) queue_b sh 0 g s0 x0 tr0 T queue_b_preserved) as (l2 & _ & (st2 & F2 & Q2) & _ & _ & _ & S2); [lia|apply queue_b_start|exact E0|].
  destruct (b_run (S k) at_start sh 0 g s0 x0 tr0 T start_b) as (l3 & _ & (st3 & F3 & H3) & _); [lia|intros _ a; reflexivity|exact E0|].
  assert (J : In 1 l2). { apply Q2. split; [apply in_seq; lia|]. rewrite (F2 1), <- (F3 1), (H3 eq_refl). apply st0_not_resistant. }
  destruct l2 as [|a2 l2]; [destruct J|]. destruct S2 as (S2 & _ & S3).
  assert (Lq : l <> []). { intros ->. destruct B as (_ & _ & _ & _ & _ & Bq & _). rewrite Bq in S3. discriminate S3. }
  assert (St1 : s_steps s1 = 1) by (destruct l; [contradiction|]; rewrite St, S2; reflexivity).
  destruct B1 as (_ & (st1 & F1 & _ & H1) & _ & _ & _ & Q1). rewrite H1 in Q1. destruct Q1 as [Q1 _].
  rewrite (idle user_b s1 x1 k Q1) in E'. injection E' as <- <- <-. auto.
Qed.
Lemma stuck_a k sh g s x tr : ticks di (S (S k)) -> n_leb one check = true -> n_leb one recovery = true -> n_leb one gain = true -> unit_draws one g ->
  (forall a, In a (virus_ids n) -> In a chosen) -> 0 < n -> run_a sh di n chosen (S (S k)) g = (s, x, tr) -> s_steps s = 2 /\ s_queue s = [].
Proof.
  intros T C1 C2 C3 U Ch Np E. pose proof (cure_a_preserved C1 C2 C3) as P.
  assert (H0 : cure_a 0 (virus_ids n) st0 (fun _ => false) g) by (split; [exact U|]; intros a X; apply st0_infected; auto).
  destruct (run_a sh di n chosen 1 g) as [[s0 x0] tr0] eqn:E0. destruct (two_a 1 (S k) sh g s0 x0 tr0 s x tr T E0 E cure_a P H0) as (l & tr' & B & E' & _).
  cbn [repeat run_hist run_cmd] in E'. destruct (timed_step user_a s0 x0) as [[[s1 x1] tr1] e1] eqn:E1.
  destruct (a_step (S (S k)) T cure_a 1 (virus_ids n) sh s0 l x0 s1 x1 tr1 e1 P ltac:(lia) B E1) as (m & _ & Pm & _ & B1 & St).
  assert (T1 : ticks di (S (S 0))) by (intros j L; apply T; lia).
  destruct (run_a sh di n chosen 0 g) as [[s9 x9] tr9] eqn:E9.
  destruct (next_acts_a 0 sh g s9 x9 tr9 s0 x0 tr0 s1 x1 tr1 e1 T1 E9 E0 E1) as [Pa _].
  destruct (a_run (S (S k)) at_start sh 0 g s9 x9 tr9 T start_a) as (l3 & _ & (st3 & F3 & H3) & _); [lia|intros _ a; reflexivity|exact E9|].
  assert (Lq : l <> []).
  { intros ->. destruct B as (_ & _ & _ & _ & _ & Bq & _). unfold timed_step in E1. rewrite Bq in E1. injection E1 as <- <- <- <-.
    assert (J : In 1 (actors [])). { apply (Permutation_in 1 Pa). apply filter_In. split; [apply in_seq; lia|].
      pose proof (fine_name x9 st3 1 F3 Resistant) as Y. cbn [st_of st_name resistant_st] in Y. rewrite Y, (H3 eq_refl). pose proof (st0_not_resistant 1). destruct (st0 1); auto. }
    destruct J. }
  assert (St1 : s_steps s1 = 2). { destruct l; [contradiction|]. destruct B as (_ & _ & _ & _ & _ & Bs & _). now rewrite St, Bs. }
  destruct B1 as (_ & (st1 & F1 & _ & H1) & _ & _ & _ & Q1). rewrite H1 in Q1. destruct Q1 as [Q1 _].
  rewrite (idle user_a s1 x1 k Q1) in E'. injection E' as <- <- <-. auto.
Qed.
End Claims.
