(** C243 to C246: the news of the tutorial. *)
From Coq Require Import ZArith List Bool Arith String Lia Permutation QArith Qminmax Qpower Qround Lqa.
From Verif Require Import Num PyDict TimedModel TimedSpec AgentModel FsmModel TutorSpec TutorProofs BroadcastModel BroadcastSpec BroadcastProofs ChanceProofs.
Import ListNotations.
Local Open Scope string_scope.
Local Open Scope nat_scope.
Local Open Scope list_scope.
#[local] Existing Instance exact.

(** C243 is false if [event_time] is the time at which the generator is added: [at] gives a delay of zero, which the
    scheduler takes for no delay, and the event happens one default interval later. *)
Theorem C243_event_at_start_refuted :
  forall one d factor g tv nbrs p_tv p draws s w tr t t' l, broadcast_run one 0 d factor g tv nbrs p_tv p draws s w tr ->
  instants g tr = t :: t' :: l -> t = Fin 0 /\ t' = Fin d.
Proof.
  intros one d factor g tv nbrs p_tv p draws s w tr t t' l R I.
  destruct (broadcast_life _ _ _ _ _ _ _ _ _ _ _ _ _ R) as (n & H & _). rewrite I in H.
  destruct n as [|[|n]]; cbn [timely] in H; try discriminate.
  rewrite every_S in H. injection H as -> -> _. split; auto.
Qed.
Print Assumptions C243_event_at_start_refuted.

(** C243, what holds.  If the generator is added at 0 and [event_time] is later, it is activated at 0, at [event_time] and
    then after each unit of time, until it is dead.  Until the second activation the probabilities are those of
    the model; then that of the television is one half, and after the third it is zero for ever; that
    of the neighbours is doubled (up to one) at the event and multiplied by the factor from the
    third activation on.  The generator dies when it falls below 1/100.  The clock does not pass
    the next activation of a living one. *)
Theorem C243_event_partial :
  forall one event d factor g tv nbrs p_tv p draws s w tr, broadcast_run one event d factor g tv nbrs p_tv p draws s w tr ->
  (0 < event)%Z ->
  exists n, instants g tr = match n with 0 => [] | S k => Fin 0 :: every event one k end /\
    (prob_tv_spread w == if Nat.leb n 1 then p_tv else if Nat.eqb n 2 then 1 # 2 else 0)%Q /\
    (prob_neighbor_spread w == if Nat.leb n 1 then p else faded p factor (n - 2))%Q /\
    (forall k, 1 <= k -> k + 2 < n -> (1 # 100 <= faded p factor k)%Q) /\
    (b_alive w g = true <-> n <= 2 \/ (1 # 100 <= faded p factor (n - 2))%Q) /\
    (b_alive w g = true -> n_leb (s_time s) (Fin (match n with 0 => 0 | S k => event + Z.of_nat k * one end)) = true).
Proof.
  intros one event d factor g tv nbrs p_tv p draws s w tr R Ev.
  destruct (broadcast_life _ _ _ _ _ _ _ _ _ _ _ _ _ R) as (n & I & P & S & A). exists n.
  assert (W : wait event d = event). { unfold wait. destruct (Z.eqb_spec event 0); auto. lia. }
  unfold timely, next_time in *. rewrite W in *. split; auto.
  unfold probs in P. split; [|split; [|split; [|split]]].
  - unfold prob_tv_spread. destruct n as [|[|[|n]]]; cbn in *; injection P as -> _; reflexivity.
  - unfold prob_neighbor_spread. destruct n as [|[|n]]; cbn [Nat.leb Nat.sub] in *; try (injection P as _ ->; reflexivity).
    rewrite Nat.sub_0_r, <- decay_faded. destruct n; cbn in P; injection P as _ ->; reflexivity.
  - intros k K1 K2. rewrite <- decay_faded. apply weak_spec, S; lia.
  - destruct A as [(A1 & A2 & A3)|(A1 & A2 & A3)]; rewrite ?A2, ?A3.
    + split; auto. intros _. destruct (le_lt_dec n 2) as [L|L]; auto. right. rewrite <- decay_faded. apply weak_spec, A1; lia.
    + split; [discriminate|]. intros [L|L]; [lia|]. rewrite <- decay_faded in L. apply weak_spec in L. congruence.
  - intros B. destruct A as [(A1 & A2 & A3)|(A1 & A2 & A3)]; auto. rewrite B in A3. discriminate.
Qed.
Print Assumptions C243_event_partial.

(** C244 is false: the generator dies saying that neighbours can no longer spread the rumour, but if the
    probability and the factor are positive, it is positive then and for ever after. *)
Theorem C244_spreads_on_refuted :
  forall one event d factor g tv nbrs p_tv p draws s w tr, broadcast_run one event d factor g tv nbrs p_tv p draws s w tr ->
  (0 < p)%Q -> (0 < factor)%Q -> (0 < prob_neighbor_spread w)%Q.
Proof.
  intros one event d factor g tv nbrs p_tv p draws s w tr R P F.
  destruct (broadcast_life _ _ _ _ _ _ _ _ _ _ _ _ _ R) as (n & _ & E & _). unfold prob_neighbor_spread. unfold probs in E.
  assert (D : forall k, (0 < decay factor p k)%Q).
  { intros k. rewrite decay_faded. unfold faded. pose proof (pow_gt factor k F) as G.
    assert (M : (0 < Qmin (p * 2) 1)%Q). { apply Q.min_glb_lt; lra. }
    rewrite <- (Qmult_0_l (Qpower factor (Z.of_nat k))). apply Qmult_lt_r; auto. }
  destruct n as [|[|[|n]]]; cbn [now_probs] in E; injection E as _ E; rewrite E; first [exact P | apply (D 0) | apply (D (S n))].
Qed.
Print Assumptions C244_spreads_on_refuted.

(** C244, what holds: the probability of the neighbours is one, if the factor is at most one. *)
Theorem C244_probability_partial :
  forall one event d factor g tv nbrs p_tv p draws s w tr, broadcast_run one event d factor g tv nbrs p_tv p draws s w tr ->
  (0 <= p <= 1)%Q -> (0 <= factor <= 1)%Q -> (0 <= prob_neighbor_spread w <= 1)%Q.
Proof.
  intros one event d factor g tv nbrs p_tv p draws s w tr R P F.
  destruct (broadcast_life _ _ _ _ _ _ _ _ _ _ _ _ _ R) as (n & _ & E & _). unfold prob_neighbor_spread. unfold probs in E.
  assert (D : forall k, (0 <= decay factor p k <= 1)%Q).
  { intros k. rewrite decay_faded. unfold faded. pose proof (pow_le1 factor k F) as G1. pose proof (pow_pos factor k (proj1 F)) as G2.
    assert (M : (0 <= Qmin (p * 2) 1)%Q). { apply Q.min_glb; lra. }
    assert (M' : (Qmin (p * 2) 1 <= 1)%Q) by apply Q.le_min_r.
    set (x := Qmin _ _) in *. set (y := Qpower _ _) in *. split; [now apply Qmult_le_0_compat|].
    apply Qle_trans with (1 * y)%Q; [now apply Qmult_le_compat_r|lra]. }
  destruct n as [|[|[|n]]]; cbn [now_probs] in E; injection E as _ E; rewrite E; first [exact P | apply (D 0) | apply (D (S n))].
Qed.
Print Assumptions C244_probability_partial.

(** C244, what holds: if the factor is less than one, there is a time after which the generator is dead... *)
Theorem C244_dies_partial :
  forall one event d factor g tv nbrs p_tv p draws, (0 < event)%Z -> (0 <= factor < 1)%Q ->
  exists T, forall s w tr, broadcast_run one event d factor g tv nbrs p_tv p draws s w tr ->
    n_ltb (Fin T) (s_time s) = true -> b_alive w g = false.
Proof.
  intros one event d factor g tv nbrs p_tv p draws Ev F.
  destruct (Z_lt_le_dec 0 one) as [O|O].
  2:{ exists 0%Z. intros s w tr [_ _ O' _]. lia. }
  (* a number of factors that suffices *)
  assert (X : exists N, forall k, N <= k -> (decay factor p k < 1 # 100)%Q).
  { destruct F as [F1 F2].
    exists (Z.to_nat (Qceiling (100 / (1 - factor)))). intros k K.
    rewrite decay_faded. unfold faded. pose proof (pow_bound factor k (conj F1 F2)) as B. pose proof (pow_pos factor k F1) as Y.
    assert (M' : (Qmin (p * 2) 1 <= 1)%Q) by apply Q.le_min_r.
    set (x := Qmin _ _) in *. set (y := Qpower _ _) in *.
    assert (C : (100 <= inject_Z (Z.of_nat k) * (1 - factor))%Q).
    { assert (C1 : (100 / (1 - factor) <= inject_Z (Z.of_nat k))%Q).
      { eapply Qle_trans; [apply Qle_ceiling|]. rewrite <- Zle_Qle. lia. }
      assert (E : (100 == 100 / (1 - factor) * (1 - factor))%Q) by (field; lra).
      rewrite E at 1. apply Qmult_le_compat_r; [exact C1|lra]. }
    set (z := (inject_Z (Z.of_nat k) * (1 - factor))%Q) in *.
    assert (Y1 : (y * 101 <= 1)%Q).
    { apply Qle_trans with (y * (1 + z))%Q; auto. rewrite !(Qmult_comm y). apply Qmult_le_compat_r; auto. lra. }
    assert (XY : (x * y <= 1 * y)%Q) by (now apply Qmult_le_compat_r). lra. }
  destruct X as [N X].
  exists (event + Z.of_nat (N + 3) * one)%Z. intros s w tr R L.
  destruct (broadcast_life _ _ _ _ _ _ _ _ _ _ _ _ _ R) as (n & _ & _ & _ & A).
  destruct A as [(A1 & _ & A3)|(_ & _ & A3)]; auto. exfalso.
  assert (n <= N + 2).
  { destruct (le_lt_dec n (N + 2)) as [H|H]; auto. exfalso.
    specialize (A1 (N + 1) ltac:(lia) ltac:(lia)). specialize (X (N + 1) ltac:(lia)). apply q_lt_spec in X. congruence. }
  assert (W : wait event d = event). { unfold wait. destruct (Z.eqb_spec event 0); auto. lia. }
  unfold next_time in A3. rewrite W in A3.
  destruct (s_time s) as [z| | |]; cbn in L; try discriminate; try (destruct n; discriminate).
  unfold n_leb in A3. cbn in A3. apply Z.ltb_lt in L. apply orb_true_iff in A3.
  assert (z <= match n with O => 0 | S k => event + Z.of_nat k * one end)%Z by (destruct A3 as [A3|A3]; [apply Z.ltb_lt in A3|apply Z.eqb_eq in A3]; lia).
  destruct n; nia.
Qed.
Print Assumptions C244_dies_partial.

(** ... and if it is at least one and the probability at least 1/200, the generator never dies. *)
Theorem C244_lives_partial :
  forall one event d factor g tv nbrs p_tv p draws s w tr, broadcast_run one event d factor g tv nbrs p_tv p draws s w tr ->
  (1 <= factor)%Q -> (1 # 200 <= p)%Q -> b_alive w g = true.
Proof.
  intros one event d factor g tv nbrs p_tv p draws s w tr R F P.
  destruct (broadcast_life _ _ _ _ _ _ _ _ _ _ _ _ _ R) as (n & _ & _ & _ & A).
  destruct A as [(_ & A & _)|(_ & A & _)]; auto. exfalso. apply q_lt_spec in A. rewrite decay_faded in A. unfold faded in A.
  pose proof (pow_ge1 factor (n - 2) F) as G.
  assert (M : (1 # 100 <= Qmin (p * 2) 1)%Q). { apply Q.min_glb; lra. }
  set (x := Qmin _ _) in *. set (y := Qpower _ _) in *.
  assert (X : (x * 1 <= x * y)%Q). { rewrite !(Qmult_comm x). apply Qmult_le_compat_r; lra. }
  lra.
Qed.
Print Assumptions C244_lives_partial.

(** C245.  If the probability of the television is zero at first and draws are not negative, no viewer has heard
    anything before the event, which is the second activation of the generator. *)
Theorem C245_quiet_before :
  forall one event d factor g tv nbrs p_tv p draws s w tr, broadcast_run one event d factor g tv nbrs p_tv p draws s w tr ->
  (p_tv <= 0)%Q -> (forall k, 0 <= draws k)%Q -> List.length (instants g tr) <= 1 ->
  forall a, a <> g -> b_state_id w a = Some "neutral" /\ by_friends w a = false.
Proof. exact quiet_before. Qed.
Print Assumptions C245_quiet_before.

(** C245.  Only viewers that are connected with the owner of a television are infected. *)
Theorem C245_along_the_network :
  forall one event d factor g tv nbrs p_tv p draws s w tr (S : aid -> Prop) a,
  broadcast_run one event d factor g tv nbrs p_tv p draws s w tr -> news_closed tv nbrs S ->
  b_state_id w a = Some "infected" \/ by_friends w a = true -> S a.
Proof. exact news_stays. Qed.
Print Assumptions C245_along_the_network.

(** C245.  In any run and its continuation viewers live, and infected viewers stay infected. *)
Theorem C245_for_ever :
  forall one event d factor g tv nbrs p_tv p draws shuffle sh h1 h2 s1 w1 c1 tr1 s2 w2 c2 tr2 a,
  (forall f, ~ In (CWorld f) (h1 ++ h2)) ->
  run_hist (broadcast_user one event factor shuffle) h1 (timed_init sh (Fin d)) (studio g tv nbrs p_tv p draws, no_cors) = (s1, (w1, c1), tr1) ->
  run_hist (broadcast_user one event factor shuffle) h2 s1 (w1, c1) = (s2, (w2, c2), tr2) -> a <> g ->
  b_alive w2 a = true /\ (b_state_id w1 a = Some "infected" -> b_state_id w2 a = Some "infected").
Proof.
  intros one event d factor g tv nbrs p_tv p draws shuffle sh h1 h2 s1 w1 c1 tr1 s2 w2 c2 tr2 a H E1 E2 N.
  assert (H1 : forall f, ~ In (CWorld f) h1) by (intros f I; apply (H f), in_or_app; auto).
  assert (H2 : forall f, ~ In (CWorld f) h2) by (intros f I; apply (H f), in_or_app; auto).
  destruct (viewers_live one event factor g shuffle h1 H1 _ _ _ _ _ _ _ E1 (studio_ok g tv nbrs p_tv p draws)) as [B _].
  exact (proj2 (viewers_live one event factor g shuffle h2 H2 _ _ _ _ _ _ _ E2 B) a N).
Qed.
Print Assumptions C245_for_ever.

(** C245.  What an activation of a viewer does.  A neutral one is infected if a friend has told it, or if it owns a
    television and the next draw is below the probability; it tells nobody.  An infected one waits for seven
    units of time, and has told exactly the neutral neighbours whose draws are below the probability. *)
Theorem C245_activation :
  forall one event factor s a w c w' c' l o,
  fa_kind (fw_agents w a) = KFsm (fst (meta spread_class)) -> b_alive w a = true -> get_co c a = None ->
  agent_step (broadcast_code one event factor) (fun _ => None) s a (w, c) = (w', c', l, o) ->
  let R := fw_rest w in let R' := fw_rest w' in
  (fa_cur (fw_agents w a) = Some b_neutral ->
     o = Ret None /\ (forall b, by_friends w' b = by_friends w b) /\
     (b_state_id w' a = Some "infected" <-> by_friends w a = true \/ b_tv R a = true /\ (b_draws R 0 < prob_tv_spread w)%Q)) /\
  (fa_cur (fw_agents w a) = Some b_infected ->
     o = Ret (Some (Fin (7 * one))) /\ b_state_id w' a = Some "infected" /\
     exists told, (forall b, In b told <-> In b (b_nbrs R a) /\ b_state_id w b = Some "neutral") /\
       forall b, by_friends w' b = true <-> by_friends w b = true \/
         exists i, nth_error told i = Some b /\ (b_draws R i < prob_neighbor_spread w)%Q).
Proof.
  intros one event factor s a w c w' c' l o K A G E R R'.
  assert (V : forall cur, cur = b_neutral \/ cur = b_infected -> fa_cur (fw_agents w a) = Some cur -> vok a (w, c)).
  { intros cur D C. repeat split; auto. cbn [fst]. rewrite C. destruct D as [->| ->]; auto. }
  split; intros C.
  - destruct (viewer_act _ _ _ _ _ _ _ _ _ _ _ _ (V b_neutral (or_introl eq_refl) C) E) as (_ & _ & _ & _ & _ & _ & X).
    destruct X as [(_ & -> & X1 & X2)|(X1 & _)]; [|rewrite C in X1; discriminate].
    split; auto. split; [exact X1|]. unfold b_state_id. rewrite X2. fold R. unfold by_friends, prob_tv_spread. fold R.
    pose proof (q_lt_spec (b_draws R 0) (b_tv_spread R)) as QL.
    destruct (b_hit R a); cbn [orb].
    + cbn. split; auto.
    + destruct (b_tv R a); cbn [andb].
      * destruct (q_lt _ _); cbn.
        -- split; auto. intros _. right. split; auto. now apply QL.
        -- split; [discriminate|]. intros [H|[_ H]]; [discriminate|]. apply QL in H. discriminate.
      * cbn. split; [discriminate|]. intros [H|[H _]]; discriminate.
  - destruct (viewer_act _ _ _ _ _ _ _ _ _ _ _ _ (V b_infected (or_intror eq_refl) C) E) as (_ & _ & _ & _ & _ & _ & X).
    destruct X as [(X1 & _)|(_ & -> & X1 & X2)]; [rewrite C in X1; discriminate|].
    split; auto. split; [unfold b_state_id; now rewrite X1|].
    exists (neutral_nbrs w a). split; [|exact X2]. intros b. unfold neutral_nbrs. rewrite filter_In. fold R. unfold b_state_id.
    destruct (fa_cur (fw_agents w b)) as [st|]; cbn [option_map].
    + rewrite String.eqb_eq. split; intros [H1 H2]; split; auto; congruence.
    + split; intros [_ H]; discriminate.
Qed.
Print Assumptions C245_activation.

(** C246 is false: the scheduler shuffles the agents of an instant, so that the owner of a television may be activated before the
    generator when the event happens and after it one unit of time later.  Then it has no chance to see the
    event, although all draws are below one half. *)
Section Chances.
Let tv (a : aid) := Nat.eqb a 1.
Let start (draws : nat -> Q) := (studio 0 tv (fun _ => []) 0 (1 # 10) draws, @no_cors (frame bfun)).
Let missed (steps : nat) :=
  run_hist (broadcast_user 1 10 (9 # 10) (fun _ l => (rev l, 1))) (map (fun a => CAdd a None) [0; 1] ++ repeat CStep steps)
    (timed_init true (Fin 1)) (start (fun _ => 1 # 4)).
Theorem C246_missed_refuted :
  exists tv draws s w tr, broadcast_run 1 10 1 (9 # 10) 0 tv (fun _ => []) 0 (1 # 10) draws s w tr /\
    tv 1 = true /\ (forall k, 0 <= draws k /\ draws k < 1 # 2)%Q /\ n_ltb (Fin 20) (s_time s) = true /\
    instants 0 tr = Fin 0 :: every 10 1 12 /\ b_state_id w 1 = Some "neutral".
Proof.
  exists tv, (fun _ => 1 # 4), (fst (fst (missed 22))), (fst (snd (fst (missed 22)))), (snd (missed 22)). split.
  - split; try lia. exists (fun _ l => (rev l, 1)), true, [0; 1], (repeat CStep 22), (snd (snd (fst (missed 22)))).
    split; [intros _ l; apply Permutation_rev|]. split; [repeat constructor; cbn; lia|]. split; [now left|].
    split; [apply Forall_forall; intros x H; apply repeat_spec in H; now subst x|].
    fold (start (fun _ => 1 # 4)). fold (missed 22).
    destruct (missed 22) as [[s0 [w0 c0]] tr0]. reflexivity.
  - split; [reflexivity|]. split; [intros k; split; [discriminate|reflexivity]|].
    vm_compute. repeat split.
Qed.
Print Assumptions C246_missed_refuted.

(** It may also have two chances: with a shuffle that reverses the agents only when the next draw is one, it is activated after the
    generator at 10, when its draw is too high, and before it at 11, and is infected then. *)
Let draws (k : nat) : Q := if Nat.eqb k 21 then 3 # 4 else if Nat.eqb k 22 then 1%Q else 1 # 4.
Let sometimes (f : nat -> Q) (l : list aid) := (if Qeq_bool (f 0) 1 then rev l else l, 1).
Let twice (steps : nat) :=
  run_hist (broadcast_user 1 10 (9 # 10) sometimes) (map (fun a => CAdd a None) [0; 1] ++ repeat CStep steps)
    (timed_init true (Fin 1)) (start draws).
Lemma twice_run k : broadcast_run 1 10 1 (9 # 10) 0 tv (fun _ => []) 0 (1 # 10) draws (fst (fst (twice k))) (fst (snd (fst (twice k)))) (snd (twice k)).
Proof.
  split; try lia. exists sometimes, true, [0; 1], (repeat CStep k), (snd (snd (fst (twice k)))).
  split; [intros f l; cbn; destruct (Qeq_bool (f 0) 1); [apply Permutation_rev|apply Permutation_refl]|].
  split; [repeat constructor; cbn; lia|]. split; [now left|].
  split; [apply Forall_forall; intros x H; apply repeat_spec in H; now subst x|].
  fold (start draws). fold (twice k).
  destruct (twice k) as [[s0 [w0 c0]] tr0]. reflexivity.
Qed.
Theorem C246_twice_refuted :
  exists tv draws s w tr s' w' tr', broadcast_run 1 10 1 (9 # 10) 0 tv (fun _ => []) 0 (1 # 10) draws s w tr /\
    broadcast_run 1 10 1 (9 # 10) 0 tv (fun _ => []) 0 (1 # 10) draws s' w' tr' /\ tv 1 = true /\
    (exists tr0, tr = tr0 ++ [EvAct (Fin 10) 0 (Ret (Some (Fin 1))); EvAct (Fin 10) 1 (Ret None)]) /\
    prob_tv_spread w = 1 # 2 /\ b_state_id w 1 = Some "neutral" /\
    tr' = tr ++ [EvAct (Fin 11) 1 (Ret None); EvAct (Fin 11) 0 (Ret (Some (Fin 1)))] /\
    b_state_id w' 1 = Some "infected".
Proof.
  exists tv, draws, (fst (fst (twice 11))), (fst (snd (fst (twice 11)))), (snd (twice 11)),
    (fst (fst (twice 12))), (fst (snd (fst (twice 12)))), (snd (twice 12)).
  split; [apply twice_run|]. split; [apply twice_run|]. split; [reflexivity|].
  split; [exists (firstn (List.length (snd (twice 11)) - 2) (snd (twice 11))); vm_compute; reflexivity|].
  vm_compute. repeat split.
Qed.
Print Assumptions C246_twice_refuted.
End Chances.

(** C246, what holds.  Let the default interval be the unit of time, and let a viewer be neutral whenever it is activated until one unit of time
    after the event (its activations return None).  If the scheduler does not shuffle, the viewer is activated exactly
    once after the generator raises the probability to one half and before it resets it. *)
Theorem C246_one_chance_partial :
  forall one event factor g tv nbrs p_tv p draws shuffle l h s w c tr1 m m' t' og og' a,
  (forall f l, Permutation l (fst (shuffle f l))) -> NoDup l -> In g l -> In a l -> a <> g ->
  Forall (fun c => match c with CStep | CRem _ => True | _ => False end) h -> (0 < one)%Z -> (0 < event)%Z ->
  run_hist (broadcast_user one event factor shuffle) (map (fun a => CAdd a None) l ++ h) (timed_init false (Fin one))
    (studio g tv nbrs p_tv p draws, no_cors)
    = (s, (w, c), tr1 ++ EvAct (Fin event) g og :: m ++ EvAct t' g og' :: m') ->
  instants g m = [] -> (forall t o, In (EvAct t a o) (tr1 ++ m) -> o = Ret None) ->
  exists t, instants a m = [t].
Proof. intros. eapply exactly_one_chance with (sh := false) (tr1 := tr1) (m' := m') (og := og) (og' := og') (g := g) (one := one) (t' := t'); eauto. Qed.
Print Assumptions C246_one_chance_partial.

(** With any shuffle it is at most two. *)
Theorem C246_at_most_two_chances_partial :
  forall one event factor g tv nbrs p_tv p draws shuffle sh l h s w c tr1 m m' t' og og' a,
  (forall f l, Permutation l (fst (shuffle f l))) -> NoDup l -> In g l -> In a l -> a <> g ->
  Forall (fun c => match c with CStep | CRem _ => True | _ => False end) h -> (0 < one)%Z -> (0 < event)%Z ->
  run_hist (broadcast_user one event factor shuffle) (map (fun a => CAdd a None) l ++ h) (timed_init sh (Fin one))
    (studio g tv nbrs p_tv p draws, no_cors)
    = (s, (w, c), tr1 ++ EvAct (Fin event) g og :: m ++ EvAct t' g og' :: m') ->
  instants g m = [] -> (forall t o, In (EvAct t a o) (tr1 ++ m) -> o = Ret None) ->
  List.length (instants a m) <= 2.
Proof. intros. eapply at_most_two_chances with (sh := sh) (tr1 := tr1) (m' := m') (og := og) (og' := og') (g := g) (one := one) (t' := t'); eauto. Qed.
Print Assumptions C246_at_most_two_chances_partial.

(** A generator 1 added between two viewers, whose draws are too high: both are activated after it at 10, since it asked first. *)
Example C246_case :
  let trace := snd (run_hist (broadcast_user 1 10 (9 # 10) (fun _ l => (l, 0))) (map (fun a => CAdd a None) [0; 1; 2] ++ repeat CStep 13)
    (timed_init false (Fin 1)) (studio 1 (fun _ => true) (fun _ => []) 0 (1 # 10) (fun _ => 3 # 4), no_cors)) in
  trace = firstn 24 trace ++ EvAct (Fin 10) 1 (Ret (Some (Fin 1))) :: [EvAct (Fin 10) 0 (Ret None); EvAct (Fin 10) 2 (Ret None)] ++
    EvAct (Fin 11) 1 (Ret (Some (Fin 1))) :: skipn 28 trace /\
  forallb (fun e => match e with EvAct _ a (Ret None) => true | EvAct _ a _ => Nat.eqb a 1 | _ => true end) trace = true.
Proof. vm_compute. split; reflexivity. Qed.

(** The run of docs/tutorial/soil_tutorial.ipynb:739-740, with [prob_tv_spread] after each step as in the table of lines 723-730. *)
Section Cases.
Let alone (steps : nat) :=
  run_hist (broadcast_user 1 10 (9 # 10) (fun _ l => (l, 0))) (CAdd 0 None :: repeat CStep steps) (timed_init false (Fin 1))
    (studio 0 (fun _ => false) (fun _ => []) (1 # 10) (1 # 10) (fun _ => 0%Q), no_cors).
Example C243_case : map (fun k => let '(s, (w, _), _) := alone k in (s_time s, prob_tv_spread w)) [0; 1; 2; 3; 4; 5] =
  [(Fin 0, 1 # 10); (Fin 10, 1 # 10); (Fin 11, 1 # 2); (Fin 12, 0%Q); (Fin 13, 0%Q); (Fin 14, 0%Q)].
Proof. vm_compute. reflexivity. Qed.

(** A network of four viewers, 1 - 2 - 3 and 4; 1 has a television and so has nobody else.  The factor is 1/100: the generator, 0, dies one unit
    of time after the event, which is at 10. *)
Let nbrs (a : aid) := match a with 1 => [2] | 2 => [1; 3] | 3 => [2] | _ => [] end.
Let tv (a : aid) := Nat.eqb a 1.
Let low (_ : nat) : Q := 1 # 1000000.
Let run (steps : nat) :=
  run_hist (broadcast_user 1 10 (1 # 100) (fun _ l => (l, 0))) (map (fun a => CAdd a None) [0; 1; 2; 3; 4] ++ repeat CStep steps)
    (timed_init false (Fin 1)) (studio 0 tv nbrs 0 (1 # 10) low, no_cors).
Let shown (steps : nat) :=
  let '(s, (w, _), _) := run steps in (s_time s, b_alive w 0, map (b_state_id w) [1; 2; 3; 4], Qred (prob_neighbor_spread w)).
(** After the death of the generator, at 11, its neighbour 2 tells 3. *)
Example C244_case : map shown [10; 11; 12; 13; 21] =
  [(Fin 10, true, [Some "neutral"; Some "neutral"; Some "neutral"; Some "neutral"], 1 # 10);
   (Fin 11, true, [Some "infected"; Some "neutral"; Some "neutral"; Some "neutral"], 1 # 5);
   (Fin 12, false, [Some "infected"; Some "infected"; Some "neutral"; Some "neutral"], 1 # 500);
   (Fin 13, false, [Some "infected"; Some "infected"; Some "infected"; Some "neutral"], 1 # 500);
   (Fin 21, false, [Some "infected"; Some "infected"; Some "infected"; Some "neutral"], 1 # 500)].
Proof. vm_compute. reflexivity. Qed.
(** This is such a run, and who is connected with 1 is 1, 2 or 3. *)
Example C245_case :
  (exists s w tr, broadcast_run 1 10 1 (1 # 100) 0 tv nbrs 0 (1 # 10) low s w tr /\
     map (b_state_id w) [1; 2; 3; 4] = [Some "infected"; Some "infected"; Some "infected"; Some "neutral"] /\
     instants 0 tr = Fin 0 :: every 10 1 2) /\
  (exists s w tr, broadcast_run 1 10 1 (1 # 100) 0 tv nbrs 0 (1 # 10) low s w tr /\ List.length (instants 0 tr) = 1 /\
     List.length (instants 1 tr) = 10) /\
  (forall k, 0 <= low k)%Q /\ news_closed tv nbrs (fun a => In a [1; 2; 3]).
Proof.
  assert (R : forall k, broadcast_run 1 10 1 (1 # 100) 0 tv nbrs 0 (1 # 10) low (fst (fst (run k))) (fst (snd (fst (run k)))) (snd (run k))).
  { intros k. split; try lia. exists (fun _ l => (l, 0)), false, [0; 1; 2; 3; 4], (repeat CStep k), (snd (snd (fst (run k)))).
    split; [intros f l; apply Permutation_refl|]. split; [repeat constructor; cbn; lia|]. split; [now left|].
    split; [apply Forall_forall; intros x H; apply repeat_spec in H; now subst x|].
    fold (run k). destruct (run k) as [[s0 [w0 c0]] tr0]. reflexivity. }
  split; [|split; [|split]].
  - exists (fst (fst (run 21))), (fst (snd (fst (run 21)))), (snd (run 21)). split; [apply R|]. vm_compute. split; reflexivity.
  - exists (fst (fst (run 10))), (fst (snd (fst (run 10)))), (snd (run 10)). split; [apply R|]. vm_compute. split; reflexivity.
  - intros k. discriminate.
  - split.
    + intros a H. apply Nat.eqb_eq in H. subst a. now left.
    + intros a b H I. destruct H as [<-|[<-|[<-|[]]]]; cbn in I; cbn; tauto.
Qed.
End Cases.
