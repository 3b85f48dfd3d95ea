(** Proofs about NoopModel. *)
From Coq Require Import ZArith List Bool Arith Lia Permutation.
From Verif Require Import Num PyDict TimedModel TimedProofs PQueueModel PQueueProofs AgentModel AgentProofs CounterSpec CounterProofs RoundProofs NoopModel NoopSpec.
Import ListNotations.
Local Open Scope nat_scope.

Section Noop.
Context {AR : Arith} {R : Type}.
Variable kind : noop.
Variables di one : num.
Hypothesis HO : n_truthy one = true.
Notation d := (pause kind di one).

Definition loops (c : cors unit) : Prop := forall a, get_co c a = None \/ get_co c a = Some (GSusp tt).
Definition J (h : list ev) (w : nworld R) : Prop := (forall a, nw_calls w a = activated a h) /\ loops (nw_cors w).

Lemma act_snoc a h t b o : activated a (h ++ [EvAct t b o]) = activated a h + if Nat.eq_dec a b then 1 else 0.
Proof. rewrite activated_app. cbn. lia. Qed.
Lemma called_act h calls a t o : (forall b, calls b = activated b h) -> forall b, called calls a b = activated b (h ++ [EvAct t a o]).
Proof.
  intros H b. rewrite act_snoc, <- H. unfold called. destruct (Nat.eqb_spec b a), (Nat.eq_dec b a); try contradiction; lia.
Qed.
Lemma drive_J resume s h a w w' ops o : (forall s a q calls, resume s a q calls = (called calls a, [], GYield (Some one) tt)) ->
  J h w -> drive resume s a w = (w', ops, o) -> (forall t, J (h ++ [EvAct t a o]) w') /\ ops = [] /\ o = Ret (Some one).
Proof.
  intros HR [H1 H2] E. unfold drive, decorated in E.
  assert (G : (match get_co (nw_cors w) a with None => GSusp tt | Some g => g end) = GSusp tt) by (destruct (H2 a) as [->| ->]; reflexivity).
  cbv zeta in E. rewrite G in E. cbn [send] in E. rewrite HR in E. cbn in E. injection E as <- <- <-. split; [|auto]. intros t. split; cbn.
  - now apply called_act.
  - intros b. destruct (Nat.eq_dec b a) as [->|NE].
    + right. unfold get_co, set_co. cbn. now rewrite dget_set_same.
    + specialize (H2 b). unfold get_co, set_co in *. cbn. rewrite !dget_set_other by congruence. exact H2.
Qed.
Lemma noop_J h s a w w' ops o : J h w -> noop_step kind one s a w = (w', ops, o) ->
  (forall t, J (h ++ [EvAct t a o]) w') /\ ops = [] /\ regular di d o /\ (n_eqb d PInf = false -> stays o = true).
Proof.
  intros H E. unfold noop_step in E. unfold pause. destruct kind.
  - injection E as <- <- <-. destruct H as [H1 H2]. split; [|cbn; auto].
    intros t. split; auto. cbn. now apply called_act.
  - destruct (drive_J _ _ _ _ _ _ _ _ (fun _ _ _ _ => eq_refl) H E) as (A & B & ->). split; [exact A|]. split; [exact B|]. cbn. rewrite HO. split; auto.
    destruct one; auto.
  - destruct (drive_J _ _ _ _ _ _ _ _ (fun _ _ _ _ => eq_refl) H E) as (A & B & ->). split; [exact A|]. split; [exact B|]. cbn. rewrite HO. split; auto.
    destruct one; auto.
Qed.

Lemma tick_nonneg k : ticks d k -> forall j, j <= k -> nonneg (tick d j) = true.
Proof.
  intros T. induction j as [|j IH]; intros L; [reflexivity|]. destruct (T j) as [A _]; [lia|]. unfold nonneg in *.
  eapply n_leb_trans; [apply IH; lia|]. now apply n_ltb_leb.
Qed.
Lemma tick_good k j : ticks d k -> j < k -> let when := n_add d (tick d j) in
  n_truthy when = true /\ n_eqb when when = true /\ n_eqb when PInf = false /\ n_ltb (tick d j) when = true.
Proof.
  intros T L. destruct (T j L) as [A B]. pose proof (tick_nonneg k T j ltac:(lia)) as N. cbn [tick] in *. cbv zeta.
  set (when := n_add d (tick d j)) in *. assert (P : n_ltb (Fin 0) when = true) by (eapply n_leb_ltb_trans; eauto).
  split; [|split; [|split; auto]].
  - unfold n_truthy. now rewrite (n_ltb_neq' _ _ P).
  - destruct when; try discriminate B; try discriminate P. cbn. apply Z.eqb_refl.
  - now apply n_ltb_neq.
Qed.
Lemma delay_finite k : 0 < k -> ticks d k -> n_eqb d PInf = false.
Proof.
  intros L T. destruct (tick_good k 0 T L) as (_ & _ & A & _). cbn [tick] in A. destruct d; auto.
  rewrite add_inf in A by reflexivity. exact A.
Qed.
Lemma activated_round a now m : activated a (round now m) = count_occ Nat.eq_dec (map fst m) a.
Proof.
  unfold round. induction m as [|[b o] m IH]; [reflexivity|]. cbn [map fst snd activated count_occ]. rewrite IH. destruct (Nat.eq_dec a b), (Nat.eq_dec b a); try congruence; reflexivity.
Qed.
Lemma activated_adds a l : activated a (map (EvAdd (Fin 0)) l) = 0.
Proof. induction l; auto. Qed.
Lemma all_stay (h : list ev) (m : list (aid * outcome)) : Forall (fun p => stays (snd p) = true) m -> stayers m = map fst m.
Proof.
  intros F. induction m as [|[b o] m IH]; auto. apply Forall_cons_iff in F as [F1 F2]. cbn in F1. unfold stayers. cbn. rewrite F1. cbn.
  f_equal. now apply IH.
Qed.
(** Histories in which everybody stays. *)
Definition K (h : list ev) (w : nworld R) : Prop := J h w /\ forall t a o, In (EvAct t a o) h -> stays o = true.
Lemma noop_K h s a w w' ops o : n_eqb d PInf = false -> K h w -> noop_step kind one s a w = (w', ops, o) ->
  (forall t, K (h ++ [EvAct t a o]) w') /\ ops = [] /\ regular di d o.
Proof.
  intros NP [H1 H2] E. destruct (noop_J _ _ _ _ _ _ _ H1 E) as (A & B & C & D). split; [|auto]. intros t. split; [apply A|].
  intros t' b o' I. apply in_app_iff in I as [I|[I|[]]]; [eauto|]. injection I as _ _ <-. auto.
Qed.
Lemma stay_round h m now w : K (h ++ round now m) w -> Forall (fun p => stays (snd p) = true) m.
Proof.
  intros [_ H]. apply Forall_forall. intros [b o] I. apply (H now b o). apply in_app_iff. right.
  apply (in_map (fun p => EvAct now (fst p) (snd p))) in I. exact I.
Qed.

Section Timed.
Variable shuffle : list aid -> R -> R * list aid.
Hypothesis HF : forall l g, Permutation l (snd (shuffle l g)).
Notation u := (noop_user kind one shuffle).
Lemma shuffle_K h l w w' l' : K h w -> u_shuffle u l w = (w', l') -> K h w' /\ Permutation l l'.
Proof.
  intros H E. cbn in E. pose proof (HF l (nw_rng w)) as P. destruct (shuffle l (nw_rng w)) as [g l1]. injection E as <- <-. auto.
Qed.
Lemma rounds k : ticks d k -> forall j n l h s w s' w' tr, j + n = k -> l <> [] -> K h w -> s_di s = di -> s_time s = tick d j -> s_queue s = [(s_time s, l)] ->
  run_hist u (repeat CStep n) s w = (s', w', tr) ->
  K (h ++ tr) w' /\ (forall a, activated a tr = n * count_occ Nat.eq_dec l a) /\ s_reg s' = s_reg s /\ s_steps s' = n + s_steps s.
Proof.
  intros T j n. revert j. induction n as [|n IH]; intros j l h s w s' w' tr L NE HK D TJ Q E; cbn [repeat run_hist run_cmd] in E.
  - injection E as <- <- <-. rewrite app_nil_r. auto.
  - destruct (timed_step u s w) as [[[s1 w1] tr1] x1] eqn:E1.
    destruct (run_hist u (repeat CStep n) s1 w1) as [[s2 w2] tr2] eqn:E2. injection E as <- <- <-.
    destruct (tick_good k j T ltac:(lia)) as (G1 & G2 & G3 & G4). rewrite <- TJ in *.
    assert (NP : n_eqb d PInf = false) by (apply (delay_finite k); auto; lia).
    destruct (step_round u K di d (fun h s a w w' ops o => noop_K h s a w w' ops o NP) shuffle_K h s w s1 w1 tr1 x1 l) as (m & -> & PM & -> & K1 & ->); auto.
    { rewrite TJ. apply (tick_nonneg k T). lia. }
    rewrite (all_stay h m) in E2 by (eapply stay_round; eauto).
    assert (NE' : map fst m <> []). { intros X. rewrite X in PM. apply Permutation_sym, Permutation_nil in PM. auto. }
    match type of E2 with run_hist _ _ ?z _ = _ => set (s0 := z) in E2 end.
    assert (T0 : s_time s0 = tick d (S j)). { subst s0. cbn. destruct (map fst m); [now destruct NE'|]. now rewrite TJ. }
    assert (Q0 : s_queue s0 = [(s_time s0, map fst m)]). { subst s0. cbn. unfold single. now destruct (map fst m). }
    destruct (IH (S j) (map fst m) (h ++ round (s_time s) m)%list s0 w1 _ _ _ ltac:(lia) NE' K1 D T0 Q0 E2) as (R1 & R2 & R3 & R4).
    rewrite <- app_assoc in R1. split; auto. split; [|split; [exact R3|rewrite R4; cbn; lia]].
    intros a. rewrite activated_app, activated_round, R2.
    rewrite <- (proj1 (Permutation_count_occ Nat.eq_dec _ _) PM a). lia.
Qed.
End Timed.

Section PQ.
Variable random : R -> R * Z.
Notation u := (noop_puser kind one random).
Lemma draw_K h w w' z : K h w -> p_draw u w = (w', z) -> K h w'.
Proof. intros H E. cbn in E. destruct (random (nw_rng w)) as [g z']. injection E as <- <-. exact H. Qed.
Lemma prounds k fuel : ticks d k -> forall j n h s w, j + n = k -> p_heap s <> [] -> K h w -> p_di s = di -> p_time s = tick d j -> all_at (p_time s) (p_heap s) ->
  List.length (p_heap s) < fuel ->
  exists s' w' tr, pq_hist u fuel (repeat CStep n) s w = Some (s', w', tr) /\
  K (h ++ tr) w' /\ (forall a, activated a tr = n * count_occ Nat.eq_dec (map e_agent (p_heap s)) a) /\ p_reg s' = p_reg s /\ p_steps s' = n + p_steps s.
Proof.
  intros T j n. revert j. induction n as [|n IH]; intros j h s w L NE HK D TJ Q F; cbn [repeat pq_hist pq_cmd].
  - exists s, w, []. rewrite app_nil_r. auto.
  - destruct (tick_good k j T ltac:(lia)) as (G1 & G2 & G3 & G4). rewrite <- TJ in *.
    assert (NP : n_eqb d PInf = false) by (apply (delay_finite k); auto; lia).
    destruct (pq_round u K di d (fun h s a w w' ops o => noop_K h _ a w w' ops o NP) draw_K fuel h s w) as (m & w1 & hp & E & M & K1 & A1 & PM); auto.
    { rewrite TJ. apply (tick_nonneg k T). lia. }
    rewrite E. rewrite (all_stay h m) in PM by (eapply stay_round; eauto). rewrite M in PM.
    assert (LN : List.length hp = List.length (p_heap s)) by (apply Permutation_length in PM; now rewrite !map_length in PM).
    destruct hp as [|e0 hp]; [destruct (p_heap s); [now destruct NE|discriminate LN]|].
    set (s0 := PQ (n_add d (p_time s)) (S (p_steps s)) (e0 :: hp) (p_reg s) (p_shuffle s) (p_di s) (p_running s)).
    destruct (IH (S j) (h ++ round (p_time s) m)%list s0 w1) as (s' & w' & tr & E' & R1 & R2 & R3 & R4); auto; try lia.
    { discriminate. } { cbn. now rewrite TJ. } { cbn [s0 p_heap]. lia. }
    rewrite E'. exists s', w', (round (p_time s) m ++ tr)%list. rewrite <- app_assoc in R1. split; auto. split; auto.
    split; [|split; [exact R3|rewrite R4; cbn; lia]].
    intros a. rewrite activated_app, activated_round, R2, M. cbn [s0 p_heap].
    rewrite (proj1 (Permutation_count_occ Nat.eq_dec _ _) PM a). lia.
Qed.
End PQ.
End Noop.

(** * The theorems *)
Lemma count_ids n a : count_occ Nat.eq_dec (ids n) a = if (1 <=? a) && (a <=? n) then 1 else 0.
Proof.
  destruct ((1 <=? a) && (a <=? n)) eqn:E.
  - apply andb_true_iff in E as [E1 E2]. apply Nat.leb_le in E1, E2. apply NoDup_count_occ'; [apply seq_NoDup|]. apply in_seq. lia.
  - apply count_occ_not_In. intros I. apply in_seq in I. assert ((1 <=? a) && (a <=? n) = true); [|congruence].
    apply andb_true_iff. rewrite !Nat.leb_le. lia.
Qed.
Lemma sum_same {X} (f : X -> nat) k l : (forall x, In x l -> f x = k) -> list_sum (map f l) = List.length l * k.
Proof.
  induction l as [|x l IH]; intros H; [reflexivity|]. cbn [map list_sum fold_right]. change (fold_right Nat.add 0 (map f l)) with (list_sum (map f l)).
  rewrite (H x) by (now left). rewrite IH by (intros y I; apply H; now right). reflexivity.
Qed.
Lemma K_start {R} h (w : nworld R) (g : R) : (forall a, activated a h = 0) -> forallb (fun e => match e with EvAct _ _ _ => false | _ => true end) h = true ->
  nw_calls w = nw_calls (noop_world g) -> nw_cors w = no_cors -> K h w.
Proof.
  intros A F C D. split; [split|].
  - intros a. rewrite A, C. reflexivity.
  - intros a. rewrite D. left. reflexivity.
  - intros t a o I. rewrite forallb_forall in F. apply F in I. discriminate I.
Qed.
Lemma adds_quiet l : forallb (fun e => match e with EvAct _ _ _ => false | _ => true end) (map (EvAdd (Fin 0)) l) = true.
Proof. induction l; auto. Qed.
Lemma calls_of {R} n k (w : nworld R) : (forall a, nw_calls w a = k * count_occ Nat.eq_dec (ids n) a) ->
  (forall a, 1 <= a <= n -> nw_calls w a = k) /\ total_calls (ids n) w = n * k.
Proof.
  intros H. assert (G : forall a, 1 <= a <= n -> nw_calls w a = k).
  { intros a L. rewrite H, count_ids. replace ((1 <=? a) && (a <=? n)) with true; [lia|]. symmetry. apply andb_true_iff. rewrite !Nat.leb_le. lia. }
  split; auto. unfold total_calls. rewrite (sum_same _ k).
  - unfold ids. now rewrite seq_length.
  - intros x I. apply G. apply in_seq in I. lia.
Qed.
Lemma timed_noop {AR : Arith} {R} kind di one (shuffle : list aid -> R -> R * list aid) sh n k g s w tr :
  n_truthy one = true -> (forall l g, Permutation l (snd (shuffle l g))) -> ticks (pause kind di one) k -> 0 < n ->
  noop_run kind one shuffle sh di n k g = (s, w, tr) ->
  (forall a, 1 <= a <= n -> nw_calls w a = k) /\ s_reg s = ids n /\ s_steps s = k /\ total_calls (s_reg s) w = n * k.
Proof.
  intros HO HF T N E. unfold noop_run, noop_history in E. rewrite run_hist_app, start_single in E by apply seq_NoDup.
  destruct (run_hist _ (repeat CStep k) _ _) as [[s1 w1] tr1] eqn:E1. injection E as <- <- <-.
  assert (NE : ids n <> []) by (destruct n; [lia|discriminate]).
  assert (Q : single (Fin 0) (ids n) = [(Fin 0, ids n)]) by (unfold single; destruct (ids n); [now destruct NE|reflexivity]).
  rewrite Q in E1.
  assert (K0 : K (map (EvAdd (Fin 0)) (ids n)) (noop_world g)).
  { apply (K_start _ _ g); auto using activated_adds, adds_quiet. }
  match type of E1 with run_hist _ _ ?z _ = _ => set (s0 := z) in E1 end.
  destruct (rounds kind di one HO shuffle HF k T 0 k (ids n) (map (EvAdd (Fin 0)) (ids n)) s0 _ _ _ _ eq_refl NE K0 eq_refl eq_refl eq_refl E1) as (((A & _) & _) & B & C & D).
  cbn in C, D. rewrite C, D. assert (X : forall a, nw_calls w1 a = k * count_occ Nat.eq_dec (ids n) a).
  { intros a. rewrite A, activated_app, activated_adds, B. reflexivity. }
  destruct (calls_of n k w1 X). auto.
Qed.
Lemma pq_noop {AR : Arith} {R} kind di one (random : R -> R * Z) sh n k g fuel :
  n_truthy one = true -> ticks (pause kind di one) k -> 0 < n < fuel ->
  exists s w tr, noop_prun kind one random fuel sh di n k g = Some (s, w, tr) /\
  (forall a, 1 <= a <= n -> nw_calls w a = k) /\ p_reg s = ids n /\ p_steps s = k /\ total_calls (p_reg s) w = n * k.
Proof.
  intros HO T [N F]. unfold noop_prun, noop_history. rewrite pq_hist_app.
  destruct (pq_start (noop_puser kind one random) (fun w => nw_calls w = nw_calls (noop_world g) /\ nw_cors w = no_cors) fuel sh di (noop_world g) (ids n) (seq_NoDup n 1))
    as (w0 & h0 & E0 & A0 & P0 & C0 & D0); auto.
  { intros w w' z [H1 H2] E. cbn in E. destruct (random (nw_rng w)). injection E as <- <-. auto. }
  rewrite E0. assert (NE : h0 <> []).
  { intros ->. apply Permutation_nil in P0. destruct n; [lia|discriminate P0]. }
  destruct (prounds kind di one HO random k fuel T 0 k (map (EvAdd (Fin 0)) (ids n)) (PQ (Fin 0) 0 h0 (ids n) sh di true) w0 eq_refl NE) as (s & w & tr & E & ((A & _) & _) & B & C & D); auto.
  { apply (K_start _ _ g); auto using activated_adds, adds_quiet. }
  { cbn [p_heap]. apply Permutation_length in P0. rewrite map_length in P0. unfold ids in P0. rewrite seq_length in P0. lia. }
  rewrite E. cbn in C, D. exists s, w, (map (EvAdd (Fin 0)) (ids n) ++ tr)%list. split; [reflexivity|]. rewrite C, D.
  assert (X : forall a, nw_calls w a = k * count_occ Nat.eq_dec (ids n) a).
  { intros a. rewrite A, activated_app, activated_adds, B. cbn [p_heap]. rewrite (proj1 (Permutation_count_occ Nat.eq_dec _ _) P0 a). reflexivity. }
  destruct (calls_of n k w X). auto.
Qed.

(** * The delays *)
From Verif Require Import Binary64Model Binary64Proofs.
Lemma ticks_exact d k : n_ltb (Fin 0) d = true -> n_ltb d PInf = true -> @ticks exact d k.
Proof.
  intros H1 H2 j _. destruct d as [z| | |]; try discriminate. cbn in H1. apply Z.ltb_lt in H1.
  assert (T : forall j, @tick exact (Fin z) j = Fin (Z.of_nat j * z)).
  { clear j. induction j as [|j IH]; [reflexivity|]. cbn [tick]. rewrite IH. cbn [n_add exact x_add]. f_equal. rewrite Nat2Z.inj_succ. ring. }
  rewrite !T. split; [|reflexivity]. cbn [n_ltb]. apply Z.ltb_lt. rewrite Nat2Z.inj_succ. apply Z.mul_lt_mono_pos_r; lia.
Qed.
Lemma ticks_float e k : (0 <= e <= 2044)%Z -> (Z.of_nat k <= 2 ^ 53)%Z -> @ticks binary64 (Fin (2 ^ e)) k.
Proof.
  intros HE HK. assert (P : (0 < 2 ^ e)%Z) by (apply Z.pow_pos_nonneg; lia).
  assert (FL : forall j, (0 <= j <= 2 ^ 53)%Z -> is_float (j * 2 ^ e) = true).
  { intros j L. apply is_float_mult; [lia|rewrite Z.abs_eq; lia|]. rewrite Z.abs_eq by (apply Z.mul_nonneg_nonneg; lia).
    apply Z.le_lt_trans with (2 ^ 53 * 2 ^ e)%Z; [apply Z.mul_le_mono_nonneg_r; lia|].
    rewrite <- Z.pow_add_r by lia. Transparent overflow. unfold overflow. Opaque overflow. apply Z.pow_lt_mono_r; lia. }
  assert (T : forall j, (Z.of_nat j <= 2 ^ 53)%Z -> @tick binary64 (Fin (2 ^ e)) j = Fin (Z.of_nat j * 2 ^ e)).
  { induction j as [|j IH]; intros L; [reflexivity|]. cbn [tick]. rewrite IH by lia. cbn [n_add binary64 add_float].
    rewrite (FL (Z.of_nat j)) by lia.
    replace (is_float (2 ^ e)) with true.
    2:{ symmetry. rewrite <- (Z.mul_1_l (2 ^ e)). apply FL. split; [lia|]. apply (Z.pow_le_mono_r 2 0 53); lia. }
    cbn [andb]. replace (2 ^ e + Z.of_nat j * 2 ^ e)%Z with (Z.of_nat (S j) * 2 ^ e)%Z by (rewrite Nat2Z.inj_succ; ring).
    apply to_float_id, FL. lia. }
  intros j L. rewrite !T by lia. split; [|reflexivity]. cbn [n_ltb]. apply Z.ltb_lt. rewrite Nat2Z.inj_succ.
  apply Z.mul_lt_mono_pos_r; lia.
Qed.
