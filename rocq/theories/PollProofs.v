(** Proofs about the agent of tests/test_time.py. *)
From Coq Require Import ZArith List Bool Arith String Lia Permutation.
From Verif Require Import Num PyDict TimedModel TimedSpec TimedProofs TraceProofs AgentModel AgentProofs FsmModel TutorSpec TutorProofs PollModel PollSpec.
Import ListNotations.
Local Open Scope nat_scope.
Local Open Scope list_scope.

Section Act.
Context {AR : Arith} {R : Type}.
Variables (delay target : aid -> num) (shuffle : list aid -> R -> R * list aid).
Notation X := (fworld pfun (plogs R) * cors (frame ppoint))%type.
Notation u := (poll_user delay target shuffle).
Definition says (a : aid) (t : num) : outcome := Ret (if n_ltb t (target a) then Some (delay a) else None).
(** The instants at which the function begins, if it is running or not. *)
Fixpoint begun (T : num) (running : bool) (ts : list num) : list num :=
  match ts with
  | [] => []
  | t :: ts => if running then begun T (n_ltb t T) ts else t :: begun T (n_ltb t T) ts
  end.
Definition running (T : num) (ts : list num) : bool := fold_left (fun _ t => n_ltb t T) ts false.
Definition ends (T : num) (ts : list num) : list num := filter (fun t => negb (n_ltb t T)) ts.
Definition ok (a : aid) (ts : list num) (x : X) : Prop :=
  let '(w, c) := x in
  fw_agents w a = FAgent (KPlain FStep) true None /\
  get_co c a = (if running (target a) ts then Some (GSusp (FIn PLoop)) else None) /\
  p_started (fw_rest w) a = begun (target a) false ts /\ p_asleep (fw_rest w) a = begun (target a) false ts /\
  p_awake (fw_rest w) a = ends (target a) ts /\ p_done (fw_rest w) a = ends (target a) ts.

Lemma begun_snoc T ts t : forall b, begun T b (ts ++ [t]) = begun T b ts ++ (if fold_left (fun _ t => n_ltb t T) ts b then [] else [t]).
Proof.
  induction ts as [|x ts IH]; intros b; cbn; [destruct b; reflexivity|]. rewrite !IH. destruct b; reflexivity.
Qed.
Lemma running_snoc T ts t : running T (ts ++ [t]) = n_ltb t T.
Proof. unfold running. now rewrite fold_left_app. Qed.
Lemma ends_snoc T ts t : ends T (ts ++ [t]) = ends T ts ++ (if n_ltb t T then [] else [t]).
Proof. unfold ends. rewrite filter_app. cbn. now destruct (n_ltb t T). Qed.

Lemma act s a x x' ops o : u_step u s a x = (x', ops, o) -> (exists ts, ok a ts x) ->
  ops = [] /\ o = says a (s_time s) /\ (forall ts, ok a ts x -> ok a (ts ++ [s_time s]) x') /\
  forall b ts, b <> a -> ok b ts x -> ok b ts x'.
Proof.
  intros U [ts0 O]. destruct x as [w c]. cbn [poll_user agent_user u_step] in U.
  destruct (agent_step _ _ s a (w, c)) as [[x1 l1] o1] eqn:E. injection U as <- <- <-.
  unfold agent_step, decorated in E. cbn [fst snd] in E. destruct O as (A & C & _).
  destruct (running (target a) ts0) eqn:RU.
  - rewrite C in E. cbn [send step_gen] in E. unfold inside in E. cbn [poll_code c_resume] in E. unfold poll_loop in E.
    unfold says. destruct (n_ltb (s_time s) (target a)) eqn:L; cbn [run_fops fw_agents] in E; rewrite ?A in E; cbn [fa_kind] in E; injection E as <- <- <-.
    + split; auto. split; auto. split.
      * intros ts (A2 & C2 & S1 & S2 & S3 & S4). rewrite C in C2. unfold ok. cbn [fw_agents fw_rest p_started p_asleep p_awake p_done].
        rewrite get_set_co, Nat.eqb_refl, running_snoc, begun_snoc, ends_snoc, L. 
        destruct (running (target a) ts) eqn:RT; [|discriminate]. unfold running in RT. rewrite RT, !app_nil_r. repeat split; auto.
      * intros b ts N (A2 & C2 & S). unfold ok. cbn [fw_agents fw_rest]. rewrite !get_set_co.
        apply Nat.eqb_neq in N. rewrite N. tauto.
    + split; auto. split; auto. split.
      * intros ts (A2 & C2 & S1 & S2 & S3 & S4). rewrite C in C2. unfold ok. cbn [fw_agents fw_rest p_started p_asleep p_awake p_done].
        rewrite get_set_co, Nat.eqb_refl, running_snoc, begun_snoc, ends_snoc, L. 
        destruct (running (target a) ts) eqn:RT; [|discriminate]. unfold running in RT. rewrite RT, !app_nil_r. unfold push. rewrite Nat.eqb_refl, S3, S4.
        repeat split; auto.
      * intros b ts N (A2 & C2 & S). unfold ok. cbn [fw_agents fw_rest p_started p_asleep p_awake p_done]. rewrite !get_set_co.
        apply Nat.eqb_neq in N. unfold push. rewrite N. tauto.
  - rewrite C in E. cbn [send step_gen] in E. rewrite A in E. cbn [fa_kind] in E. unfold inside in E. cbn [poll_code c_resume c_start] in E. unfold poll_loop in E.
    unfold says. destruct (n_ltb (s_time s) (target a)) eqn:L; cbn [run_fops fw_agents] in E; rewrite ?A in E; cbn [fa_kind] in E; injection E as <- <- <-.
    + split; auto. split; auto. split.
      * intros ts (A2 & C2 & S1 & S2 & S3 & S4). rewrite C in C2. unfold ok. cbn [fw_agents fw_rest p_started p_asleep p_awake p_done].
        rewrite get_set_co, Nat.eqb_refl, running_snoc, begun_snoc, ends_snoc, L. 
        destruct (running (target a) ts) eqn:RT; [discriminate|]. unfold running in RT. rewrite RT, !app_nil_r. unfold push. rewrite Nat.eqb_refl, S1, S2.
        repeat split; auto.
      * intros b ts N (A2 & C2 & S). unfold ok. cbn [fw_agents fw_rest p_started p_asleep p_awake p_done]. rewrite !get_set_co.
        apply Nat.eqb_neq in N. unfold push. rewrite N. tauto.
    + split; auto. split; auto. split.
      * intros ts (A2 & C2 & S1 & S2 & S3 & S4). rewrite C in C2. unfold ok. cbn [fw_agents fw_rest p_started p_asleep p_awake p_done].
        rewrite get_set_co, Nat.eqb_refl, running_snoc, begun_snoc, ends_snoc, L. 
        destruct (running (target a) ts) eqn:RT; [discriminate|]. unfold running in RT. rewrite RT. unfold push. rewrite Nat.eqb_refl, S1, S2, S3, S4.
        repeat split; auto.
      * intros b ts N (A2 & C2 & S). unfold ok. cbn [fw_agents fw_rest p_started p_asleep p_awake p_done]. rewrite !get_set_co.
        apply Nat.eqb_neq in N. unfold push. rewrite N. tauto.
Qed.

Lemma poll_track sh di h g s w c tr a : (forall f, ~ In (CWorld f) h) ->
  run_hist u h (timed_init sh di) (poll_world g) = (s, (w, c), tr) ->
  ok a (map fst (acts_of a tr)) (w, c) /\ forall t o, In (t, o) (acts_of a tr) -> o = says a t.
Proof.
  intros Ho Q.
  set (J := fun (l : list (num * outcome)) (x : X) => (forall b, exists ts, ok b ts x) /\ ok a (map fst l) x /\ forall t o, In (t, o) l -> o = says a t).
  enough (K : J (acts_of a tr) (w, c)) by (destruct K as (_ & K); exact K).
  refine (hist_track u a J _ _ h Ho [] _ _ _ _ _ Q _).
  - intros l s0 b x x' ops o U (O & K1 & K2). destruct (act _ _ _ _ _ _ U (O b)) as (_ & E & H1 & H2). split; [|split].
    + intros b0. destruct (Nat.eq_dec b0 b) as [->|N]; [destruct (O b) as [ts P]; eauto|]. destruct (O b0) as [ts P]. eauto.
    + destruct (Nat.eqb_spec b a) as [->|N]; [rewrite map_app; apply H1, K1|]. apply H2; auto.
    + destruct (Nat.eqb_spec b a) as [->|N]; auto. intros t o' I. apply in_app_or in I. destruct I as [I|[I|[]]]; auto. injection I as <- <-. auto.
  - intros l b x (O & K1 & K2). destruct x as [w0 c0].
    assert (H : forall a ts, ok a ts (w0, c0) -> ok a ts (fst (u_shuffle u b (w0, c0)))).
    { intros a0 ts P. cbn in P |- *. destruct (shuffle b (p_rng (fw_rest w0))) as [g' l']. exact P. }
    split; [|split; auto]. intros b0. destruct (O b0) as [ts P]. exists ts. auto.
  - split; [|split]; [intros b; exists []|..]; try (repeat split; reflexivity). intros t o [].
Qed.
End Act.

Section Times.
#[local] Existing Instance exact.
Lemma ltb_fin x y : n_ltb (Fin x) (Fin y) = Z.ltb x y.
Proof. reflexivity. Qed.

Section One.
Variables (t0 d di T : Z) (m : nat).
Hypothesis D : (0 < d)%Z.
Hypothesis DI : (0 <= di)%Z.
Hypothesis M : seen_first t0 d T m.
Lemma before_after k : Z.ltb (poll_at t0 d di m k) T = Nat.ltb k m.
Proof.
  unfold poll_at. destruct M as [M1 M2]. destruct (Nat.ltb_spec k m) as [H|H].
  - rewrite Nat.min_l by lia. replace (k - m) with 0 by lia. specialize (M2 k H). apply Z.ltb_lt. lia.
  - rewrite Nat.min_r by lia. apply Z.ltb_ge. nia.
Qed.
Lemma after k : poll_at t0 d di m (S k) = (poll_at t0 d di m k + (if Nat.ltb k m then d else di))%Z.
Proof.
  unfold poll_at. destruct (Nat.ltb_spec k m) as [H|H].
  - rewrite !Nat.min_l by lia. replace (S k - m) with 0 by lia. replace (k - m) with 0 by lia. lia.
  - rewrite !Nat.min_r by lia. replace (S k - m) with (S (k - m)) by lia. lia.
Qed.
Lemma times_from (delay target : aid -> num) a rest pend due : delay a = Fin d -> target a = Fin T ->
  timetable (Fin di) a due rest pend -> forall k, due = Fin (poll_at t0 d di m k) ->
  (forall t o, In (t, o) (acts_of a rest) -> o = says delay target a t) ->
  let n := List.length (acts_of a rest) in
  map fst (acts_of a rest) = map (fun k => Fin (poll_at t0 d di m k)) (seq k n) /\ pend = Some (Fin (poll_at t0 d di m (k + n))).
Proof.
  intros ED ET TT. cbn zeta. induction TT as [due|due o N|due o due' rest pend N TT IH]; intros k -> H.
  - cbn. rewrite Nat.add_0_r. auto.
  - exfalso. cbn in H. rewrite Nat.eqb_refl in H. specialize (H _ _ (or_introl eq_refl)). subst o. unfold says in N.
    rewrite ET, ED, ltb_fin, before_after in N. destruct (Nat.ltb k m); cbn in N; [destruct (Z.eqb d 0)|]; discriminate.
  - assert (O : o = says delay target a (Fin (poll_at t0 d di m k))).
    { apply (H _ o). cbn. rewrite Nat.eqb_refl. now left. }
    assert (E : due' = Fin (poll_at t0 d di m (S k))).
    { subst o. unfold says in N. rewrite ET, ED, ltb_fin, before_after in N. rewrite after. destruct (Nat.ltb k m); cbn in N.
      - destruct (Z.eqb_spec d 0); [lia|]. injection N as <-. f_equal; lia.
      - injection N as <-. f_equal; lia. }
    destruct (IH (S k) E) as [I1 I2].
    { intros t o' I. apply H. cbn. rewrite Nat.eqb_refl. now right. }
    cbn [acts_of flat_map]. fold (acts_of a rest). rewrite Nat.eqb_refl. cbn [app List.length map seq fst]. rewrite I1, I2. split; auto.
    do 3 f_equal. lia.
Qed.
Lemma ends_times k n : ends (Fin T) (map (fun k => Fin (poll_at t0 d di m k)) (seq k n)) =
  map (fun k => Fin (poll_at t0 d di m k)) (skipn (m - k) (seq k n)).
Proof.
  revert k. induction n as [|n IH]; intros k; [now rewrite skipn_nil|]. cbn [seq map ends filter]. fold (ends (Fin T)).
  unfold ends in IH |- *. cbn [filter map]. rewrite ltb_fin, before_after. destruct (Nat.ltb_spec k m) as [H|H]; cbn [negb]; rewrite IH.
  - replace (m - k) with (S (m - S k)) by lia. reflexivity.
  - replace (m - k) with 0 by lia. replace (m - S k) with 0 by lia. reflexivity.
Qed.
Lemma begun_times n : forall k, begun (Fin T) (match k with O => false | S k => Nat.ltb k m end) (map (fun k => Fin (poll_at t0 d di m k)) (seq k n)) =
  map (fun k => Fin (poll_at t0 d di m k)) (match k with O => firstn 1 (seq 0 n) ++ skipn (S m) (seq 0 n) | S _ => skipn (S m - k) (seq k n) end).
Proof.
  assert (P : forall n k, begun (Fin T) (Nat.ltb k m) (map (fun k => Fin (poll_at t0 d di m k)) (seq (S k) n)) =
    map (fun k => Fin (poll_at t0 d di m k)) (skipn (m - k) (seq (S k) n))).
  { clear n. induction n as [|n IH]; intros k; [now rewrite skipn_nil|]. cbn [seq map begun]. rewrite ltb_fin, before_after.
    destruct (Nat.ltb_spec k m) as [H|H]; rewrite IH.
    - replace (m - k) with (S (m - S k)) by lia. reflexivity.
    - replace (m - k) with 0 by lia. replace (m - S k) with 0 by lia. reflexivity. }
  intros [|k]; [|apply P]. destruct n as [|n]; [reflexivity|]. cbn [seq map begun]. rewrite ltb_fin, before_after, P.
  cbn [firstn skipn app map]. now rewrite Nat.sub_0_r.
Qed.
End One.

Lemma poll_life {R} (delay target : aid -> num) (shuffle : list aid -> R -> R * list aid) sh di h g s w c tr a t0 d T m :
  (forall l g, Permutation l (snd (shuffle l g))) -> (forall f, ~ In (CWorld f) h) -> (0 <= di)%Z ->
  (forall b, exists z, delay b = Fin z /\ (0 <= z)%Z) ->
  run_hist (poll_user delay target shuffle) h (timed_init sh (Fin di)) (poll_world g) = (s, (w, c), tr) ->
  adds_of a tr = 1 -> In (EvAdd (Fin t0) a) tr -> delay a = Fin d -> target a = Fin T -> (0 < d)%Z -> seen_first t0 d T m ->
  let n := List.length (instants a tr) in
  let ts := poll_times t0 d di m n in
  instants a tr = ts /\ n_leb (s_time s) (Fin (poll_at t0 d di m n)) = true /\
  p_started (fw_rest w) a = firstn 1 ts ++ skipn (S m) ts /\ p_asleep (fw_rest w) a = firstn 1 ts ++ skipn (S m) ts /\
  p_awake (fw_rest w) a = skipn m ts /\ p_done (fw_rest w) a = skipn m ts.
Proof.
  intros P Ho DI DB Q A IA ED ET D M. cbn zeta.
  assert (SAY : forall t b o, In (EvAct t b o) tr -> o = says delay target b t).
  { intros t b o I. apply (proj2 (poll_track delay target shuffle sh _ h g s w c tr b Ho Q)).
    apply in_flat_map. eexists. split; [exact I|]. cbn. rewrite Nat.eqb_refl. now left. }
  assert (NE : no_exc tr).
  { apply forallb_forall. intros e I. destruct e as [|t b o]; auto. apply SAY in I. now subst o. }
  assert (F : forward_trace tr).
  { apply Forall_forall. intros e I. destruct e as [|t b o]; [exact Logic.I|]. apply SAY in I. subst o. unfold says.
    destruct (DB b) as (z & -> & Z0). destruct (n_ltb t (target b)); cbn; auto. now apply nonneg_fin. }
  assert (FS : sh = true -> fair_shuffle (poll_user delay target shuffle)).
  { intros _ l [w0 c0]. cbn. specialize (P l (p_rng (fw_rest w0))). destruct (shuffle l (p_rng (fw_rest w0))). exact P. }
  destruct (trace_wakeup _ _ _ _ _ _ _ _ _ FS (nonneg_fin di DI) Q NE F A) as (t1 & rest & pend & FI & TT & PE).
  assert (T1 : t1 = Fin t0).
  { assert (J : In (EvAdd (Fin t0) a) (filter (about a) tr)) by (apply filter_In; cbn; rewrite Nat.eqb_refl; auto).
    assert (L : filter (is_add_of a) (filter (about a) tr) = filter (is_add_of a) tr).
    { clear. induction tr as [|[t b|t b o] tr IH]; cbn; auto; destruct (Nat.eqb a b) eqn:E; cbn; rewrite ?E, ?IH; auto. }
    unfold adds_of in A. rewrite <- L, FI in A. cbn in A. rewrite Nat.eqb_refl in A. cbn in A. injection A as A.
    rewrite FI in J. destruct J as [J|J]; [now injection J|].
    assert (J2 : In (EvAdd (Fin t0) a) (filter (is_add_of a) rest)) by (apply filter_In; cbn; rewrite Nat.eqb_refl; auto).
    destruct (filter (is_add_of a) rest); [contradiction|discriminate]. }
  subst t1. assert (AC : acts_of a tr = acts_of a rest) by (rewrite acts_of_about, FI; reflexivity).
  destruct (poll_track delay target shuffle sh _ h g s w c tr a Ho Q) as [(_ & _ & S1 & S2 & S3 & S4) SA].
  assert (T0 : Fin t0 = Fin (poll_at t0 d di m 0)) by (unfold poll_at; f_equal; cbn; lia).
  rewrite AC in SA. destruct (times_from t0 d di T m D DI M delay target a rest pend _ ED ET TT 0 T0 SA) as [I1 ->].
  rewrite instants_acts, map_length, AC. rewrite AC, I1, ET in *. unfold poll_times.
  split; [reflexivity|]. split; [exact PE|].
  pose proof (begun_times t0 d di T m DI M (List.length (acts_of a rest)) 0) as B. cbn [Nat.ltb] in B.
  pose proof (ends_times t0 d di T m DI M 0 (List.length (acts_of a rest))) as N. rewrite Nat.sub_0_r in N.
  rewrite map_app, <- firstn_map, <- skipn_map in B. rewrite <- skipn_map in N. rewrite S1, S2, S3, S4, B, N. auto.
Qed.
End Times.

Lemma poll_late t0 d T : (0 < d)%Z ->
  exists m, seen_first t0 d T m /\ (forall m', seen_first t0 d T m' -> m' = m) /\
  forall di, (Z.max t0 T <= poll_at t0 d di m m < Z.max t0 T + d)%Z.
Proof.
  intros D. exists (Z.to_nat ((T - t0 + d - 1) / d)%Z). set (q := ((T - t0 + d - 1) / d)%Z).
  assert (Q1 : (d * q <= T - t0 + d - 1 < d * q + d)%Z).
  { pose proof (Z.div_mod (T - t0 + d - 1) d ltac:(lia)). pose proof (Z.mod_pos_bound (T - t0 + d - 1) d D). fold q in H. lia. }
  assert (S : seen_first t0 d T (Z.to_nat q)).
  { split.
    - destruct (Z.le_gt_cases 0 q); [rewrite Z2Nat.id by lia|]; [nia|]. replace (Z.to_nat q) with 0 by lia. cbn. nia.
    - intros k K. assert (Z.of_nat k <= q - 1)%Z by lia. nia. }
  split; auto. split.
  - intros m' [A1 A2]. destruct S as [B1 B2]. destruct (Nat.lt_trichotomy m' (Z.to_nat q)) as [L|[L|L]]; auto.
    + specialize (B2 _ L). lia.
    + specialize (A2 _ L). lia.
  - intros di. unfold poll_at. rewrite Nat.min_id, Nat.sub_diag. destruct S as [B1 B2].
    destruct (Z.to_nat q) as [|k] eqn:K; [cbn; cbn in B1; lia|]. assert (q = Z.of_nat (S k)) by lia. specialize (B2 k ltac:(lia)). nia.
Qed.
