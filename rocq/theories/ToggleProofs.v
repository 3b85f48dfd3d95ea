(** Proofs about the agents of tests/test_main.py that go to and fro between two states. *)
From Coq Require Import ZArith List Bool Arith String Lia Permutation.
From Verif Require Import Num PyDict TimedModel TimedSpec TimedProofs TraceProofs AgentModel AgentProofs FsmModel TutorSpec TutorProofs ToggleModel ToggleSpec.
Import ListNotations.
Local Open Scope nat_scope.
Local Open Scope list_scope.

Section Act.
Context {AR : Arith} {R : Type}.
Variables (dp dq : aid -> option num) (shuffle : list aid -> R -> R * list aid).
Notation X := (fworld tfn R * cors (frame tfn))%type.
Notation u := (toggle_user dp dq shuffle).
Notation K := (KFsm (fst (meta toggle_class))).
(** What the activation number [k] answers. *)
Definition says (a : aid) (k : nat) : outcome := Ret (if Nat.even k then dp a else dq a).
Definition ok (a : aid) (k : nat) (x : X) : Prop :=
  fw_agents (fst x) a = FAgent K true (Some (if Nat.even k then t_ping else t_pong)) /\ get_co (snd x) a = None.

Lemma even_S k : Nat.even (S k) = negb (Nat.even k).
Proof. rewrite Nat.even_succ. symmetry. apply Nat.negb_even. Qed.

Lemma act s a x x' ops o k : u_step u s a x = (x', ops, o) -> ok a k x ->
  ops = [] /\ o = says a k /\ ok a (S k) x' /\ forall b j, b <> a -> ok b j x -> ok b j x'.
Proof.
  intros E [A C]. destruct x as [w c]. cbn [fst snd] in A, C.
  cbn [u_step toggle_user agent_user] in E. unfold agent_step, decorated in E. cbn [fst snd] in E. rewrite C in E.
  cbn [send step_gen] in E. rewrite A in E. cbn [fa_kind fa_alive fa_cur negb] in E. unfold inside in E.
  unfold says. unfold ok. rewrite even_S.
  destruct (Nat.even k); cbn [st_fun t_ping t_pong toggle_code c_start c_resume run_fops fw_agents] in E; rewrite A in E; cbn [fa_kind] in E; unfold finish in E; cbn [fw_agents] in E; rewrite A in E.
  - destruct (dp a) as [n|]; cbn in E; injection E as <- <- <-; repeat split; cbn [fst snd fw_agents upd];
      rewrite ?get_set_co, ?Nat.eqb_refl; auto; try (intros; apply Nat.eqb_neq in H; rewrite ?get_set_co, ?H; tauto).
  - destruct (dq a) as [n|]; cbn in E; injection E as <- <- <-; repeat split; cbn [fst snd fw_agents upd];
      rewrite ?get_set_co, ?Nat.eqb_refl; auto; try (intros; apply Nat.eqb_neq in H; rewrite ?get_set_co, ?H; tauto).
Qed.

Lemma track sh di h g s x tr a : (forall f, ~ In (CWorld f) h) ->
  run_hist u h (timed_init sh di) (toggle_world g) = (s, x, tr) ->
  ok a (List.length (acts_of a tr)) x /\ forall k t o, nth_error (acts_of a tr) k = Some (t, o) -> o = says a k.
Proof.
  intros Ho Q.
  set (J := fun (l : list (num * outcome)) (x : X) => (forall b, exists k, ok b k x) /\ ok a (List.length l) x /\
              forall k t o, nth_error l k = Some (t, o) -> o = says a k).
  enough (W : J (acts_of a tr) x) by (destruct W as (_ & W); exact W).
  refine (hist_track u a J _ _ h Ho [] _ _ _ _ _ Q _).
  - intros l s0 b y y' ops o U (O & K1 & K2).
    destruct (Nat.eqb_spec b a) as [->|N].
    + destruct (act _ _ _ _ _ _ _ U K1) as (_ & E & H1 & H2). split; [|split].
      * intros b0. destruct (Nat.eq_dec b0 a) as [->|N]; [eauto|]. destruct (O b0) as [k P]. eauto.
      * rewrite app_length, Nat.add_1_r. exact H1.
      * intros k t o' I. destruct (Nat.lt_ge_cases k (List.length l)) as [L|L].
        { rewrite nth_error_app1 in I by exact L. eauto. }
        rewrite nth_error_app2 in I by exact L. destruct (k - List.length l) as [|n] eqn:D; cbn in I; [|destruct n; discriminate].
        injection I as <- <-. replace k with (List.length l) by lia. exact E.
    + destruct (O b) as [k0 P0]. destruct (act _ _ _ _ _ _ _ U P0) as (_ & E & H1 & H2). split; [|split]; auto.
      intros b0. destruct (Nat.eq_dec b0 b) as [->|N0]; [eauto|]. destruct (O b0) as [k P]. eauto.
  - intros l b y (O & K1 & K2). destruct y as [w0 c0].
    assert (H : forall a k, ok a k (w0, c0) -> ok a k (fst (u_shuffle u b (w0, c0)))).
    { intros a0 k P. cbn in P |- *. destruct (shuffle b (fw_rest w0)) as [g' l']. exact P. }
    split; [|split; auto]. intros b0. destruct (O b0) as [k P]. exists k. auto.
  - split; [intros b; exists 0; split; reflexivity|]. split; [split; reflexivity|]. intros [|k]; discriminate.
Qed.
End Act.

Section Times.
#[local] Existing Instance exact.
Lemma gap_nonneg di d z : (0 <= di)%Z -> gap di d z -> (0 <= z)%Z.
Proof. intros D [| |y Y]; lia. Qed.
Lemma gap_due di d z t : gap di d z -> next_due (Fin di) (Fin t) (Ret d) = Some (Fin (t + z)).
Proof.
  intros [| |y Y]; [reflexivity..|]. cbn [next_due]. replace (n_eqb (Fin y) (Fin 0)) with false; [reflexivity|].
  symmetry. apply Z.eqb_neq. lia.
Qed.
Lemma gap_forward di d z : gap di d z -> match d with Some n => nonneg n = true | None => True end.
Proof. intros [| |y Y]; auto. apply nonneg_fin. lia. Qed.
Lemma at_S t0 p q k : toggle_at t0 p q (S k) = (toggle_at t0 p q k + (if Nat.even k then p else q))%Z.
Proof.
  unfold toggle_at. destruct (Nat.even k) eqn:E.
  - apply Nat.even_spec in E. destruct E as [m ->].
    replace ((S (2 * m) + 1) / 2) with (S m) by (apply (Nat.div_unique _ _ _ 0); lia).
    replace (S (2 * m) / 2) with m by (apply (Nat.div_unique _ _ _ 1); lia).
    replace ((2 * m + 1) / 2) with m by (apply (Nat.div_unique _ _ _ 1); lia).
    replace (2 * m / 2) with m by (apply (Nat.div_unique _ _ _ 0); lia). lia.
  - assert (O : Nat.odd k = true) by (unfold Nat.odd; now rewrite E). apply Nat.odd_spec in O. destruct O as [m ->].
    replace ((S (2 * m + 1) + 1) / 2) with (S m) by (apply (Nat.div_unique _ _ _ 1); lia).
    replace (S (2 * m + 1) / 2) with (S m) by (apply (Nat.div_unique _ _ _ 0); lia).
    replace ((2 * m + 1 + 1) / 2) with (S m) by (apply (Nat.div_unique _ _ _ 0); lia).
    replace ((2 * m + 1) / 2) with m by (apply (Nat.div_unique _ _ _ 1); lia). lia.
Qed.
Lemma times_from dp dq a di p q t0 rest pend due : gap di (dp a) p -> gap di (dq a) q ->
  timetable (Fin di) a due rest pend -> forall k, due = Fin (toggle_at t0 p q k) ->
  (forall i t o, nth_error (acts_of a rest) i = Some (t, o) -> o = says dp dq a (k + i)) ->
  let n := List.length (acts_of a rest) in
  map fst (acts_of a rest) = map (fun k => Fin (toggle_at t0 p q k)) (seq k n) /\ pend = Some (Fin (toggle_at t0 p q (k + n))).
Proof.
  intros GP GQ TT. cbn zeta.
  assert (ND : forall k, next_due (Fin di) (Fin (toggle_at t0 p q k)) (says dp dq a k) = Some (Fin (toggle_at t0 p q (S k)))).
  { intros k. rewrite at_S. unfold says. destruct (Nat.even k); now apply gap_due. }
  induction TT as [due|due o N|due o due' rest pend N TT IH]; intros k -> H.
  - cbn. rewrite Nat.add_0_r. auto.
  - exfalso. cbn in H. rewrite Nat.eqb_refl in H. specialize (H 0 _ _ eq_refl). rewrite Nat.add_0_r in H. subst o. rewrite ND in N. discriminate.
  - cbn [acts_of flat_map] in H |- *. fold (acts_of a rest) in H |- *. rewrite Nat.eqb_refl in H |- *. cbn [app] in H |- *.
    pose proof (H 0 _ _ eq_refl) as O. rewrite Nat.add_0_r in O. subst o. rewrite ND in N. injection N as <-.
    destruct (IH (S k) eq_refl) as [I1 I2].
    { intros i t o I. rewrite Nat.add_succ_comm. apply (H (S i) t o I). }
    cbn [List.length map seq fst]. rewrite I1, I2. split; auto. do 3 f_equal. lia.
Qed.

Lemma toggle_life {R} (dp dq : aid -> option num) (shuffle : list aid -> R -> R * list aid) sh di h g s w c tr a t0 p q :
  (forall l g, Permutation l (snd (shuffle l g))) -> (forall f, ~ In (CWorld f) h) -> (0 <= di)%Z ->
  (forall b, exists p q, gap di (dp b) p /\ gap di (dq b) q) ->
  run_hist (toggle_user dp dq shuffle) h (timed_init sh (Fin di)) (toggle_world g) = (s, (w, c), tr) ->
  adds_of a tr = 1 -> In (EvAdd (Fin t0) a) tr -> gap di (dp a) p -> gap di (dq a) q ->
  let n := List.length (instants a tr) in
  instants a tr = map (fun k => Fin (toggle_at t0 p q k)) (seq 0 n) /\
  n_leb (s_time s) (Fin (toggle_at t0 p q n)) = true /\
  state_id w a = Some (if Nat.even n then "ping" else "pong")%string.
Proof.
  intros P Ho DI DB Q A IA GP GQ. cbn zeta.
  assert (SAY : forall t b o, In (EvAct t b o) tr -> exists k, o = says dp dq b k).
  { intros t b o I. destruct (track dp dq shuffle sh _ h g s _ tr b Ho Q) as [_ T].
    assert (J : In (t, o) (acts_of b tr)). { apply in_flat_map. eexists. split; [exact I|]. cbn. rewrite Nat.eqb_refl. now left. }
    apply In_nth_error in J. destruct J as [k J]. exists k. eauto. }
  assert (NE : no_exc tr).
  { apply forallb_forall. intros e I. destruct e as [|t b o]; auto. apply SAY in I. destruct I as [k ->]. reflexivity. }
  assert (F : forward_trace tr).
  { apply Forall_forall. intros e I. destruct e as [|t b o]; [exact Logic.I|]. apply SAY in I. destruct I as [k ->]. unfold says.
    destruct (DB b) as (p0 & q0 & G1 & G2). apply gap_forward in G1, G2. cbn. destruct (Nat.even k); [destruct (dp b)|destruct (dq b)]; auto. }
  assert (FS : sh = true -> fair_shuffle (toggle_user dp dq shuffle)).
  { intros _ l [w0 c0]. cbn. specialize (P l (fw_rest w0)). destruct (shuffle l (fw_rest w0)). exact P. }
  destruct (trace_wakeup _ _ _ _ _ _ _ _ _ FS (nonneg_fin di DI) Q NE F A) as (t1 & rest & pend & FI & TT & PE).
  assert (T1 : t1 = Fin t0).
  { assert (J : In (EvAdd (Fin t0) a) (filter (about a) tr)) by (apply filter_In; cbn; rewrite Nat.eqb_refl; auto).
    assert (L : filter (is_add_of a) (filter (about a) tr) = filter (is_add_of a) tr).
    { clear. induction tr as [|[t b|t b o] tr IH]; cbn; auto; destruct (Nat.eqb a b) eqn:E; cbn; rewrite ?E, ?IH; auto. }
    unfold adds_of in A. rewrite <- L, FI in A. cbn in A. rewrite Nat.eqb_refl in A. cbn in A. injection A as A.
    rewrite FI in J. destruct J as [J|J]; [now injection J|].
    assert (J2 : In (EvAdd (Fin t0) a) (filter (is_add_of a) rest)) by (apply filter_In; cbn; rewrite Nat.eqb_refl; auto).
    destruct (filter (is_add_of a) rest); [contradiction|discriminate]. }
  subst t1. assert (AC : acts_of a tr = acts_of a rest) by (rewrite acts_of_about, FI; reflexivity).
  destruct (track dp dq shuffle sh _ h g s _ tr a Ho Q) as [[S1 _] SA]. rewrite AC in S1, SA.
  assert (T0 : Fin t0 = Fin (toggle_at t0 p q 0)) by (unfold toggle_at; f_equal; cbn; lia).
  destruct (times_from dp dq a di p q t0 rest pend _ GP GQ TT 0 T0 SA) as [I1 ->].
  rewrite instants_acts, map_length, AC. split; [exact I1|]. split; [exact PE|].
  unfold state_id. cbn [fst] in S1. rewrite S1. cbn [fa_cur option_map]. now destruct (Nat.even _).
Qed.
End Times.
