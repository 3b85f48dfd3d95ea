(** Proofs about agents that leave their first state for good. *)
From Coq Require Import ZArith List Bool Arith String Lia Permutation.
From Verif Require Import Num PyDict TimedModel TimedSpec TimedProofs TraceProofs AgentModel AgentProofs FsmModel TutorSpec TutorProofs ToggleModel ToggleSpec
  ToggleProofs ResumeModel ResumeSpec ResumeProofs DecorModel DecorSpec.
Import ListNotations.
Local Open Scope nat_scope.
Local Open Scope list_scope.

Section Act.
Context {AR : Arith} {R : Type}.
Variable (shuffle : list aid -> R -> R * list aid).
Notation X := (fworld dfn ((aid -> nat) * R) * cors (frame dfn))%type.
Notation u := (decor_user shuffle).
Notation K := (KFsm (fst (meta decor_class))).
Notation count l b := (count_occ Nat.eq_dec l b).
Definition well (a : aid) (k : nat) (x : X) : Prop :=
  fw_agents (fst x) a = FAgent K true (Some (match k with O => d_root | S _ => d_other end)) /\ get_co (snd x) a = None /\ times_run x a = pred k.
Lemma decor_act s a (x x' : X) ops o k : agent_step decor_code (fun _ => None) s a x = (x', ops, o) -> well a k x ->
  o = Ret None /\ well a (S k) x' /\ forall b j, b <> a -> well b j x -> well b j x'.
Proof.
  intros E (A & C & T). destruct x as [w c]. cbn [fst snd] in A, C. unfold times_run in T. cbn [fst] in T.
  unfold agent_step, decorated in E. cbn [fst snd] in E. rewrite C in E.
  cbn [send step_gen] in E. rewrite A in E. cbn [fa_kind fa_alive fa_cur negb] in E. unfold inside in E. unfold well, times_run.
  destruct k as [|k]; cbn [st_fun d_root d_other decor_code c_start c_resume run_fops fw_agents] in E; rewrite A in E; cbn [fa_kind] in E; unfold finish in E;
    cbn [fw_agents] in E; rewrite A in E; cbn in E; injection E as <- <- <-; (split; [reflexivity|]); (split; [split; [|split]|]);
    cbn [fst snd fw_agents fw_rest upd]; unfold ran; rewrite ?get_set_co, ?Nat.eqb_refl; auto;
    try (rewrite T; reflexivity);
    (intros b j N (P1 & P2 & P3); apply Nat.eqb_neq in N; rewrite ?get_set_co, ?N; auto).
Qed.
Lemma well_settled a k (x : X) : well a k x -> exists i n, decor_id x a = Some i /\ times_run x a = n /\ settled k i n.
Proof.
  intros (A & _ & T). unfold decor_id. rewrite A, T. destruct k; cbn; eexists _, _; (split; [reflexivity|]); (split; [reflexivity|]); constructor.
Qed.
Lemma steps_all l : forall done (x : X), (forall b, well b (count done b) x) -> forall b, well b (count (done ++ map snd l) b) (decor_steps l x).
Proof.
  induction l as [|[s a] l IH]; intros done x H b; cbn [decor_steps map]. { now rewrite app_nil_r. }
  change (done ++ snd (s, a) :: map snd l) with (done ++ [a] ++ map snd l). rewrite app_assoc. apply IH. clear b. intros b.
  destruct (agent_step decor_code (fun _ => None) s a x) as [[x' ops] o] eqn:E. cbn [fst].
  destruct (decor_act s a x x' ops o _ E (H a)) as (_ & H1 & H2). rewrite count_snoc.
  destruct (Nat.eqb_spec a b) as [->|N]; auto.
Qed.
Lemma begins g b : well b 0 (decor_world (R := R) g).
Proof. repeat split. Qed.
Lemma decor_hist sh di h g s (x : X) tr : (forall f, ~ In (CWorld f) h) ->
  run_hist u h (timed_init sh di) (decor_world g) = (s, x, tr) -> forall b, well b (count (who tr) b) x.
Proof.
  intros Ho Q. refine (hist_all u (fun l x => forall b, well b (count l b) x) _ _ h Ho [] _ _ _ _ _ Q _).
  - intros l s0 b y y' ops o U J c. destruct (decor_act s0 b y y' ops o _ U (J b)) as (_ & H1 & H2). rewrite count_snoc.
    destruct (Nat.eqb_spec b c) as [->|N]; auto.
  - intros l b [w0 c0] J c. specialize (J c). cbn in J |- *. destruct (shuffle b (snd (fw_rest w0))) as [g' l']. exact J.
  - intros b. apply begins.
Qed.
Lemma decor_none sh di h g s (x : X) tr a : (forall f, ~ In (CWorld f) h) ->
  run_hist u h (timed_init sh di) (decor_world g) = (s, x, tr) -> forall t o, In (t, o) (acts_of a tr) -> o = Ret None.
Proof.
  intros Ho Q.
  set (J := fun (l : list (num * outcome)) (x : X) => (forall b, exists k, well b k x) /\ forall t o, In (t, o) l -> o = Ret None).
  enough (W : J (acts_of a tr) x) by apply W.
  refine (hist_track u a J _ _ h Ho [] _ _ _ _ _ Q _).
  - intros l s0 b y y' ops o U (K1 & K2). destruct (K1 b) as [k P]. destruct (decor_act s0 b y y' ops o k U P) as (-> & H1 & H2). split.
    + intros c. destruct (Nat.eq_dec c b) as [->|N]; [eauto|]. destruct (K1 c) as [j P2]. eauto.
    + destruct (Nat.eqb b a); auto. intros t o I. apply in_app_or in I. destruct I as [I|[I|[]]]; eauto. now injection I.
  - intros l b [w0 c0] (K1 & K2). split; auto. intros c. destruct (K1 c) as [k P]. exists k.
    cbn in P |- *. destruct (shuffle b (snd (fw_rest w0))) as [g' l']. exact P.
  - split; [|intros t o []]. intros b. exists 0. apply begins.
Qed.
End Act.

Section Times.
#[local] Existing Instance exact.
(** Agents of any kind that always leave the next instant to the scheduler. *)
Lemma default_times {W} (u : user W) sh di h w0 s x tr a t0 :
  (sh = true -> fair_shuffle u) -> (0 <= di)%Z -> run_hist u h (timed_init sh (Fin di)) w0 = (s, x, tr) ->
  (forall t b o, In (EvAct t b o) tr -> o = Ret None) -> adds_of a tr = 1 -> In (EvAdd (Fin t0) a) tr ->
  let n := List.length (instants a tr) in
  instants a tr = map (fun k => Fin (t0 + Z.of_nat k * di)) (seq 0 n) /\ n_leb (s_time s) (Fin (t0 + Z.of_nat n * di)) = true.
Proof.
  intros FS DI Q SAY A IA. cbn zeta.
  assert (NE : no_exc tr).
  { apply forallb_forall. intros e I. destruct e as [|t b o]; auto. apply SAY in I. now subst o. }
  assert (F : forward_trace tr).
  { apply Forall_forall. intros e I. destruct e as [|t b o]; [exact Logic.I|]. apply SAY in I. now subst o. }
  destruct (trace_wakeup _ _ _ _ _ _ _ _ _ FS (nonneg_fin di DI) Q NE F A) as (t1 & rest & pend & FI & TT & PE).
  assert (T1 : t1 = Fin t0).
  { assert (J : In (EvAdd (Fin t0) a) (filter (about a) tr)) by (apply filter_In; cbn; rewrite Nat.eqb_refl; auto).
    assert (L : filter (is_add_of a) (filter (about a) tr) = filter (is_add_of a) tr).
    { clear. induction tr as [|[t b|t b o] tr IH]; cbn; auto; destruct (Nat.eqb a b) eqn:E; cbn; rewrite ?E, ?IH; auto. }
    unfold adds_of in A. rewrite <- L, FI in A. cbn in A. rewrite Nat.eqb_refl in A. cbn in A. injection A as A.
    rewrite FI in J. destruct J as [J|J]; [now injection J|].
    assert (J2 : In (EvAdd (Fin t0) a) (filter (is_add_of a) rest)) by (apply filter_In; cbn; rewrite Nat.eqb_refl; auto).
    destruct (filter (is_add_of a) rest); [contradiction|discriminate]. }
  subst t1. assert (AC : acts_of a tr = acts_of a rest) by (rewrite acts_of_about, FI; reflexivity).
  assert (TA : forall k, toggle_at t0 di di k = (t0 + Z.of_nat k * di)%Z).
  { intros k. induction k as [|k IH]; [unfold toggle_at; cbn; lia|]. rewrite at_S, IH. destruct (Nat.even k); lia. }
  assert (T0 : Fin t0 = Fin (toggle_at t0 di di 0)) by (rewrite TA; f_equal; lia).
  destruct (times_from (fun _ => None) (fun _ => None) a di di di t0 rest pend _ (gap_none di) (gap_none di) TT 0 T0) as [I1 ->].
  { intros i t o I. apply nth_error_In in I. rewrite <- AC in I. unfold says. apply in_flat_map in I as (e & I & J).
    destruct e as [|t2 b o2]; [contradiction|]. destruct (Nat.eqb _ _) in J; [|contradiction]. destruct J as [J|[]]. injection J as <- <-.
    rewrite (SAY _ _ _ I). now destruct (Nat.even _). }
  rewrite instants_acts, map_length, AC. split.
  - rewrite I1. apply map_ext. intros k. now rewrite TA.
  - rewrite TA in PE. exact PE.
Qed.
Lemma decor_times {R} (shuffle : list aid -> R -> R * list aid) sh di h g s x tr a t0 :
  (forall l g, Permutation l (snd (shuffle l g))) -> (forall f, ~ In (CWorld f) h) -> (0 <= di)%Z ->
  run_hist (decor_user shuffle) h (timed_init sh (Fin di)) (decor_world g) = (s, x, tr) ->
  adds_of a tr = 1 -> In (EvAdd (Fin t0) a) tr ->
  let n := List.length (instants a tr) in
  instants a tr = map (fun k => Fin (t0 + Z.of_nat k * di)) (seq 0 n) /\ n_leb (s_time s) (Fin (t0 + Z.of_nat n * di)) = true.
Proof.
  intros P Ho DI Q A IA. apply (default_times (decor_user shuffle) sh di h (decor_world g) s x tr a t0); auto.
  - intros _ l [w0 c0]. cbn. specialize (P l (snd (fw_rest w0))). destruct (shuffle l (snd (fw_rest w0))). exact P.
  - intros t b o I. apply (decor_none shuffle sh _ h g s x tr b Ho Q t).
    apply in_flat_map. eexists. split; [exact I|]. cbn. rewrite Nat.eqb_refl. now left.
Qed.
End Times.
