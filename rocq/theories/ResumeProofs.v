(** Proofs about agents whose step is a generator with a loop. *)
From Coq Require Import ZArith List Bool Arith String Lia Permutation.
From Verif Require Import Num PyDict TimedModel TimedSpec TimedProofs TraceProofs AgentModel AgentProofs FsmModel TutorSpec TutorProofs ToggleModel ToggleSpec ToggleProofs
  ResumeModel ResumeSpec.
Import ListNotations.
Local Open Scope nat_scope.
Local Open Scope list_scope.

(** The agents that were activated, in order. *)
Definition who (tr : list ev) : list aid := flat_map (fun e => match e with EvAct _ b _ => [b] | EvAdd _ _ => [] end) tr.
Lemma who_app l1 l2 : who (l1 ++ l2) = who l1 ++ who l2.
Proof. apply flat_map_app. Qed.

(** A statement about all activations and the world, along a history. *)
Section All.
Context {AR : Arith} {W : Type}.
Variables (u : user W) (I : list aid -> W -> Prop).
Hypothesis H1 : forall l s b w w' ops o, u_step u s b w = (w', ops, o) -> I l w -> I (l ++ [b]) w'.
Hypothesis H2 : forall l b w, I l w -> I l (fst (u_shuffle u b w)).
Lemma who_ops s ops : who (snd (run_ops s ops)) = [].
Proof.
  revert s. induction ops as [|op ops IH]; intros s; cbn [run_ops]; auto.
  destruct (run_op s op) as [s1 e1] eqn:O. specialize (IH s1). destruct (run_ops s1 ops) as [s2 e2]. cbn [snd] in *.
  rewrite who_app, IH, app_nil_r. destruct op; cbn in O; injection O as <- <-; reflexivity.
Qed.
Lemma bucket_all now b : forall l s w s' w' tr x, run_bucket u now b s w = (s', w', tr, x) -> I l w -> I (l ++ who tr) w'.
Proof.
  induction b as [|c b IH]; cbn [run_bucket]; intros l s w s' w' tr x E J.
  { injection E as <- <- <- <-. cbn. rewrite app_nil_r. auto. }
  destruct (u_step u s c w) as [[w1 ops] o] eqn:U. apply (H1 l) in U; auto.
  pose proof (who_ops s ops) as AO. destruct (run_ops s ops) as [s1 tr1] eqn:O. cbn [snd] in AO.
  assert (K : I (l ++ who (tr1 ++ [EvAct now c o])) w1) by (rewrite who_app, AO; exact U).
  destruct o as [d| |].
  - destruct (run_bucket u now b _ w1) as [[[s3 w3] tr3] x3] eqn:B. injection E as <- <- <- <-.
    rewrite who_app, app_assoc. eapply IH; [exact B|exact K].
  - destruct (run_bucket u now b _ w1) as [[[s3 w3] tr3] x3] eqn:B. injection E as <- <- <- <-.
    rewrite who_app, app_assoc. eapply IH; [exact B|exact K].
  - injection E as <- <- <- <-. auto.
Qed.
Lemma tstep_all l s w s' w' tr x : timed_step u s w = (s', w', tr, x) -> I l w -> I (l ++ who tr) w'.
Proof.
  unfold timed_step. destruct (s_queue s) as [|[t b] q].
  { intros E J. injection E as <- <- <- <-. now rewrite app_nil_r. }
  destruct (n_ltb _ t). { intros E J. injection E as <- <- <- <-. now rewrite app_nil_r. }
  intros E J.
  assert (K : I l (fst (if s_shuffle s then u_shuffle u b w else (w, b)))) by (destruct (s_shuffle s); auto).
  destruct (if s_shuffle s then u_shuffle u b w else (w, b)) as [w0 b0]. cbn [fst] in K.
  destruct (run_bucket u (s_time s) b0 _ w0) as [[[s1 w1] tr1] x1] eqn:B.
  pose proof (bucket_all (s_time s) b0 l (set_queue s q) w0 s1 w1 tr1 x1 B K) as R.
  destruct x1; injection E as <- <- <- <-; auto.
Qed.
Lemma hist_all h : (forall f, ~ In (CWorld f) h) -> forall l s w s' w' tr, run_hist u h s w = (s', w', tr) -> I l w -> I (l ++ who tr) w'.
Proof.
  induction h as [|c h IH]; cbn [run_hist]; intros Ho l s w s' w' tr E J.
  { injection E as <- <- <-. now rewrite app_nil_r. }
  destruct (run_cmd u s w c) as [[s1 w1] tr1] eqn:C. destruct (run_hist u h s1 w1) as [[s2 w2] tr2] eqn:R.
  injection E as <- <- <-. rewrite who_app, app_assoc.
  eapply IH; [intros f Hf; apply (Ho f); now right|exact R|].
  destruct c; cbn [run_cmd] in C.
  - destruct (timed_step u s w) as [[[s3 w3] tr3] x3] eqn:T. injection C as <- <- <-. eapply tstep_all; eauto.
  - injection C as <- <- <-. cbn. now rewrite app_nil_r.
  - injection C as <- <- <-. cbn. now rewrite app_nil_r.
  - destruct (Ho f). now left.
Qed.
End All.

Lemma resumed_S n k : resumed n (S k) = resumed n k + (if k mod (n + 1) =? 0 then 0 else 1).
Proof. unfold resumed. rewrite seq_S, filter_app, app_length. cbn. now destruct (k mod (n + 1) =? 0). Qed.
Lemma mod_S n k : S k mod (n + 1) = if k mod (n + 1) =? n then 0 else S (k mod (n + 1)).
Proof.
  assert (B : k mod (n + 1) < n + 1) by (apply Nat.mod_upper_bound; lia).
  pose proof (Nat.div_mod k (n + 1) ltac:(lia)) as D.
  destruct (Nat.eqb_spec (k mod (n + 1)) n) as [E|E].
  - symmetry. apply (Nat.mod_unique _ _ (S (k / (n + 1)))); [lia|]. rewrite E in D. lia.
  - symmetry. apply (Nat.mod_unique _ _ (k / (n + 1))); lia.
Qed.

Section Act.
Context {AR : Arith} {R : Type}.
Variables (turns : aid -> nat) (shuffle : list aid -> R -> R * list aid).
Notation X := (fworld gfun (nat * R) * cors (frame gpoint))%type.
Notation u := (resume_user turns shuffle).
Definition place (n k : nat) :=
  match k mod (n + 1) with O => None | S i => Some (GSusp (FIn (GAt i))) end.
Definition ok (a : aid) (k : nat) (x : X) : Prop :=
  fw_agents (fst x) a = FAgent (KPlain GStep) true None /\ get_co (snd x) a = place (turns a) k.
Notation total x := (fst (fw_rest (fst x))).

Lemma act s a (x x' : X) ops o k : u_step u s a x = (x', ops, o) -> ok a k x ->
  o = Ret None /\ ok a (S k) x' /\ (forall b j, b <> a -> ok b j x -> ok b j x') /\
  total x' = total x + (if k mod (turns a + 1) =? 0 then 0 else 1).
Proof.
  intros E [A C]. destruct x as [w c]. cbn [fst snd] in A, C. unfold place in C.
  assert (B : k mod (turns a + 1) < turns a + 1) by (apply Nat.mod_upper_bound; lia).
  cbn [u_step resume_user agent_user] in E. unfold agent_step, decorated in E. cbn [fst snd] in E. rewrite C in E.
  unfold ok, place. rewrite mod_S.
  destruct (k mod (turns a + 1)) as [|i] eqn:M.
  - cbn [send step_gen] in E. rewrite A in E. cbn [fa_kind] in E. unfold inside in E. cbn [resume_code c_resume c_start] in E. unfold turn in E.
    destruct (0 <? turns a) eqn:L; cbn [run_fops fw_agents] in E; rewrite ?A in E; cbn in E; injection E as <- <- <-.
    + apply Nat.ltb_lt in L. destruct (Nat.eqb_spec 0 (turns a)); [lia|]. split; auto. split; [|split].
      * cbn [fst snd fw_agents]. rewrite get_set_co, Nat.eqb_refl. auto.
      * intros b j N P. destruct P as [P1 P2]. cbn [fst snd fw_agents] in *. rewrite !get_set_co. apply Nat.eqb_neq in N. rewrite N. auto.
      * cbn. lia.
    + apply Nat.ltb_ge in L. destruct (Nat.eqb_spec 0 (turns a)); [|lia]. split; auto. split; [|split].
      * cbn [fst snd fw_agents]. rewrite get_set_co, Nat.eqb_refl. auto.
      * intros b j N P. destruct P as [P1 P2]. cbn [fst snd fw_agents] in *. rewrite !get_set_co. apply Nat.eqb_neq in N. rewrite N. auto.
      * cbn. lia.
  - cbn [send step_gen] in E. unfold inside in E. cbn [resume_code c_resume c_start] in E. unfold turn in E.
    destruct (S i <? turns a) eqn:L; cbn [run_fops fw_agents] in E; rewrite ?A in E; cbn in E; injection E as <- <- <-.
    + apply Nat.ltb_lt in L. destruct (Nat.eqb_spec (S i) (turns a)); [lia|]. split; auto. split; [|split].
      * cbn [fst snd fw_agents]. rewrite get_set_co, Nat.eqb_refl. auto.
      * intros b j N P. destruct P as [P1 P2]. cbn [fst snd fw_agents] in *. rewrite !get_set_co. apply Nat.eqb_neq in N. rewrite N. auto.
      * cbn. lia.
    + apply Nat.ltb_ge in L. destruct (Nat.eqb_spec (S i) (turns a)); [|lia]. split; auto. split; [|split].
      * cbn [fst snd fw_agents]. rewrite get_set_co, Nat.eqb_refl. auto.
      * intros b j N P. destruct P as [P1 P2]. cbn [fst snd fw_agents] in *. rewrite !get_set_co. apply Nat.eqb_neq in N. rewrite N. auto.
      * cbn. lia.
Qed.
Notation count l b := (count_occ Nat.eq_dec l b).
Definition sum (l ids : list aid) : nat := list_sum (map (fun b => resumed (turns b) (count l b)) ids).
Lemma count_snoc l b a : count (l ++ [b]) a = if Nat.eqb b a then S (count l a) else count l a.
Proof.
  rewrite count_occ_app. cbn. destruct (Nat.eq_dec b a) as [->|N]; [rewrite Nat.eqb_refl; lia|]. apply Nat.eqb_neq in N. rewrite N. lia.
Qed.
Lemma sum_snoc l b ids : NoDup ids -> In b ids -> sum (l ++ [b]) ids = sum l ids + (if count l b mod (turns b + 1) =? 0 then 0 else 1).
Proof.
  unfold sum. intros ND I.
  assert (N : forall ids, ~ In b ids -> map (fun c => resumed (turns c) (count (l ++ [b]) c)) ids = map (fun c => resumed (turns c) (count l c)) ids).
  { clear. induction ids as [|c ids IH]; intros N; auto. cbn [map]. rewrite IH by (intros I; apply N; now right). f_equal. f_equal.
    rewrite count_snoc. destruct (Nat.eqb_spec b c) as [->|]; auto. elim N. now left. }
  induction ids as [|c ids IH]; [contradiction|]. inversion ND as [|y z N1 N2]; subst. cbn [map list_sum fold_right]. fold (list_sum (map (fun b0 => resumed (turns b0) (count (l ++ [b]) b0)) ids)).
  fold (list_sum (map (fun b0 => resumed (turns b0) (count l b0)) ids)).
  destruct (Nat.eq_dec c b) as [->|NE].
  - rewrite N by exact N1. rewrite count_snoc, Nat.eqb_refl, resumed_S. lia.
  - destruct I as [->|I]; [now elim NE|]. rewrite IH by auto. rewrite count_snoc.
    destruct (Nat.eqb_spec b c) as [->|]; [now elim NE|]. lia.
Qed.
Lemma resume_all sh di h g s x tr : (forall f, ~ In (CWorld f) h) ->
  run_hist u h (timed_init sh di) (resume_world g) = (s, x, tr) ->
  (forall b, ok b (count (who tr) b) x) /\ forall ids, NoDup ids -> incl (who tr) ids -> total x = sum (who tr) ids.
Proof.
  intros Ho Q.
  refine (hist_all u (fun l x => (forall b, ok b (count l b) x) /\ forall ids, NoDup ids -> incl l ids -> total x = sum l ids) _ _ h Ho [] _ _ _ _ _ Q _).
  - intros l s0 b y y' ops o U (K1 & K2). destruct (act _ _ _ _ _ _ _ U (K1 b)) as (_ & O & H & T). split.
    + intros c. rewrite count_snoc. destruct (Nat.eqb_spec b c) as [->|N]; auto.
    + intros ids ND IN. rewrite sum_snoc; auto; [|apply IN, in_or_app; right; now left]. rewrite T, (K2 ids ND); auto.
      intros c I. apply IN, in_or_app. now left.
  - intros l b y (K1 & K2). destruct y as [w0 c0].
    assert (H : forall a k, ok a k (w0, c0) -> ok a k (fst (u_shuffle u b (w0, c0)))).
    { intros a0 k P. cbn in P |- *. destruct (shuffle b (snd (fw_rest w0))) as [g' l']. exact P. }
    split; auto. intros ids ND IN. rewrite <- (K2 ids ND IN). cbn. destruct (shuffle b (snd (fw_rest w0))). reflexivity.
  - split; [intros b; split; [reflexivity|]|].
    + unfold place. cbn [count_occ]. rewrite Nat.mod_0_l by lia. reflexivity.
    + intros ids _ _. cbn. unfold sum. induction ids as [|c ids IH]; auto.
Qed.
Lemma resume_none sh di h g s x tr a : (forall f, ~ In (CWorld f) h) ->
  run_hist u h (timed_init sh di) (resume_world g) = (s, x, tr) -> forall t o, In (t, o) (acts_of a tr) -> o = Ret None.
Proof.
  intros Ho Q.
  set (J := fun (l : list (num * outcome)) (x : X) => (forall b, exists k, ok b k x) /\ forall t o, In (t, o) l -> o = Ret None).
  enough (K : J (acts_of a tr) x) by apply K.
  refine (hist_track u a J _ _ h Ho [] _ _ _ _ _ Q _).
  - intros l s0 b y y' ops o U (K1 & K2). destruct (K1 b) as [k K]. destruct (act _ _ _ _ _ _ _ U K) as (-> & O & H & T). split.
    + intros c. destruct (Nat.eq_dec c b) as [->|N]; [eauto|]. destruct (K1 c) as [j P]. eauto.
    + destruct (Nat.eqb b a); auto. intros t o I. apply in_app_or in I. destruct I as [I|[I|[]]]; eauto. now injection I.
  - intros l b y (K1 & K2). split; auto. intros c. destruct (K1 c) as [k P]. exists k. destruct y as [w0 c0].
    cbn in P |- *. destruct (shuffle b (snd (fw_rest w0))) as [g' l']. exact P.
  - split; [|intros t o []]. intros b. exists 0. split; [reflexivity|]. unfold place. rewrite Nat.mod_0_l by lia. reflexivity.
Qed.
End Act.

Lemma count_instants tr a : count_occ Nat.eq_dec (who tr) a = List.length (instants a tr).
Proof.
  rewrite instants_acts, map_length. induction tr as [|[t b|t b o] tr IH]; auto.
  cbn [who acts_of flat_map app]. fold (who tr). fold (acts_of a tr). cbn [count_occ].
  destruct (Nat.eq_dec b a) as [->|N]; [rewrite Nat.eqb_refl; cbn; now rewrite IH|]. apply Nat.eqb_neq in N. rewrite N. exact IH.
Qed.
Lemma who_in tr a : In a (who tr) <-> exists t o, In (EvAct t a o) tr.
Proof.
  unfold who. rewrite in_flat_map. split.
  - intros (e & I & J). destruct e as [|t b o]; [contradiction|]. destruct J as [->|[]]. eauto.
  - intros (t & o & I). exists (EvAct t a o). split; auto. now left.
Qed.
Lemma resume_count {AR : Arith} {R} turns (shuffle : list aid -> R -> R * list aid) sh di h g s w c tr ids :
  (forall f, ~ In (CWorld f) h) -> run_hist (resume_user turns shuffle) h (timed_init sh di) (resume_world g) = (s, (w, c), tr) ->
  everybody ids tr -> fst (fw_rest w) = list_sum (map (fun a => resumed (turns a) (List.length (instants a tr))) ids).
Proof.
  intros Ho Q [ND AL]. destruct (resume_all turns shuffle sh di h g s (w, c) tr Ho Q) as [_ T]. cbn [fst] in T. rewrite (T ids ND).
  - unfold sum. f_equal. apply map_ext. intros a. now rewrite count_instants.
  - intros a I. apply who_in in I. destruct I as (t & o & I). eauto.
Qed.

Section Times.
#[local] Existing Instance exact.
Lemma resume_times {R} turns (shuffle : list aid -> R -> R * list aid) sh di h g s x tr a t0 :
  (forall l g, Permutation l (snd (shuffle l g))) -> (forall f, ~ In (CWorld f) h) -> (0 <= di)%Z ->
  run_hist (resume_user turns shuffle) h (timed_init sh (Fin di)) (resume_world g) = (s, x, tr) ->
  adds_of a tr = 1 -> In (EvAdd (Fin t0) a) tr ->
  let n := List.length (instants a tr) in
  instants a tr = map (fun k => Fin (t0 + Z.of_nat k * di)) (seq 0 n) /\ n_leb (s_time s) (Fin (t0 + Z.of_nat n * di)) = true.
Proof.
  intros P Ho DI Q A IA. cbn zeta.
  assert (SAY : forall t b o, In (EvAct t b o) tr -> o = Ret None).
  { intros t b o I. apply (resume_none turns shuffle sh _ h g s x tr b Ho Q t).
    apply in_flat_map. eexists. split; [exact I|]. cbn. rewrite Nat.eqb_refl. now left. }
  assert (NE : no_exc tr).
  { apply forallb_forall. intros e I. destruct e as [|t b o]; auto. apply SAY in I. now subst o. }
  assert (F : forward_trace tr).
  { apply Forall_forall. intros e I. destruct e as [|t b o]; [exact Logic.I|]. apply SAY in I. now subst o. }
  assert (FS : sh = true -> fair_shuffle (resume_user turns shuffle)).
  { intros _ l [w0 c0]. cbn. specialize (P l (snd (fw_rest w0))). destruct (shuffle l (snd (fw_rest w0))). exact P. }
  destruct (trace_wakeup _ _ _ _ _ _ _ _ _ FS (nonneg_fin di DI) Q NE F A) as (t1 & rest & pend & FI & TT & PE).
  assert (T1 : t1 = Fin t0).
  { assert (J : In (EvAdd (Fin t0) a) (filter (about a) tr)) by (apply filter_In; cbn; rewrite Nat.eqb_refl; auto).
    assert (L : filter (is_add_of a) (filter (about a) tr) = filter (is_add_of a) tr).
    { clear. induction tr as [|[t b|t b o] tr IH]; cbn; auto; destruct (Nat.eqb a b) eqn:E; cbn; rewrite ?E, ?IH; auto. }
    unfold adds_of in A. rewrite <- L, FI in A. cbn in A. rewrite Nat.eqb_refl in A. cbn in A. injection A as A.
    rewrite FI in J. destruct J as [J|J]; [now injection J|].
    assert (J2 : In (EvAdd (Fin t0) a) (filter (is_add_of a) rest)) by (apply filter_In; cbn; rewrite Nat.eqb_refl; auto).
    destruct (filter (is_add_of a) rest); [contradiction|discriminate]. }
  subst t1. assert (AC : acts_of a tr = acts_of a rest) by (rewrite acts_of_about, FI; reflexivity).
  assert (TA : forall k, toggle_at t0 di di k = (t0 + Z.of_nat k * di)%Z).
  { intros k. induction k as [|k IH]; [unfold toggle_at; cbn; lia|]. rewrite at_S, IH. destruct (Nat.even k); lia. }
  assert (T0 : Fin t0 = Fin (toggle_at t0 di di 0)) by (rewrite TA; f_equal; lia).
  destruct (times_from (fun _ => None) (fun _ => None) a di di di t0 rest pend _ (gap_none di) (gap_none di) TT 0 T0) as [I1 ->].
  { intros i t o I. apply nth_error_In in I. rewrite <- AC in I. unfold says. rewrite (resume_none turns shuffle sh _ h g s x tr a Ho Q t o I). now destruct (Nat.even _). }
  rewrite instants_acts, map_length, AC. split.
  - rewrite I1. apply map_ext. intros k. now rewrite TA.
  - rewrite TA in PE. exact PE.
Qed.
End Times.
