(** C167-C177: the terrorism example. *)
From Coq Require Import ZArith QArith List Bool Arith String Permutation Lia Lqa.
From Verif Require Import Num PyDict TimedModel AgentModel FsmModel FsmProofs PlainProofs TerrorModel TerrorSpec TerrorProofs.
Import ListNotations.
Local Open Scope string_scope.

(** The attributes of the classes as they are, something like a power, a society of two or three people, a training
    area and a haven, agents in order. *)
#[local] Instance wholes : Arith := exact.
Definition as_written : attrs :=
  Attrs (1 # 10) (1 # 10) 0 1 (1 # 10) 0 (1 # 10) 0 (1 # 2) (1 # 2) (1 # 5).
Definition some_pow (x y : Q) : Q := x + (1 - y) * (1 - x) * x.
Definition some_lib : library :=
  Library some_pow (fun g a => degree_centrality (Config as_written 0 (fun _ => ASpread) 5) g a)
    (fun _ _ => Some []) (fun _ _ => Some []) (fun _ a b => if Nat.eqb a b then Some 0%nat else Some 1%nat) (fun _ _ => Some 0%Q).
Definition village (person_kind : akind) : config :=
  Config as_written (1 # 2) (fun a => if (a <=? 2)%nat then person_kind else if Nat.eqb a 3 then ATraining else AHaven) 5.
Definition ids (a : aid) : option string :=
  match a with 1%nat => Some "terrorist" | 2%nat => Some "leader" | _ => None end.
Definition roads : graph := [(0, 1); (1, 2); (0, 3); (4, 0)]%nat.
Definition half (_ : aid) : Q := 1 # 2.
Definition in_turn (l : list aid) (r : trest) : trest * list aid := (r, l).
Definition days k draws n := society_run (village k) some_lib in_turn true (Fin 1) ids roads half half draws n.
Definition sched_of {X Y Z} (t : X * Y * Z) : X := fst (fst t).
Definition world_of {X Y Y' Z} (t : X * (Y * Y') * Z) : Y := fst (snd (fst t)).
Definition cors_of {X Y Y' Z} (t : X * (Y * Y') * Z) : Y' := snd (snd (fst t)).
Lemma written_sound : sound as_written.
Proof. unfold sound, share. cbn. repeat split; discriminate. Qed.
Lemma some_powers : powers (l_pow some_lib).
Proof.
  intros x y [A B] [C D]. cbn. unfold some_pow.
  assert (P : (0 <= (1 - y) * (1 - x) * x)%Q) by (apply Qmult_le_0_compat; [apply Qmult_le_0_compat|]; lra).
  assert (Q1 : (0 <= (1 - x) * x)%Q) by (apply Qmult_le_0_compat; lra).
  assert (Q2 : (0 <= (1 - x) * (1 - x))%Q) by (apply Qmult_le_0_compat; lra).
  assert (Q3 : (0 <= y * ((1 - x) * x))%Q) by (apply Qmult_le_0_compat; lra).
  split; [lra|]. nra.
Qed.
Lemma turn_fair : fair in_turn.
Proof. intros l r. cbn. split; [apply Permutation_refl|]. exists (te_draws r). now destruct r. Qed.
Lemma ids_valid k : is_spread k = true -> forall a, valid_id (cf_kind (village k) a) (ids a).
Proof. intros K [|[|[|a]]]; cbn; auto; destruct k; try discriminate; cbn; auto. Qed.
Lemma half_share a : share (half a).
Proof. split; discriminate. Qed.
Lemma lived k draws n : is_spread k = true -> let t := days k draws n in reached (village k) some_lib (sched_of t) (world_of t) (cors_of t).
Proof.
  intros K t. exists wholes, in_turn, true, (Fin 1), ids, roads, half, half, draws, n, (snd t).
  split; [exact turn_fair|]. split; [now apply ids_valid|]. split; [exact half_share|]. split; [exact half_share|].
  change (days k draws n = (sched_of t, (world_of t, cors_of t), snd t)). fold t. unfold sched_of, world_of, cors_of.
  destruct t as [[s [w c]] tr]. reflexivity.
Qed.
Definition names (w : tworld) (l : list aid) : list string :=
  map (fun a => match fa_cur (fw_agents w a) with Some st => st_name st | None => "" end) l.
Definition always (_ : nat) : Q := 0.
Definition never (_ : nat) : Q := 9 # 10.

(** C167 is false: if an agent of TerroristNetworkModel starts as a leader, as in the example, an exception is raised in
    the first step. *)
Theorem C167_first_step_refuted :
  forall (AR : Arith) cf lib shuffle ordered di ids g d1 d2 draws n a,
  powers (l_pow lib) -> sound (cf_attrs cf) -> fair shuffle -> (forall a, valid_id (cf_kind cf a) (ids a)) ->
  (forall a, share (d1 a)) -> (forall a, share (d2 a)) ->
  (a < cf_nodes cf)%nat -> cf_kind cf a = ANetwork -> ids a = Some "leader" ->
  some_raise (snd (society_run cf lib shuffle ordered di ids g d1 d2 draws (S n))).
Proof. intros AR cf lib shuffle ordered di ids g d1 d2 draws n a P S. exact (first_step_raises cf lib P S shuffle ordered di ids g d1 d2 draws n a). Qed.
Print Assumptions C167_first_step_refuted.
(** In all runs, each activation of such an agent that is a leader or a terrorist is an exception (unless it was
    activated and raised before). *)
Theorem C167_each_activation_refuted :
  forall cf lib s w c a fs w' c' l o, powers (l_pow lib) -> sound (cf_attrs cf) -> reached cf lib s w c ->
  cf_kind cf a = ANetwork -> ~ in_state "civilian" w a -> get_co c a = None ->
  agent_step (terror_code cf lib) fs s a (w, c) = (w', c', l, o) -> o = Exc.
Proof.
  intros cf lib s w c a fs w' c' l o P S R K N G E. pose proof (reached_inv cf lib P S s w c R) as I.
  pose proof I as [_ EV]. destruct (EV a) as (st & OK). cbn [fst] in OK.
  apply (network_raises cf lib fs s a w c w' c' l o st I K); [apply OK| |exact G|exact E].
  intros X. apply N. exists st. split; [apply OK|exact X].
Qed.
Print Assumptions C167_each_activation_refuted.
(** Without that class, nothing is ever raised. *)
Theorem C167_no_network_partial :
  forall (AR : Arith) cf lib shuffle ordered di ids g d1 d2 draws n,
  powers (l_pow lib) -> sound (cf_attrs cf) -> fair shuffle -> (forall a, valid_id (cf_kind cf a) (ids a)) ->
  (forall a, share (d1 a)) -> (forall a, share (d2 a)) -> (forall a, cf_kind cf a <> ANetwork) ->
  ~ some_raise (snd (society_run cf lib shuffle ordered di ids g d1 d2 draws n)).
Proof. intros AR cf lib shuffle ordered di ids g d1 d2 draws n P S FA V D1 D2 C. exact (calm_run cf lib P S C shuffle ordered di ids g d1 d2 draws n FA V D1 D2). Qed.
Print Assumptions C167_no_network_partial.
Example C167_not_vacuous :
  some_raise (snd (days ANetwork always 1)) /\
  map (fun e => match e with EvAct _ _ Exc => true | _ => false end) (snd (days ANetwork always 1)) =
    [false; false; false; false; false; false; true] /\
  (forall a, cf_kind (village ASpread) a <> ANetwork) /\ List.length (snd (days ASpread always 3)) = 20%nat.
Proof.
  split.
  { exact (C167_first_step_refuted wholes (village ANetwork) some_lib in_turn true (Fin 1) ids roads half half always 0 2
      some_powers written_sound turn_fair (ids_valid ANetwork eq_refl) half_share half_share ltac:(cbn; lia) eq_refl eq_refl). }
  split; [vm_compute; reflexivity|]. split; [|vm_compute; reflexivity].
  intros a. cbn. destruct (a <=? 2)%nat; [discriminate|]. destruct (Nat.eqb a 3); discriminate.
Qed.

(** C168: beliefs and vulnerabilities are between 0 and 1. *)
Theorem C168_shares :
  forall cf lib s w c a, powers (l_pow lib) -> sound (cf_attrs cf) -> reached cf lib s w c ->
  share (believes w a) /\ share (vulnerable w a).
Proof.
  intros cf lib s w c a P S R. destruct (reached_inv cf lib P S s w c R) as [_ EV]. destruct (EV a) as (st & OK). split; apply OK.
Qed.
Print Assumptions C168_shares.
(** No activation of another agent changes the belief. *)
Theorem C168_own_belief :
  forall cf lib s w c a fs w' c' l o b, powers (l_pow lib) -> sound (cf_attrs cf) -> reached cf lib s w c ->
  agent_step (terror_code cf lib) fs s a (w, c) = (w', c', l, o) -> b <> a -> believes w' b = believes w b.
Proof.
  intros cf lib s w c a fs w' c' l o b P S R E N.
  destruct (society_step cf lib P S fs s a w c w' c' l o (reached_inv cf lib P S s w c R) E) as (_ & _ & OT & _).
  destruct (OT b N) as (_ & _ & X). exact X.
Qed.
Print Assumptions C168_own_belief.
(** In two days the civilian gets more radical, and so does the terrorist, which becomes the leader. *)
Example C168_not_vacuous :
  let t := days ASpread always 2 in
  reached (village ASpread) some_lib (sched_of t) (world_of t) (cors_of t) /\
  map (fun n => map (fun a => Qred (believes (world_of (days ASpread always n)) a)) [0; 1; 2]%nat) [0; 1; 2]%nat =
    [[1 # 4; 9 # 10; 1]; [113 # 400; 909 # 1000; 1]; [2496817 # 8000000; 9172719 # 10000000; 1]]%Q /\
  map (fun n => Qred (vulnerable (world_of (days ASpread always n)) 0%nat)) [0; 1; 2]%nat = [1 # 2; 189 # 400; 7162911 # 16000000]%Q /\
  map (fun n => names (world_of (days ASpread always n)) [0; 1; 2; 3; 4]%nat) [0; 1; 2]%nat =
    [["civilian"; "terrorist"; "leader"; "terrorist"; "civilian"]; ["civilian"; "terrorist"; "terrorist"; "terrorist"; "civilian"];
     ["civilian"; "leader"; "terrorist"; "terrorist"; "civilian"]].
Proof. cbv zeta. split; [exact (lived ASpread always 2 eq_refl)|]. repeat split; vm_compute; reflexivity. Qed.

(** C169 in part: the belief of a civilian moves to the mean of those that it meets, by some weight, so that it stays in
    each interval that has its own and theirs. *)
Theorem C169_meets_partial :
  forall cf lib s w c a fs w' c' l o, powers (l_pow lib) -> sound (cf_attrs cf) -> reached cf lib s w c ->
  person cf a -> in_state "civilian" w a -> get_co c a = None ->
  agent_step (terror_code cf lib) fs s a (w, c) = (w', c', l, o) -> o <> Exc ->
  exists around, (forall b, In b around <-> near cf s w a b) /\
  (around = [] -> believes w' a = believes w a) /\
  let k := met (cf_interaction cf) (te_draws (fw_rest w)) around in
  (k <> [] ->
   (exists weight, (forall b, 0 <= weight b)%Q /\
      (believes w' a == believes w a + intensity (cf_attrs cf) * vulnerable w a * (mean_by weight (believes w) k - believes w a))%Q) /\
   (forall lo hi, (lo <= believes w a <= hi)%Q -> (forall b, In b k -> (lo <= believes w b <= hi)%Q) -> (lo <= believes w' a <= hi)%Q)).
Proof.
  intros cf lib s w c a fs w' c' l o P S R PE ST G E NE. pose proof (reached_inv cf lib P S s w c R) as I.
  destruct (civilian_effect cf lib fs s a w c w' c' l o I PE ST G E NE) as (ar & IN & N0 & N1).
  exists ar. split; [exact IN|]. split; [exact N0|]. intros k K.
  destruct ar as [|b0 ar0]; [now destruct K|]. destruct (N1 ltac:(discriminate)) as [_ H]. fold k in H.
  destruct (H K) as (_ & g & _ & _ & NZ & EQ). split.
  - exists (degree_centrality cf g). split; [intros b; apply degree_nonneg|exact EQ].
  - intros lo hi [L1 L2] B. rewrite EQ.
    destruct (mean_between (degree_centrality cf g) (believes w) k lo hi) as [M1 M2]; auto.
    { intros b _. apply degree_nonneg. }
    set (m := mean_by _ _ _) in *. destruct I as [_ EV]. destruct (EV a) as (st & OK). cbn [fst] in OK.
    destruct (po_vuln _ _ _ _ OK) as [V1 V2]. fold (vulnerable w a) in V1, V2.
    destruct S as ([I1 I2] & _). set (i := intensity (cf_attrs cf)) in *. set (v := vulnerable w a) in *. set (x := believes w a) in *.
    assert (T1 : (0 <= i * v)%Q) by (apply Qmult_le_0_compat; lra). assert (T3 : (0 <= (1 - i) * v)%Q) by (apply Qmult_le_0_compat; lra).
    assert (T2 : (i * v <= 1)%Q) by lra. set (t := (i * v)%Q) in *.
    assert (A1 : (0 <= (1 - t) * (x - lo))%Q) by (apply Qmult_le_0_compat; lra).
    assert (A2 : (0 <= t * (m - lo))%Q) by (apply Qmult_le_0_compat; lra).
    assert (A3 : (0 <= (1 - t) * (hi - x))%Q) by (apply Qmult_le_0_compat; lra).
    assert (A4 : (0 <= t * (hi - m))%Q) by (apply Qmult_le_0_compat; lra). split; lra.
Qed.
Print Assumptions C169_meets_partial.
(** In a society without agents of TerroristNetworkModel the weight is the number of links. *)
Theorem C169_by_links_partial :
  forall cf lib s w c a fs w' c' l o, powers (l_pow lib) -> sound (cf_attrs cf) -> reached cf lib s w c ->
  (forall a, cf_kind cf a <> ANetwork) -> (1 < cf_nodes cf)%nat ->
  person cf a -> in_state "civilian" w a -> get_co c a = None ->
  agent_step (terror_code cf lib) fs s a (w, c) = (w', c', l, o) -> o <> Exc ->
  exists around, (forall b, In b around <-> near cf s w a b) /\
  let k := met (cf_interaction cf) (te_draws (fw_rest w)) around in
  (k <> [] -> (believes w' a == believes w a + intensity (cf_attrs cf) * vulnerable w a * (mean_by (links w) (believes w) k - believes w a))%Q).
Proof.
  intros cf lib s w c a fs w' c' l o P S R CA NN PE ST G E NE. pose proof (reached_inv cf lib P S s w c R) as I.
  destruct (civilian_effect cf lib fs s a w c w' c' l o I PE ST G E NE) as (ar & IN & N0 & N1).
  exists ar. split; [exact IN|]. intros k K.
  destruct ar as [|b0 ar0]; [now destruct K|]. destruct (N1 ltac:(discriminate)) as [_ H]. fold k in H.
  destruct (H K) as (_ & g & _ & CU & NZ & EQ). rewrite EQ.
  rewrite (CU (reached_calm cf lib P S CA s w c R)).
  rewrite (mean_scale (degree_centrality cf (te_edges (fw_rest w))) (links w) (believes w) (/ inject_Z (Z.of_nat (cf_nodes cf - 1))) k).
  - reflexivity.
  - intros X. assert (Y : (inject_Z (Z.of_nat (cf_nodes cf - 1)) == 0)%Q).
    { rewrite <- (Qinv_involutive (inject_Z _)), X. reflexivity. }
    unfold Qeq in Y. cbn in Y. lia.
  - intros b. rewrite (degree_links cf _ b NN). unfold links. now rewrite ends_links.
Qed.
Print Assumptions C169_by_links_partial.
(** C169 is false for a civilian that meets nobody although there is somebody near: its belief goes down. *)
Theorem C169_nobody_refuted :
  forall cf lib s w c a fs w' c' l o b, powers (l_pow lib) -> sound (cf_attrs cf) -> reached cf lib s w c ->
  person cf a -> in_state "civilian" w a -> get_co c a = None ->
  agent_step (terror_code cf lib) fs s a (w, c) = (w', c', l, o) -> o <> Exc ->
  near cf s w a b -> (forall n, cf_interaction cf < te_draws (fw_rest w) n)%Q ->
  (believes w' a == believes w a - believes w a * (intensity (cf_attrs cf) * vulnerable w a))%Q.
Proof.
  intros cf lib s w c a fs w' c' l o b P S R PE ST G E NE NB D. pose proof (reached_inv cf lib P S s w c R) as I.
  destruct (civilian_effect cf lib fs s a w c w' c' l o I PE ST G E NE) as (ar & IN & N0 & N1).
  apply IN in NB. destruct ar as [|b0 ar0]; [destruct NB|]. destruct (N1 ltac:(discriminate)) as [H _].
  rewrite H; [ring|]. unfold met.
  match goal with |- map fst (filter ?f ?l) = [] => assert (X : filter f l = []) end; [|now rewrite X].
  match goal with |- filter ?f ?l = [] => assert (X : forall p, In p l -> f p = false) end.
  { intros [x y] J. apply in_combine_r in J. apply in_map_iff in J as (n & <- & _). cbn [snd].
    destruct (Qle_bool _ _) eqn:Q; auto. apply Qle_bool_iff in Q. specialize (D n). lra. }
  revert X. match goal with |- context [filter _ ?l] => generalize l end. intros L X. induction L as [|p L IH]; [reflexivity|].
  cbn [filter]. rewrite (X p (or_introl eq_refl)). apply IH. intros q J. apply X. now right.
Qed.
Print Assumptions C169_nobody_refuted.
Definition activated_at k draws n a :=
  agent_step (terror_code (village k) some_lib) (fun _ => None) (sched_of (days k draws n)) a
    (world_of (days k draws n), cors_of (days k draws n)).
Definition after {A B C D} (x : A * B * C * D) : A := fst (fst (fst x)).
(** The civilian, of belief 1/4 and vulnerability 1/2, meets the terrorist, of belief 9/10, or nobody. *)
Example C169_not_vacuous :
  (forall draws, let t := days ASpread draws 0 in
     reached (village ASpread) some_lib (sched_of t) (world_of t) (cors_of t) /\
     person (village ASpread) 0%nat /\ in_state "civilian" (world_of t) 0%nat /\ get_co (cors_of t) 0%nat = None /\
     near (village ASpread) (sched_of t) (world_of t) 0%nat 1%nat) /\
  snd (activated_at ASpread always 0 0%nat) = Ret None /\ snd (activated_at ASpread never 0 0%nat) = Ret None /\
  Qred (believes (world_of (days ASpread always 0)) 0%nat) = (1 # 4)%Q /\
  Qred (believes (after (activated_at ASpread always 0 0%nat)) 0%nat) = (113 # 400)%Q /\
  Qred (believes (after (activated_at ASpread never 0 0%nat)) 0%nat) = (19 # 80)%Q /\
  (forall n, cf_interaction (village ASpread) < te_draws (fw_rest (world_of (days ASpread never 0))) n)%Q.
Proof.
  split.
  { intros draws. cbv zeta. split; [exact (lived ASpread draws 0 eq_refl)|]. split; [now left|].
    split; [exists civilian; split; reflexivity|]. split; [reflexivity|]. split; [cbn; auto|]. split; [left; cbn; auto|now left]. }
  repeat split; try (vm_compute; reflexivity).
Qed.

(** C170 is false: the new belief of a terrorist depends on its own, and on whether there is any radical near. *)
Theorem C170_own_belief_refuted :
  forall cf lib s w c a fs w' c' l o, powers (l_pow lib) -> sound (cf_attrs cf) -> reached cf lib s w c ->
  cf_kind cf a = ASpread -> in_state "terrorist" w a -> get_co c a = None ->
  agent_step (terror_code cf lib) fs s a (w, c) = (w', c', l, o) -> o <> Exc ->
  ((exists b, fellow cf s w a b) -> believes w' a = l_pow lib (believes w a) (1 - additional (cf_attrs cf))) /\
  ((forall b, ~ fellow cf s w a b) -> believes w' a = believes w a).
Proof.
  intros cf lib s w c a fs w' c' l o P S R K ST G E NE.
  destruct (terrorist_effect cf lib fs s a w c w' c' l o (reached_inv cf lib P S s w c R) K ST G E NE) as [A B].
  assert (X : forall b, fellow cf s w a b <-> In b (s_reg s) /\ linked w a b /\ person cf b /\ (in_state "terrorist" w b \/ in_state "leader" w b)).
  { intros b. unfold fellow, near. tauto. }
  split; [intros [b F]; apply A; exists b; now apply X|]. intros N. apply B. intros b F. apply (N b). now apply X.
Qed.
Print Assumptions C170_own_belief_refuted.
Example C170_not_vacuous :
  let t := days ASpread always 0 in
  reached (village ASpread) some_lib (sched_of t) (world_of t) (cors_of t) /\ in_state "terrorist" (world_of t) 1%nat /\
  get_co (cors_of t) 1%nat = None /\ snd (activated_at ASpread always 0 1%nat) = Ret None /\
  fellow (village ASpread) (sched_of t) (world_of t) 1%nat 2%nat /\
  Qred (believes (world_of t) 1%nat) = (9 # 10)%Q /\ Qred (believes (after (activated_at ASpread always 0 1%nat)) 1%nat) = (909 # 1000)%Q.
Proof.
  cbv zeta. split; [exact (lived ASpread always 0 eq_refl)|]. split; [exists terrorist; split; reflexivity|].
  split; [reflexivity|]. split; [vm_compute; reflexivity|]. split.
  { split; [split; [cbn; auto|]; split; [left; cbn; auto|now left]|]. right. exists leader. split; reflexivity. }
  split; vm_compute; reflexivity.
Qed.

(** C171: who is a terrorist or a leader has a belief of at least 0.8, and never is a civilian again. *)
Theorem C171_radical :
  forall cf lib s w c a, powers (l_pow lib) -> sound (cf_attrs cf) -> reached cf lib s w c ->
  person cf a -> ~ in_state "civilian" w a -> (4 # 5 <= believes w a)%Q.
Proof.
  intros cf lib s w c a P S R PE N. destruct (reached_inv cf lib P S s w c R) as [_ EV]. destruct (EV a) as (st & OK). cbn [fst] in OK.
  apply (po_radical _ _ _ _ OK PE). intros X. apply N. exists st. split; [apply OK|exact X].
Qed.
Print Assumptions C171_radical.
Theorem C171_never_back :
  forall (AR : Arith) cf lib s w c a shuffle n s' w' c' tr, powers (l_pow lib) -> sound (cf_attrs cf) -> reached cf lib s w c ->
  fair shuffle -> ~ in_state "civilian" w a ->
  run_hist (terror_user cf lib shuffle) (repeat CStep n) s (w, c) = (s', (w', c'), tr) -> ~ in_state "civilian" w' a.
Proof. intros AR cf lib s w c a shuffle n s' w' c' tr P S R FA N E. exact (never_back cf lib P S shuffle n s w c s' w' c' tr a FA R N E). Qed.
Print Assumptions C171_never_back.
(** The states: whoever is reached is in one of those of its class. *)
Theorem C171_states :
  forall cf lib s w c a, powers (l_pow lib) -> sound (cf_attrs cf) -> reached cf lib s w c ->
  exists x, in_state x w a /\ valid_id (cf_kind cf a) (Some x).
Proof.
  intros cf lib s w c a P S R. destruct (reached_inv cf lib P S s w c R) as [_ EV]. destruct (EV a) as (st & OK). cbn [fst] in OK.
  exists (st_name st). split; [exists st; split; [apply OK|reflexivity]|]. pose proof (po_allowed _ _ _ _ OK) as A.
  cbn [valid_id]. destruct (cf_kind cf a); cbn in A |- *; repeat (destruct A as [<-|A]; [cbn; auto|]); destruct A.
Qed.
Print Assumptions C171_states.
(** A civilian of high vulnerability among radicals becomes one of them. *)
Definition eager : config := Config (Attrs 1 (1 # 10) 1 1 (1 # 10) 0 (1 # 10) 0 (1 # 2) (1 # 2) (1 # 5)) (1 # 2) (cf_kind (village ASpread)) 5.
Example C171_not_vacuous :
  let t n := society_run eager some_lib in_turn true (Fin 1) ids roads half half always n in
  sound (cf_attrs eager) /\ reached eager some_lib (sched_of (t 1%nat)) (world_of (t 1%nat)) (cors_of (t 1%nat)) /\
  names (world_of (t 0%nat)) [0]%nat = ["civilian"] /\ names (world_of (t 1%nat)) [0]%nat = ["terrorist"] /\
  Qred (believes (world_of (t 0%nat)) 0%nat) = (1 # 4)%Q /\ Qred (believes (world_of (t 1%nat)) 0%nat) = (9 # 10)%Q.
Proof.
  cbv zeta. split; [unfold sound, share; cbn; repeat split; discriminate|]. split.
  { set (t := society_run _ _ _ _ _ _ _ _ _ _ _). exists wholes, in_turn, true, (Fin 1), ids, roads, half, half, always, 1%nat, (snd t).
    split; [exact turn_fair|]. split; [exact (ids_valid ASpread eq_refl)|]. split; [exact half_share|]. split; [exact half_share|].
    fold t. unfold sched_of, world_of, cors_of. destruct t as [[s [w c]] tr]. reflexivity. }
  repeat split; vm_compute; reflexivity.
Qed.

(** C172 is false: [degree] gives the value of an old network if [betweenness] was asked for first in this step. *)
Theorem C172_stale_refuted :
  forall cf lib now r a b old, te_degree r = Some old ->
  te_between r = None \/ (exists t, te_last r = Some t /\ n_ltb t now = true) ->
  snd (degree cf false now (fst (betweenness lib false now r b)) a) = degree_centrality cf old a /\
  te_edges (fst (betweenness lib false now r b)) = te_edges r.
Proof.
  intros cf lib now r a b old D H.
  assert (O : outdated false now r (te_between r) = true) by (unfold outdated; destruct H as [->|(t & -> & ->)]; rewrite ?orb_true_r; reflexivity).
  unfold betweenness. rewrite O. cbn [fst]. unfold degree. cbn [te_degree te_last outdated].
  rewrite D. unfold outdated. cbn [te_last orb]. rewrite n_ltb_irrefl. cbn [snd te_degree]. auto.
Qed.
Print Assumptions C172_stale_refuted.
(** It is that of the present network if nothing was computed in this step, or with [force]. *)
Theorem C172_present_partial :
  forall cf lib now r a force,
  force = true \/ te_degree r = None /\ te_between r = None \/ (exists t, te_last r = Some t /\ n_ltb t now = true) ->
  snd (degree cf force now r a) = degree_centrality cf (te_edges r) a /\
  snd (betweenness lib force now r a) = l_centrality lib (te_edges r) a.
Proof.
  intros cf lib now r a force H.
  assert (O : outdated force now r (te_degree r) = true /\ outdated force now r (te_between r) = true).
  { unfold outdated. destruct H as [->|[[-> ->]|(t & -> & ->)]]; rewrite ?orb_true_r; auto. }
  destruct O as [O1 O2]. unfold degree, betweenness. rewrite O1, O2. auto.
Qed.
Print Assumptions C172_present_partial.
(** In a society without agents of TerroristNetworkModel the network never changes, and they are right in all runs. *)
Theorem C172_no_network_partial :
  forall cf lib s w c a force, powers (l_pow lib) -> sound (cf_attrs cf) -> (forall a, cf_kind cf a <> ANetwork) -> reached cf lib s w c ->
  snd (degree cf force (s_time s) (fw_rest w) a) = degree_centrality cf (te_edges (fw_rest w)) a /\
  snd (betweenness lib force (s_time s) (fw_rest w) a) = l_centrality lib (te_edges (fw_rest w)) a.
Proof.
  intros cf lib s w c a force P S CA R. destruct (reached_calm cf lib P S CA s w c R) as [D B].
  assert (X : forall cache, cache = None \/ cache = Some (te_edges (fw_rest w)) ->
    outdated force (s_time s) (fw_rest w) cache = true \/ cache = Some (te_edges (fw_rest w))).
  { intros cache [->| ->]; [left|now right]. unfold outdated. now rewrite orb_true_r. }
  split; [unfold degree; destruct (X _ D) as [->|Y]|unfold betweenness; destruct (X _ B) as [->|Y]]; try reflexivity;
    destruct (outdated _ _ _ _); cbn [snd te_degree te_between]; rewrite ?Y; reflexivity.
Qed.
Print Assumptions C172_no_network_partial.
(** The network got a link in step 1; in step 2, [betweenness] sees it and [degree] does not. *)
Example C172_not_vacuous :
  let r := TRest [(0, 1); (0, 2)]%nat half half always (Some [(0, 1)]%nat) (Some [(0, 1)]%nat) (Some (Fin 1)) in
  (exists t, te_last r = Some t /\ n_ltb t (Fin 2) = true) /\
  Qred (snd (degree (village ASpread) false (Fin 2) r 0%nat)) = (1 # 2)%Q /\
  Qred (snd (degree (village ASpread) false (Fin 2) (fst (betweenness some_lib false (Fin 2) r 0%nat)) 0%nat)) = (1 # 4)%Q.
Proof. split; [now exists (Fin 1)|]. split; vm_compute; reflexivity. Qed.

(** C173: what training areas and havens do to the people next to them.  Training areas: *)
Theorem C173_training :
  forall cf lib s w c a fs w' c' l o b, powers (l_pow lib) -> sound (cf_attrs cf) -> reached cf lib s w c ->
  cf_kind cf a = ATraining -> get_co c a = None -> agent_step (terror_code cf lib) fs s a (w, c) = (w', c', l, o) ->
  (near cf s w a b -> (train_min (cf_attrs cf) < vulnerable w b)%Q ->
     vulnerable w' b = l_pow lib (vulnerable w b) (1 - train_influence (cf_attrs cf))) /\
  (~ near cf s w a b \/ (vulnerable w b <= train_min (cf_attrs cf))%Q -> vulnerable w' b = vulnerable w b).
Proof.
  intros cf lib s w c a fs w' c' l o b P S R K G E.
  exact (training_effect cf lib fs s a w c w' c' l o b (reached_inv cf lib P S s w c R) (reached_reg cf lib P S s w c R) K G E).
Qed.
Print Assumptions C173_training.
(** Havens with civilians, that have been left by the last civilian, and those without. *)
Theorem C173_haven :
  forall cf lib s w c a fs w' c' l o b, powers (l_pow lib) -> sound (cf_attrs cf) -> reached cf lib s w c ->
  cf_kind cf a = AHaven -> get_co c a = None -> agent_step (terror_code cf lib) fs s a (w, c) = (w', c', l, o) ->
  (in_state "civilian" w a -> (exists b, near cf s w a b /\ in_state "civilian" w b) ->
     (near cf s w a b -> (haven_min (cf_attrs cf) < vulnerable w b)%Q -> vulnerable w' b = vulnerable w b * (1 - haven_influence (cf_attrs cf)))%Q /\
     (~ near cf s w a b \/ (vulnerable w b <= haven_min (cf_attrs cf))%Q -> vulnerable w' b = vulnerable w b)) /\
  (in_state "civilian" w a -> (forall b, near cf s w a b -> ~ in_state "civilian" w b) ->
     vulnerable w' b = vulnerable w b /\ in_state "terrorist" w' a) /\
  (in_state "terrorist" w a ->
     (near cf s w a b -> (vulnerable w b < haven_max (cf_attrs cf))%Q ->
        vulnerable w' b = l_pow lib (vulnerable w b) (1 - haven_influence (cf_attrs cf))) /\
     (~ near cf s w a b \/ (haven_max (cf_attrs cf) <= vulnerable w b)%Q -> vulnerable w' b = vulnerable w b)).
Proof.
  intros cf lib s w c a fs w' c' l o b P S R K G E.
  exact (haven_effect cf lib fs s a w c w' c' l o b (reached_inv cf lib P S s w c R) (reached_reg cf lib P S s w c R) K G E).
Qed.
Print Assumptions C173_haven.
(** A haven with civilians around stays as it is. *)
Theorem C173_haven_stays :
  forall cf lib s w c a fs w' c' l o b, powers (l_pow lib) -> sound (cf_attrs cf) -> reached cf lib s w c ->
  cf_kind cf a = AHaven -> get_co c a = None -> agent_step (terror_code cf lib) fs s a (w, c) = (w', c', l, o) ->
  in_state "civilian" w a -> near cf s w a b -> in_state "civilian" w b -> in_state "civilian" w' a.
Proof.
  intros cf lib s w c a fs w' c' l o b P S R K G E ST (J & L & PE) CB.
  apply (haven_stays cf lib fs s a w c w' c' l o (reached_inv cf lib P S s w c R) K G E ST). exists b. auto.
Qed.
Print Assumptions C173_haven_stays.
(** The civilian's vulnerability goes from 1/2 to 21/40 in the training area, or to 9/20 in the haven. *)
Example C173_not_vacuous :
  let t := days ASpread always 0 in
  reached (village ASpread) some_lib (sched_of t) (world_of t) (cors_of t) /\
  near (village ASpread) (sched_of t) (world_of t) 3%nat 0%nat /\ near (village ASpread) (sched_of t) (world_of t) 4%nat 0%nat /\
  in_state "civilian" (world_of t) 4%nat /\ in_state "civilian" (world_of t) 0%nat /\
  Qred (vulnerable (after (activated_at ASpread always 0 3%nat)) 0%nat) = (21 # 40)%Q /\
  Qred (vulnerable (after (activated_at ASpread always 0 4%nat)) 0%nat) = (9 # 20)%Q.
Proof.
  cbv zeta. split; [exact (lived ASpread always 0 eq_refl)|].
  split; [split; [cbn; auto|]; split; [right; cbn; auto|now left]|].
  split; [split; [cbn; auto|]; split; [left; cbn; auto|now left]|].
  split; [exists haven_civilian; split; reflexivity|]. split; [exists civilian; split; reflexivity|].
  split; vm_compute; reflexivity.
Qed.

(** C174 is false: what the searches find makes no difference. *)
Definition searching (lib : library) (geo ego : trest -> aid -> option (list aid)) : library :=
  Library (l_pow lib) (l_centrality lib) geo ego (l_path_length lib) (l_distance lib).
Theorem C174_all_agents_refuted :
  forall cf lib geo ego geo' ego' s a w,
  (geo (fw_rest w) a = None <-> geo' (fw_rest w) a = None) -> (ego (fw_rest w) a = None <-> ego' (fw_rest w) a = None) ->
  update_relationships cf (searching lib geo ego) s a w = update_relationships cf (searching lib geo' ego') s a w.
Proof.
  intros cf lib geo ego geo' ego' s a w G E. unfold update_relationships. cbn [searching l_geo_search l_ego_search].
  destruct (neighbors s (fw_rest w) a (state_in w ["civilian"])); [|reflexivity].
  assert (NR : forall l r, new_relationship cf (searching lib geo ego) w a l r = new_relationship cf (searching lib geo' ego') w a l r).
  { induction l as [|b l IH]; intros r; cbn [new_relationship searching l_path_length l_distance]; [reflexivity|].
    destruct (l_path_length lib (te_edges r) a b) as [[|n]|]; [reflexivity| |];
      (destruct (l_distance lib a b); [|reflexivity]); (destruct (state_in w ["civilian"] b); [|apply IH]);
      destruct (draw r) as [x r1]; (destruct (Qltb x _); [reflexivity|apply IH]). }
  destruct (geo (fw_rest w) a), (geo' (fw_rest w) a), (ego (fw_rest w) a), (ego' (fw_rest w) a); auto;
    try (destruct G as [G1 G2]; discriminate (G1 eq_refl) || discriminate (G2 eq_refl));
    try (destruct E as [E1 E2]; discriminate (E1 eq_refl) || discriminate (E2 eq_refl)).
Qed.
Print Assumptions C174_all_agents_refuted.
(** And it divides by its distance to itself, unless it has linked to a civilian before it gets there. *)
Theorem C174_itself_refuted :
  forall cf lib s a w r, In a (s_reg s) -> (forall g, l_path_length lib g a a = Some 0%nat) ->
  (forall b, In b (s_reg s) -> linked w a b -> ~ in_state "civilian" w b) ->
  update_relationships cf lib s a w = (r, true) ->
  exists b, In b (s_reg s) /\ b <> a /\ in_state "civilian" w b /\ te_edges r = (a, b) :: te_edges (fw_rest w).
Proof.
  intros cf lib s a w r J P N E. unfold update_relationships in E.
  assert (NE : neighbors s (fw_rest w) a (state_in w ["civilian"]) = []).
  { destruct (neighbors s (fw_rest w) a (state_in w ["civilian"])) as [|b l] eqn:X; auto. exfalso.
    assert (Y : In b (neighbors s (fw_rest w) a (state_in w ["civilian"]))) by (rewrite X; now left).
    apply neighbors_iff in Y as (A & B & C). apply state_in_iff in C as (x & [<-|[]] & C). exact (N b A B C). }
  rewrite NE in E. destruct (l_geo_search lib (fw_rest w) a); [|discriminate]. destruct (l_ego_search lib (fw_rest w) a); [|discriminate].
  destruct (itself cf lib w a (s_reg s) (fw_rest w) r J P E) as (b & A & B & C & D). exists b. repeat (split; [assumption|]).
  destruct (adjacent (te_edges (fw_rest w)) a b) eqn:AD; [|exact D]. apply adjacent_linked in AD. destruct (N b A AD C).
Qed.
Print Assumptions C174_itself_refuted.
(** The leader finds nobody within its sphere, and links to the civilian all the same; or it raises. *)
Example C174_not_vacuous :
  let t draws := days ANetwork draws 0 in
  let upd draws := update_relationships (village ANetwork) some_lib (sched_of (t draws)) 2%nat (world_of (t draws)) in
  l_geo_search some_lib (fw_rest (world_of (t always))) 2%nat = Some [] /\
  l_ego_search some_lib (fw_rest (world_of (t always))) 2%nat = Some [] /\
  (snd (upd always) = true /\ te_edges (fst (upd always)) = (2, 0)%nat :: roads) /\ snd (upd never) = false.
Proof. repeat split; vm_compute; reflexivity. Qed.

(** C175 is false: the attributes of the class hide the parameters of the model. *)
Theorem C175_hidden_refuted :
  forall (model : string -> option Q) default,
  agent_get spread_attrs model "information_spread_intensity" default = (1 # 10)%Q /\
  agent_get spread_attrs model "terrorist_additional_influence" default = (1 # 10)%Q /\
  agent_get spread_attrs model "max_vulnerability" default = 1%Q.
Proof. intros. repeat split; reflexivity. Qed.
Print Assumptions C175_hidden_refuted.
(** Only what the class does not have is looked up in the model. *)
Theorem C175_others_partial :
  forall (V : Type) (own model : string -> option V) key default,
  (own key = None -> forall v, model key = Some v -> agent_get own model key default = v) /\
  (own key = None -> model key = None -> agent_get own model key default = default) /\
  (forall v, own key = Some v -> agent_get own model key default = v).
Proof. intros V own model key default. unfold agent_get. repeat split; [intros -> v ->|intros -> ->|intros v ->]; reflexivity. Qed.
Print Assumptions C175_others_partial.
Example C175_not_vacuous :
  let model key := dget key [("information_spread_intensity", 7 # 10); ("prob_interaction", 1 # 2)]%Q in
  agent_get spread_attrs model "information_spread_intensity" 0 = (1 # 10)%Q /\
  agent_get spread_attrs model "prob_interaction" 0 = (1 # 2)%Q.
Proof. split; reflexivity. Qed.

(** C176 is false: a haven that raises vulnerabilities raises them above its maximum, and never stops to be such a
    haven, even if all people around it are civilians. *)
Theorem C176_above_maximum_refuted :
  forall cf lib s w c a fs w' c' l o b, powers (l_pow lib) -> sound (cf_attrs cf) -> reached cf lib s w c ->
  cf_kind cf a = AHaven -> in_state "terrorist" w a -> get_co c a = None -> agent_step (terror_code cf lib) fs s a (w, c) = (w', c', l, o) ->
  near cf s w a b -> (vulnerable w b < haven_max (cf_attrs cf) < l_pow lib (vulnerable w b) (1 - haven_influence (cf_attrs cf)))%Q ->
  (haven_max (cf_attrs cf) < vulnerable w' b)%Q.
Proof.
  intros cf lib s w c a fs w' c' l o b P S R K ST G E N [L1 L2].
  destruct (C173_haven cf lib s w c a fs w' c' l o b P S R K G E) as (_ & _ & H). destruct (H ST) as [H1 _]. now rewrite (H1 N L1).
Qed.
Print Assumptions C176_above_maximum_refuted.
Theorem C176_no_recovery_refuted :
  forall (AR : Arith) cf lib s w c a shuffle n s' w' c' tr, powers (l_pow lib) -> sound (cf_attrs cf) -> reached cf lib s w c ->
  fair shuffle -> cf_kind cf a = AHaven -> in_state "terrorist" w a ->
  run_hist (terror_user cf lib shuffle) (repeat CStep n) s (w, c) = (s', (w', c'), tr) -> in_state "terrorist" w' a.
Proof.
  intros AR cf lib s w c a shuffle n s' w' c' tr P S R FA K (st & C & N) E.
  assert (NC : ~ in_state "civilian" w a) by (intros (st' & C' & N'); congruence).
  pose proof (never_back cf lib P S shuffle n s w c s' w' c' tr a FA R NC E) as NC'.
  destruct (run_society cf lib P S shuffle n s w c s' w' c' tr FA R E) as [_ EV].
  destruct (EV a) as (st' & OK). cbn [fst] in OK. pose proof (po_allowed _ _ _ _ OK) as A. rewrite K in A. cbn in A.
  destruct A as [<-|[<-|[]]]; [destruct NC'|]; (eexists; split; [apply OK|reflexivity]).
Qed.
Print Assumptions C176_no_recovery_refuted.
(** Here the haven is next to the leader only: after two steps it raises its vulnerability from just under the maximum. *)
Definition hideout : config :=
  Config (Attrs (1 # 10) (1 # 10) 0 (98 # 100) (1 # 10) 0 (1 # 10) 0 (1 # 2) (1 # 2) (1 # 5)) (1 # 2) (cf_kind (village ASpread)) 5.
Example C176_not_vacuous :
  let t n := society_run hideout some_lib in_turn true (Fin 1) ids [(2, 4)]%nat half half always n in
  let x := agent_step (terror_code hideout some_lib) (fun _ => None) (sched_of (t 1%nat)) 4%nat (world_of (t 1%nat), cors_of (t 1%nat)) in
  sound (cf_attrs hideout) /\ reached hideout some_lib (sched_of (t 1%nat)) (world_of (t 1%nat)) (cors_of (t 1%nat)) /\
  names (world_of (t 0%nat)) [4]%nat = ["civilian"] /\ names (world_of (t 1%nat)) [4]%nat = ["terrorist"] /\
  get_co (cors_of (t 1%nat)) 4%nat = None /\
  haven_max (cf_attrs hideout) = (1 # 2)%Q /\ Qred (vulnerable (world_of (t 1%nat)) 2%nat) = (49 # 100)%Q /\
  Qred (vulnerable (after x) 2%nat) = (51499 # 100000)%Q.
Proof.
  cbv zeta. split; [unfold sound, share; cbn; repeat split; discriminate|]. split.
  { set (t := society_run _ _ _ _ _ _ _ _ _ _ _). exists wholes, in_turn, true, (Fin 1), ids, [(2, 4)]%nat, half, half, always, 1%nat, (snd t).
    split; [exact turn_fair|]. split; [exact (ids_valid ASpread eq_refl)|]. split; [exact half_share|]. split; [exact half_share|].
    fold t. unfold sched_of, world_of, cors_of. destruct t as [[s [w c]] tr]. reflexivity. }
  repeat split; vm_compute; reflexivity.
Qed.

(** C177 is false: a leader steps down for a training area that is more central. *)
Theorem C177_for_a_place_refuted :
  forall cf lib s w c a fs w' c' l o b, powers (l_pow lib) -> sound (cf_attrs cf) -> (forall a, cf_kind cf a <> ANetwork) -> reached cf lib s w c ->
  cf_kind cf a = ASpread -> in_state "leader" w a -> get_co c a = None -> agent_step (terror_code cf lib) fs s a (w, c) = (w', c', l, o) ->
  cf_kind cf b = ATraining -> In b (s_reg s) -> linked w a b -> (more_central lib w b a)%Q -> in_state "terrorist" w' a.
Proof.
  intros cf lib s w c a fs w' c' l o b P S CA R K ST G E KB J L M.
  destruct (leader_steps_down cf lib fs s a w c w' c' l o (reached_inv cf lib P S s w c R) (reached_calm cf lib P S CA s w c R) K ST G E) as [H _].
  apply H. exists b. split; [exact J|]. split; [exact L|]. split; [|exact M]. left.
  destruct (C171_states cf lib s w c b P S R) as (x & X & V). rewrite KB in V. destruct V as [<-|[]]. exact X.
Qed.
Print Assumptions C177_for_a_place_refuted.
(** Otherwise: it steps down if and only if some radical person, or a place that is no refuge, is more central. *)
Theorem C177_leader_partial :
  forall cf lib s w c a fs w' c' l o, powers (l_pow lib) -> sound (cf_attrs cf) -> (forall a, cf_kind cf a <> ANetwork) -> reached cf lib s w c ->
  cf_kind cf a = ASpread -> in_state "leader" w a -> get_co c a = None -> agent_step (terror_code cf lib) fs s a (w, c) = (w', c', l, o) ->
  ((exists b, fellow cf s w a b /\ more_central lib w b a) -> in_state "terrorist" w' a) /\
  (in_state "terrorist" w' a -> exists b, In b (s_reg s) /\ linked w a b /\ more_central lib w b a /\
     (fellow cf s w a b \/ cf_kind cf b = ATraining \/ cf_kind cf b = AHaven /\ in_state "terrorist" w b)) /\
  (in_state "terrorist" w' a \/ in_state "leader" w' a).
Proof.
  intros cf lib s w c a fs w' c' l o P S CA R K ST G E.
  destruct (leader_steps_down cf lib fs s a w c w' c' l o (reached_inv cf lib P S s w c R) (reached_calm cf lib P S CA s w c R) K ST G E) as [H1 H2].
  cbv zeta in H1, H2. set (rival b := In b (s_reg s) /\ _) in H1, H2.
  assert (D : (exists b, In b (s_reg s) /\ rival b) \/ forall b, ~ rival b).
  { assert (DEC : forall b, {rival b} + {~ rival b}).
    { intros b. unfold rival, linked, in_state.
      assert (ID : forall p q : nat * nat, {p = q} + {p <> q}) by (intros; decide equality; apply Nat.eq_dec).
      destruct (in_dec Nat.eq_dec b (s_reg s)) as [?|?]; [|right; tauto].
      assert (L : {In (a, b) (te_edges (fw_rest w)) \/ In (b, a) (te_edges (fw_rest w))} + {~ (In (a, b) (te_edges (fw_rest w)) \/ In (b, a) (te_edges (fw_rest w)))}).
      { destruct (in_dec ID (a, b) (te_edges (fw_rest w))); [auto|]. destruct (in_dec ID (b, a) (te_edges (fw_rest w))); [auto|]. right. tauto. }
      destruct L as [?|?]; [|right; tauto].
      destruct (Qlt_le_dec (l_centrality lib (te_edges (fw_rest w)) a) (l_centrality lib (te_edges (fw_rest w)) b)) as [?|Q];
        [|right; intros (_ & _ & _ & X); apply (Qlt_not_le _ _ X Q)].
      destruct (fa_cur (fw_agents w b)) as [st|].
      - destruct (string_dec (st_name st) "terrorist"); [left; eauto 9|]. destruct (string_dec (st_name st) "leader"); [left; eauto 9|].
        right. intros (_ & _ & [(x & [= <-] & X)|(x & [= <-] & X)] & _); congruence.
      - right. intros (_ & _ & [(x & X & _)|(x & X & _)] & _); discriminate. }
    destruct (List.Exists_dec rival (s_reg s) DEC) as [X|X]; [left; now apply Exists_exists|right].
    intros b RB. apply X. apply Exists_exists. exists b. split; [apply RB|exact RB]. }
  split; [|split].
  - intros (b & ((J & L & _) & F) & M). apply H1. exists b. repeat (split; [assumption|]). exact M.
  - intros T. destruct D as [(b & _ & J & L & ST' & M)|D].
    + exists b. split; [exact J|]. split; [exact L|]. split; [exact M|].
      destruct (cf_kind cf b) eqn:KB; [| |auto|].
      * left. split; [split; [exact J|]; split; [exact L|]; now left|exact ST'].
      * destruct (CA b KB).
      * right. right. split; [reflexivity|]. destruct ST' as [X|X]; [exact X|].
        destruct (C171_states cf lib s w c b P S R) as (x & (st & C1 & N1) & V). rewrite KB in V. destruct X as (st' & C2 & N2).
        assert (st' = st) as -> by congruence. rewrite N1 in N2. subst x. destruct V as [V|[V|[]]]; discriminate.
    + specialize (H2 D). destruct T as (x & X1 & X2), H2 as (y & Y1 & Y2). congruence.
  - destruct D as [(b & _ & RB)|D]; [left; apply H1; eauto|right; auto].
Qed.
Print Assumptions C177_leader_partial.
(** A terrorist becomes a leader if and only if no radical around is a leader or more central. *)
Theorem C177_terrorist_partial :
  forall cf lib s w c a fs w' c' l o, powers (l_pow lib) -> sound (cf_attrs cf) -> (forall a, cf_kind cf a <> ANetwork) -> reached cf lib s w c ->
  cf_kind cf a = ASpread -> in_state "terrorist" w a -> get_co c a = None -> agent_step (terror_code cf lib) fs s a (w, c) = (w', c', l, o) ->
  o <> Exc ->
  ((exists b, fellow cf s w a b /\ (in_state "leader" w b \/ more_central lib w b a)) -> in_state "terrorist" w' a) /\
  ((forall b, fellow cf s w a b -> ~ in_state "leader" w b /\ ~ more_central lib w b a) -> in_state "leader" w' a).
Proof.
  intros cf lib s w c a fs w' c' l o P S CA R K ST G E NE.
  destruct (terrorist_steps_up cf lib fs s a w c w' c' l o (reached_inv cf lib P S s w c R) (reached_calm cf lib P S CA s w c R) K ST G E NE) as [H1 H2].
  split.
  - intros (b & ((J & L & PE) & F) & M). apply H1. exists b. split; [repeat split; assumption|exact M].
  - intros H. apply H2. intros b ((J & L & PE & F) & M). destruct (H b) as [A B]; [repeat split; assumption|]. destruct M; auto.
Qed.
Print Assumptions C177_terrorist_partial.
(** The leader and the terrorist are linked to the training area, which is also linked to the civilian. *)
Example C177_not_vacuous :
  let t := society_run (village ASpread) some_lib in_turn true (Fin 1) ids [(2, 3); (0, 3); (1, 3)]%nat half half always 0 in
  let step a := agent_step (terror_code (village ASpread) some_lib) (fun _ => None) (sched_of t) a (world_of t, cors_of t) in
  reached (village ASpread) some_lib (sched_of t) (world_of t) (cors_of t) /\
  names (world_of t) [1; 2]%nat = ["terrorist"; "leader"] /\ linked (world_of t) 2%nat 3%nat /\ more_central some_lib (world_of t) 3%nat 2%nat /\
  names (after (step 2%nat)) [2]%nat = ["terrorist"] /\ names (after (step 1%nat)) [1]%nat = ["leader"].
Proof.
  cbv zeta. split.
  { set (t := society_run _ _ _ _ _ _ _ _ _ _ _). exists wholes, in_turn, true, (Fin 1), ids, [(2, 3); (0, 3); (1, 3)]%nat, half, half, always, 0%nat, (snd t).
    split; [exact turn_fair|]. split; [exact (ids_valid ASpread eq_refl)|]. split; [exact half_share|]. split; [exact half_share|].
    fold t. unfold sched_of, world_of, cors_of. destruct t as [[s [w c]] tr]. reflexivity. }
  split; [vm_compute; reflexivity|]. split; [left; cbn; auto|]. split; [vm_compute; reflexivity|]. split; vm_compute; reflexivity.
Qed.
