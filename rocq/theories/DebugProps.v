(** C199-C203: the debugger. *)
From Coq Require Import ZArith List Bool Arith String Lia.
From Verif Require Import Num PyDict TimedModel DebugModel DebugSpec DebugProofs.
Import ListNotations.
Local Open Scope string_scope.
Local Open Scope list_scope.

(** C199.  [soil_agents] and [soil_list] do not always show the agents of the model of the frame: [break_step] in the code of an agent leaves that agent
    behind, and its model wins over that of a function with an argument [model]. *)
Definition agent_frame (a : nat) : frame := Frame [] [("self", VAgent a)].
Definition model_frame (m : nat) : frame := Frame [] [("model", VModel m)].
Theorem C199_current_model_refuted : ~ (forall model_of keys_of steps_of step_at l fr m, session_ok ((fr, CList) :: l) ->
  frame_model model_of fr = Some m ->
  snd (run_dcmd model_of keys_of steps_of step_at fr CList (session model_of keys_of steps_of step_at l new_dbg)) = RAgents m (Some ["state_id"])).
Proof.
  intros H. specialize (H (fun _ => 1) (fun _ => []) (fun _ => 0) (fun _ => 0) [(agent_frame 7, CBreakStep)] (model_frame 2) 2).
  cbn in H. assert (X : RAgents 1 (Some ["state_id"]) = RAgents 2 (Some ["state_id"])); [|discriminate X]. apply H; [|reflexivity].
  intros fr c [E|[E|[]]]; injection E as <- <-; (split; [|reflexivity]); split; cbn; repeat constructor; auto.
Qed.
Print Assumptions C199_current_model_refuted.
(** They do in the code of a model or an agent, whatever has been done before; and in any frame if [break_step] has not been used. *)
Theorem C199_current_model_partial : forall model_of keys_of steps_of step_at l fr c m, session_ok ((fr, c) :: l) -> frame_model model_of fr = Some m ->
  (match lookup fr "self" with Some (VModel _) | Some (VAgent _) => True | _ => False end) \/ no_steps l ->
  let reply := snd (run_dcmd model_of keys_of steps_of step_at fr c (session model_of keys_of steps_of step_at l new_dbg)) in
  match c with
  | CAgents attrs => reply = RAgents m (match attrs with [] => None | _ => Some attrs end)
  | CList => reply = RAgents m (Some ["state_id"])
  | _ => True
  end.
Proof.
  intros model_of keys_of steps_of step_at l fr c m OK M H reply.
  assert (OK' : session_ok l) by (intros fr' c' I; apply (OK fr' c'); now right).
  destruct (OK fr c (or_introl eq_refl)) as [F D]. set (d := session model_of keys_of steps_of step_at l new_dbg) in *.
  assert (E : dget "Debug" (known d) = Some VDebugClass) by (unfold d; rewrite debug_run by exact OK'; reflexivity).
  assert (X : forall attrs, dget "model" (known (wrapper model_of fr attrs d)) = Some (VModel m)).
  { intros attrs. unfold frame_model in M. destruct (lookup fr "self") as [v|] eqn:S.
    - pose proof (model_self model_of fr attrs d v F S) as P. destruct v; try (destruct H as [[]|H]; apply model_variable; auto; rewrite ?S; auto;
        [apply self_run; [exact H|now left]|destruct (lookup fr "model") as [[]|]; congruence]).
      + assert (m0 = m) as -> by congruence. exact P.
      + destruct P as [P _]. congruence.
    - destruct H as [[]|H]. apply model_variable; auto; rewrite ?S; auto; [apply self_run; [exact H|now left]|].
      destruct (lookup fr "model") as [[]|]; congruence. }
  subst reply. destruct c; cbn [run_dcmd snd]; auto; [unfold do_soil_agents|unfold do_soil_list]; apply (shows model_of fr); auto.
Qed.
Print Assumptions C199_current_model_partial.
Example C199_case : let run := run_dcmd (fun a => a mod 2) (fun _ => []) (fun _ => 5) (fun m => 100 + m) in
  let d := fst (run (agent_frame 7) (CAgent []) new_dbg) in
  snd (run (agent_frame 4) CList d) = RAgents 0 (Some ["state_id"]) /\ snd (run (model_frame 9) (CAgents ["x"]) d) = RAgents 9 (Some ["x"]).
Proof. vm_compute. auto. Qed.

(** C200.  In the code of an agent [soil_agent] shows that agent, with the keys that begin with one of the words. *)
Theorem C200_current_agent : forall model_of keys_of steps_of step_at l fr words a, frame_ok fr -> frame_agent fr = Some a ->
  exists keys, snd (run_dcmd model_of keys_of steps_of step_at fr (CAgent words) (session model_of keys_of steps_of step_at l new_dbg)) = RAgent a keys /\
    asked_for words (keys_of a) keys.
Proof.
  intros model_of keys_of steps_of step_at l fr words a F A. unfold frame_agent in A. destruct (lookup fr "self") as [v|] eqn:S; [|discriminate].
  destruct v; try discriminate. assert (a0 = a) as -> by congruence.
  destruct (model_self model_of fr words (session model_of keys_of steps_of step_at l new_dbg) (VAgent a) F S) as [_ P].
  cbn [run_dcmd snd]. unfold do_soil_agent. rewrite P. destruct words as [|w ws]; [exists None; split; reflexivity|].
  eexists. split; [reflexivity|]. eexists. split; [reflexivity|]. intros k. rewrite in_flat_map. split.
  - intros (x & I & J). apply filter_In in J as [J1 J2]. split; [exact J1|]. exists x. split; [exact I|]. now apply prefix_spec.
  - intros (I & x & J & R). exists x. split; [exact J|]. apply filter_In. split; [exact I|]. now apply prefix_spec.
Qed.
Print Assumptions C200_current_agent.
Example C200_case : let run := run_dcmd (fun a => a mod 2) (fun _ => ["name"; "alive"; "age"; "node_id"]) (fun _ => 5) (fun m => 100 + m) in
  let d := fst (run (agent_frame 7) (CAgent []) new_dbg) in
  snd (run (agent_frame 4) (CAgent ["n"; "ag"]) d) = RAgent 4 (Some ["name"; "node_id"; "age"]) /\ frame_agent (agent_frame 4) = Some 4.
Proof. vm_compute. auto. Qed.
(** C200.  Elsewhere it does not say that there is no agent: it shows one from before, or raises NameError. *)
Theorem C200_no_agent_refuted : ~ (forall model_of keys_of steps_of step_at l fr words, session_ok ((fr, CAgent words) :: l) -> frame_agent fr = None ->
  snd (run_dcmd model_of keys_of steps_of step_at fr (CAgent words) (session model_of keys_of steps_of step_at l new_dbg)) = RSaid "No agent available").
Proof.
  intros H. specialize (H (fun _ => 1) (fun _ => []) (fun _ => 0) (fun _ => 0) [(agent_frame 7, CList)] (model_frame 2) []).
  cbn in H. assert (X : RAgent 7 None = RSaid "No agent available"); [|discriminate X]. apply H; [|reflexivity].
  intros fr c [E|[E|[]]]; injection E as <- <-; (split; [|reflexivity]); split; cbn; repeat constructor; auto.
Qed.
Print Assumptions C200_no_agent_refuted.
(** It never says so, unless some frame calls None [agent]; at the start it raises NameError. *)
Theorem C200_never_says : forall model_of keys_of steps_of step_at l fr words, (forall fr' c, In (fr', c) ((fr, CAgent words) :: l) -> frame_ok fr' /\ lookup fr' "agent" <> Some VNone) ->
  forall what, snd (run_dcmd model_of keys_of steps_of step_at fr (CAgent words) (session model_of keys_of steps_of step_at l new_dbg)) <> RSaid what.
Proof.
  intros model_of keys_of steps_of step_at l fr words H what. set (d := session model_of keys_of steps_of step_at l new_dbg).
  assert (A : dget "agent" (known (session model_of keys_of steps_of step_at [(fr, CAgent words)] d)) <> Some VNone).
  { apply agent_run; [intros fr' c [E|[]]; apply (H fr' c); now left|]. apply agent_run; [intros fr' c I; apply (H fr' c); now right|discriminate]. }
  cbn [session run_dcmd fst snd] in A |- *. unfold do_soil_agent. destruct (dget "agent" _) as [[]|]; congruence.
Qed.
Print Assumptions C200_never_says.
Theorem C200_name_error : forall model_of keys_of steps_of step_at fr words, frame_ok fr -> frame_agent fr = None -> lookup fr "agent" = None ->
  snd (run_dcmd model_of keys_of steps_of step_at fr (CAgent words) new_dbg) = RNameError "agent".
Proof.
  intros model_of keys_of steps_of step_at fr words F A N. cbn [run_dcmd snd]. unfold do_soil_agent. rewrite known_wrap by (auto; discriminate).
  rewrite !dget_learn, N by exact F. unfold frame_agent in A. destruct (lookup fr "self") as [[]|]; try discriminate A; reflexivity.
Qed.
Print Assumptions C200_name_error.

(** C201.  [break_state] cannot set breakpoints on states: it raises AttributeError if one of the classes has the state. *)
Theorem C201_break_state_refuted : ~ (forall scope find t temp d k, tg_class t = None -> In k scope -> k (tg_state t) = Some AState ->
  snd (do_break_state scope find t temp d) = RDone).
Proof. intros H. specialize (H [fun _ => Some AState] (fun _ => None) (Target None "ping" []) true new_dbg _ eq_refl (or_introl eq_refl) eq_refl). discriminate H. Qed.
Print Assumptions C201_break_state_refuted.
Theorem C201_no_state : forall scope find t temp d k, tg_class t = None /\ In k scope \/ (exists c, tg_class t = Some c /\ find c = Some k) ->
  k (tg_state t) = Some AState -> snd (do_break_state scope find t temp d) = RAttributeError "__code__" /\
  snd (do_continue_state scope find t d) = RAttributeError "__code__".
Proof.
  intros scope find t temp d k H S. assert (G : forall temp, snd (do_break_state scope find t temp d) = RAttributeError "__code__").
  { intros temp0. unfold do_break_state. destruct H as [[-> I]|(c & -> & ->)]; apply break_in_states; [exists k; auto|exists k; split; [now left|exact S]]. }
  split; [apply G|]. unfold do_continue_state. specialize (G true). destruct (do_break_state scope find t true d) as [d' r]. cbn [snd] in G. rewrite G. reflexivity.
Qed.
Print Assumptions C201_no_state.
Theorem C201_no_state_self : forall find c a state d k, find c = Some k -> k state = Some AState ->
  snd (do_break_state_self find (Some (c, a)) state d) = RAttributeError "__code__".
Proof. intros find c a state d k F S. cbn. unfold do_break_state. cbn. rewrite F. cbn. now rewrite S. Qed.
Print Assumptions C201_no_state_self.
(** It works for methods that are not states, in all classes or in the one that is given: there is a breakpoint in every one of them that has
    the method, the new ones are for the given agents, and the old ones are kept. *)
Definition targeted (scope : list class) (find : string -> option class) (t : target) (ks : list class) : Prop :=
  (tg_class t = None /\ ks = scope) \/ exists c k, tg_class t = Some c /\ find c = Some k /\ ks = [k].
Theorem C201_break_state_partial : forall scope find t temp d ks, targeted scope find t ks -> (forall k, In k ks -> k (tg_state t) <> Some AState) ->
  let d' := fst (do_break_state scope find t temp d) in
  snd (do_break_state scope find t temp d) = RDone /\ (forall k l, In k ks -> k (tg_state t) = Some (AFun l) -> broken d' l) /\
  exists new, bps d' = bps d ++ new /\ forall b, In b new -> bp_temp b = temp /\ bp_ids b = tg_ids t /\ bp_steps b = None /\ ~ broken d (bp_at b) /\
    exists k, In k ks /\ k (tg_state t) = Some (AFun (bp_at b)).
Proof.
  intros scope find t temp d ks C H d'. subst d'.
  assert (R : do_break_state scope find t temp d = break_in ks (tg_state t) (tg_ids t) temp d).
  { unfold do_break_state. destruct C as [[-> ->]|(c & k & -> & -> & ->)]; reflexivity. }
  rewrite R. destruct (break_in_functions ks (tg_state t) (tg_ids t) temp d H) as [A B].
  split; [exact A|]. split; [exact B|]. destruct (break_in_keeps ks (tg_state t) (tg_ids t) temp d) as (new & E & _ & N). exists new. split; [exact E|].
  intros b I. destruct (N b I) as (X & Y & Z). rewrite X. cbn. auto.
Qed.
Print Assumptions C201_break_state_partial.
(** [break_state_self] is for the agent of the frame only, and a class that is not found is a NameError without effect. *)
Theorem C201_self_partial : forall find c a state d k l, find c = Some k -> k state = Some (AFun l) ->
  snd (do_break_state_self find (Some (c, a)) state d) = RDone /\
  bps (fst (do_break_state_self find (Some (c, a)) state d)) = bps d ++ (if existsb (fun b => Nat.eqb (bp_at b) l) (bps d) then [] else [Bp l false [a] None]) /\
  (forall scope t temp c', tg_class t = Some c' -> find c' = None -> do_break_state scope find t temp d = (d, RNameError c')).
Proof.
  intros find c a state d k l F S. cbn. unfold do_break_state. cbn. rewrite F. cbn. rewrite S.
  split; [|split].
  - now destruct (existsb _ (bps d)).
  - destruct (existsb _ (bps d)); cbn; [now rewrite app_nil_r|reflexivity].
  - intros scope t temp c' T N. now rewrite T, N.
Qed.
Print Assumptions C201_self_partial.
Example C201_case : let a : class := fun x => if (x =? "step")%string then Some (AFun 10) else None in
  let b : class := fun x => if (x =? "step")%string then Some (AFun 20) else Some AState in
  bps (fst (do_break_state [a; b; a] (fun _ => None) (Target None "step" [3]) false new_dbg)) = [Bp 10 false [3] None; Bp 20 false [3] None] /\
  snd (do_break_state [a; b] (fun _ => None) (Target None "ping" [3]) false new_dbg) = RAttributeError "__code__".
Proof. vm_compute. auto. Qed.

(** C202.  [break_step], given between the steps of the model, does not stop before the next step: its condition asks for more steps than have been
    made already. *)
Definition idle : user unit := User unit (fun _ _ w => (w, [], Ret None)) (fun l w => (w, l)).
Theorem C202_break_step_refuted : ~ (forall (AR : Arith) W (u : user W) model_of keys_of steps_of step_at fr d m s w k,
  frame_ok fr -> frame_model model_of fr = Some m -> s_steps s = steps_of m -> snd (run_dcmd model_of keys_of steps_of step_at fr CBreakStep d) = RContinue ->
  exists b, In b (bps (fst (run_dcmd model_of keys_of steps_of step_at fr CBreakStep d))) /\ bp_at b = step_at m /\ stops u b (S k) s w = Some 0).
Proof.
  intros H. destruct (H exact unit idle (fun _ => 0) (fun _ => []) (fun _ => 0) (fun _ => 0) (model_frame 2) new_dbg 2 (timed_init true (Fin 1)) tt 3) as (b & I & _ & X).
  - split; cbn; repeat constructor; auto.
  - reflexivity.
  - reflexivity.
  - reflexivity.
  - destruct I as [<-|[]]. vm_compute in X. discriminate X.
Qed.
Print Assumptions C202_break_step_refuted.
(** For all models: it stops before the step after the next one if agents are due, and never if none are left; given inside of a step it stops before
    the next one.  In the code of an agent it can raise KeyError. *)
Theorem C202_break_step_partial : forall (AR : Arith) W (u : user W) model_of keys_of steps_of step_at fr d m s w k,
  frame_ok fr -> lookup fr "model" = Some (VModel m) -> (forall b, In b (bps d) -> bp_at b <> step_at m) ->
  let b := Bp (step_at m) true [] (Some (steps_of m)) in
  run_dcmd model_of keys_of steps_of step_at fr CBreakStep d = (Dbg (learn fr (known d)) (bps d ++ [b]), RContinue) /\
  (s_steps s = steps_of m ->
    (forall k, stops u b k s w <> Some 0) /\
    (s_queue s = [] -> stops u b k s w = None) /\
    (forall t bk q s1 w1 tr, s_queue s = (t, bk) :: q -> n_ltb (s_time s) t = false -> timed_step u s w = (s1, w1, tr, false) -> stops u b (S (S k)) s w = Some 1)) /\
  (s_steps s = S (steps_of m) -> stops u b (S k) s w = Some 0).
Proof.
  intros AR W u model_of keys_of steps_of step_at fr d m s w k F M N b. split; [|split].
  - cbn [run_dcmd]. unfold do_break_step. cbn [known set_known bps]. rewrite dget_learn, M by exact F.
    destruct (existsb _ (bps d)) eqn:X; [|reflexivity]. apply existsb_exists in X as (b0 & I & E). apply Nat.eqb_eq in E. destruct (N b0 I E).
  - intros E. unfold b. rewrite <- E. split; [|split].
    + intros k0. destruct k0 as [|k0]; [discriminate|]. cbn [stops hit bp_steps]. rewrite Nat.ltb_irrefl. destruct (timed_step u s w) as [[[s1 w1] tr1] []]; [discriminate|].
      destruct (stops u _ k0 s1 w1); discriminate.
    + intros Q. now apply stop_never.
    + intros t bk q s1 w1 tr Q L T. eapply stop_later; [exact T|]. eapply due_steps; eauto.
  - intros E. unfold b. cbn [stops hit bp_steps]. rewrite E. destruct (Nat.ltb_spec (steps_of m) (S (steps_of m))); [reflexivity|lia].
Qed.
Print Assumptions C202_break_step_partial.
Theorem C202_agent_refuted : ~ (forall model_of keys_of steps_of step_at fr m, frame_ok fr -> frame_model model_of fr = Some m ->
  snd (run_dcmd model_of keys_of steps_of step_at fr CBreakStep new_dbg) = RContinue).
Proof.
  intros H. specialize (H (fun _ => 1) (fun _ => []) (fun _ => 0) (fun _ => 0) (agent_frame 7) 1). vm_compute in H.
  assert (X : RKeyError "model" = RContinue); [|discriminate X]. apply H; [split; repeat constructor; auto|reflexivity].
Qed.
Print Assumptions C202_agent_refuted.
Example C202_case : let s := timed_add (timed_init true (Fin 1)) 1 None in
  stops (AR := exact) idle (Bp 0 true [] (Some 0)) 5 s tt = Some 1 /\ stops (AR := exact) idle (Bp 0 true [] (Some 3)) 9 s tt = Some 4.
Proof. vm_compute. auto. Qed.

(** C203.  The options of [set_trace] and [post_mortem] are used only the first time, [skip] cannot be given, and [post_mortem] does not look at the
    traceback it is given. *)
Theorem C203_options_refuted : ~ (forall debugger skip_soil fr caller, exists shown,
  snd (set_trace debugger (Opts skip_soil None) fr caller) = Some shown /\ (skip_soil = true <-> In "soil" (fst shown))).
Proof. intros H. destruct (H (Some []) true None 0) as (shown & E & X). cbn in E. injection E as <-. destruct (proj1 X eq_refl). Qed.
Print Assumptions C203_options_refuted.
Theorem C203_options_partial : forall skip_soil fr caller debugger, exists shown,
  snd (set_trace None (Opts skip_soil None) fr caller) = Some shown /\ (skip_soil = true <-> In "soil" (fst shown)) /\
  snd shown = AtFrame (match fr with Some f => f | None => caller end) /\
  forall o, set_trace (Some debugger) o fr caller = (Some debugger, Some (debugger, snd shown)).
Proof.
  intros skip_soil fr caller debugger. eexists. split; [reflexivity|]. split; [|split; reflexivity].
  destruct skip_soil; cbn; [tauto|]. split; intros X; [discriminate X|destruct X].
Qed.
Print Assumptions C203_options_partial.
Theorem C203_skip_refuted : ~ (forall l fr caller, exists shown, snd (set_trace None (Opts false (Some l)) fr caller) = Some shown /\ incl l (fst shown)).
Proof. intros H. destruct (H [] None 0) as (shown & E & _). discriminate E. Qed.
Print Assumptions C203_skip_refuted.
Theorem C203_traceback_refuted : ~ (forall debugger t handled, snd (post_mortem (Some debugger) (Opts false None) (Some t) handled) = Some (debugger, AtTraceback (Some t))).
Proof. intros H. specialize (H [] 1 None). discriminate H. Qed.
Print Assumptions C203_traceback_refuted.
Example C203_case : snd (set_trace None (Opts true None) None 4) = Some (["soil"; "contextlib"; "soil.*"; "mesa.*"], AtFrame 4) /\
  snd (post_mortem None (Opts false None) None (Some 3)) = Some ([], AtTraceback (Some 3)).
Proof. auto. Qed.
