(** C33-C36: state machines, overriding of states and death. *)
From Coq Require Import ZArith List Bool Arith String.
From Verif Require Import Num PyDict TimedModel TimedSpec AgentModel AgentSpec AgentProofs
  FsmModel FsmSpec FsmProofs.
Import ListNotations.
Local Existing Instance exact | 100.

(** A class with the states "on" (default) and "off", besides "dead".  Functions are
    numbers. *)
Definition st_dead : state nat := State 0 "dead" false.
Definition st_on : state nat := State 1 "one" true.
Definition st_off : state nat := State 2 "off" false.
Definition switch : cls (option (state nat)) := Cls 1 [fsm_class 0] [Some st_on; None; Some st_off].
Definition no_float (_ : string) : option num := None.
Definition no_shuffle {W} (l : list aid) (w : W) : W * list aid := (w, l).

(** A world in which every agent is of that class. *)
Definition switch_agent : fagent nat := FAgent (KFsm (fst (meta switch))) true (snd (meta switch)).
Definition switches {W} (w : W) : fworld nat W * cors (frame nat) :=
  (FWorld (fun _ => switch_agent) w, no_cors).

(** Simple functions: [ret f] is what function [f] returns, and the world counts the
    calls. *)
Definition simple (ret : nat -> pyval nat) : code nat nat nat :=
  Code (fun f => f) (fun _ _ f w => (S (fw_rest w), [], GReturn (ret f))).

(** C33 is false: a state of another class is accepted. *)
Theorem C33_foreign_state_refuted :
  exists F Q W (u : code F Q W) fs shuffle c st x h a,
  fa_kind (fw_agents (fst x) a) = KFsm (fst (meta c)) /\ fsm_init c PNone = Some (Some st) /\
  fa_cur (fw_agents (fst x) a) = Some st /\
  let '(s', x', tr) := run_hist (agent_user u fs shuffle) h (timed_init false (Fin 1)) x in
  no_exc tr /\ ~ declared (fw_agents (fst x') a).
Proof.
  exists nat, nat, nat, (simple (fun _ => PState (State 7 "alien" false))), no_float, no_shuffle,
    switch, st_on, (switches 0), [CAdd 0 None; CStep], 0.
  vm_compute. repeat split. intuition discriminate.
Qed.
Print Assumptions C33_foreign_state_refuted.

(** C33 if the state objects that are used are states of the class of the agent: the
    state is declared at the beginning, and always. *)
Theorem C33_initial_state_is_declared_partial :
  forall F (c : cls (option (state F))) v st, native (fst (meta c)) v ->
  fsm_init c v = Some (Some st) -> In (st_name st) (dkeys (fst (meta c))).
Proof. exact @init_declared. Qed.
Print Assumptions C33_initial_state_is_declared_partial.

Theorem C33_state_is_always_declared_partial :
  forall F Q W (u : code F Q W) fs {AR : Arith} kinds shuffle h s x s' x' tr,
  (forall b, keyed (kinds b)) -> own_states kinds u ->
  run_hist (agent_user u fs shuffle) h s x = (s', x', tr) ->
  Forall (keeps (fun wc => all_declared kinds (fst wc))) h ->
  all_declared kinds (fst x) -> all_declared kinds (fst x').
Proof. exact @always_declared. Qed.
Print Assumptions C33_state_is_always_declared_partial.

(** C33: the effect of the value returned by a state function, see [moves]. *)
Theorem C33_effect_of_the_returned_value :
  forall F Q W (u : code F Q W) fs s a wc q r ops v states cur' d,
  fa_kind (fw_agents (fst wc) a) = KFsm states -> running u a wc q ->
  c_resume u s a q (fst wc) = (r, ops, GReturn v) -> (forall v', ~ In (FSet a v') ops) ->
  moves states (fa_cur (fw_agents (fst wc) a)) v cur' d ->
  let '(w', c', l, o) := agent_step u fs s a wc in
  fa_cur (fw_agents w' a) = cur' /\ o = Ret d /\ get_co c' a = None.
Proof. exact @state_moves. Qed.
Print Assumptions C33_effect_of_the_returned_value.

(** C33: any other value is an error, and the state does not change. *)
Theorem C33_other_values_are_errors :
  forall F Q W (u : code F Q W) fs s a wc q r ops v states,
  fa_kind (fw_agents (fst wc) a) = KFsm states -> running u a wc q ->
  c_resume u s a q (fst wc) = (r, ops, GReturn v) -> (forall v', ~ In (FSet a v') ops) ->
  invalid states fs v ->
  let '(w', _, _, o) := agent_step u fs s a wc in
  o = Exc /\ fa_cur (fw_agents w' a) = fa_cur (fw_agents (fst wc) a).
Proof. exact @invalid_fails. Qed.
Print Assumptions C33_other_values_are_errors.

Example C33_other_values_not_vacuous :
  let wc := switches 0 in
  let u := simple (fun _ => PStr "nowhere") in
  running u 0 wc 1 /\ invalid (fst (meta switch)) no_float (PStr "nowhere") /\
  snd (agent_step u no_float (timed_init false (Fin 1)) 0 wc) = Exc.
Proof.
  split; [|split; [|reflexivity]].
  - left. repeat split. eexists. split; reflexivity.
  - apply iv_name; simpl; intuition discriminate.
Qed.

(** C33: after the start, the state of an agent is not changed by the others (the calls of
    [set_state] raise)... *)
Theorem C33_only_own_activations_change_the_state :
  forall F Q W (u : code F Q W) fs s a b wc,
  n_ltb (Fin 0) (s_time s) = true -> b <> a ->
  let '(w', _, _, _) := agent_step u fs s a wc in
  fa_cur (fw_agents w' b) = fa_cur (fw_agents (fst wc) b).
Proof. exact @late_others. Qed.
Print Assumptions C33_only_own_activations_change_the_state.

(** ... and before it [set_state] does what it says. *)
Theorem C33_set_state_at_the_start :
  forall F W s b v (w : fworld F W) states cur',
  n_ltb (Fin 0) (s_time s) = false ->
  fa_kind (fw_agents w b) = KFsm states -> target states (fa_cur (fw_agents w b)) v cur' ->
  exists w' l, run_fops s [FSet b v] w = (w', l) /\ fa_cur (fw_agents w' b) = cur' /\
  (forall c, c <> b -> fw_agents w' c = fw_agents w c).
Proof. exact @early_set. Qed.
Print Assumptions C33_set_state_at_the_start.

(** Agent 0 sends agent 1 to "off": it works at the start and not later. *)
Definition meddler : code nat nat nat :=
  Code (fun f => f) (fun _ a q w => (fw_rest w, [FSet 1 (PStr "off")], GReturn PNone)).
Definition at_time (t : Z) : sched := set_time (timed_init false (Fin 1)) (Fin t).
Example C33_set_state_not_vacuous :
  let cur t := option_map st_name (fa_cur (fw_agents
    (fst (fst (fst (agent_step meddler no_float (at_time t) 0 (switches 0))))) 1)) in
  cur 0%Z = Some "off"%string /\ cur 1%Z = Some "one"%string /\
  n_ltb (Fin 0) (s_time (at_time 1)) = true /\ n_ltb (Fin 0) (s_time (at_time 0)) = false /\
  target (fst (meta switch)) (Some st_on) (PStr "off") (Some st_off).
Proof. repeat split. now apply tg_name. Qed.

(** An agent that goes from "one" to "off" (by name, after 5) and back (by a state). *)
Definition blinker : code nat nat nat :=
  simple (fun f => if Nat.eqb f 1 then PTuple [PStr "off"; PNum (Fin 5)] else PState st_on).
Definition all_switch (_ : aid) : kind nat := KFsm (fst (meta switch)).
Example C33_not_vacuous :
  (forall b, keyed (all_switch b)) /\ own_states all_switch blinker /\
  all_declared all_switch (fst (switches 0)) /\
  fsm_init switch (PStr "off") = Some (Some st_off) /\
  let '(s', x', tr) := run_hist (agent_user blinker no_float no_shuffle)
    [CAdd 0 None; CStep; CStep; CStep] (timed_init false (Fin 1)) (switches 0) in
  acts tr = [(Fin 0, 0); (Fin 5, 0); (Fin 6, 0)] /\
  fa_cur (fw_agents (fst x') 0) = Some st_off /\ fw_rest (fst x') = 3.
Proof.
  split; [|split; [|split; [|split]]].
  - intros b n st E. now apply meta_keyed in E.
  - intros s a q w r ops o _ E. unfold blinker, simple in E. simpl in E.
    injection E as <- <- <-. split; [|contradiction].
    intros v states E K. injection E as <-. unfold all_switch in K. injection K as <-.
    destruct (Nat.eqb q 1); simpl; auto.
  - intros b. split; [reflexivity|]. vm_compute. auto.
  - reflexivity.
  - vm_compute. auto.
Qed.

(** All kinds of moves from "one". *)
Example C33_moves_not_vacuous :
  let states := fst (meta switch) in
  moves states (Some st_on) PNone (Some st_on) None /\
  moves states (Some st_on) (PState st_off) (Some st_off) None /\
  moves states (Some st_on) (PStr "off") (Some st_off) None /\
  moves states (Some st_on) (PNum (Fin 4)) (Some st_on) (Some (Fin 4)) /\
  moves states (Some st_on) (PTuple [PStr "dead"; PNum PInf]) (Some st_dead) (Some PInf) /\
  running blinker 0 (switches 0) 1.
Proof.
  repeat split; try (repeat constructor; intros; discriminate).
  - constructor; [now constructor|]. intros n E. injection E as <-. discriminate.
  - left. repeat split. exists st_on. auto.
Qed.

(** C34 is false for every name of two letters: the agent is not woken after the default
    interval, whatever the states are. *)
Theorem C34_two_letter_names_refuted :
  forall F Q W (u : code F Q W) fs s a wc q r ops n states,
  fa_kind (fw_agents (fst wc) a) = KFsm states -> running u a wc q ->
  c_resume u s a q (fst wc) = (r, ops, GReturn (PStr n)) -> String.length n = 2 ->
  snd (agent_step u fs s a wc) <> Ret None.
Proof. exact @two_letters. Qed.
Print Assumptions C34_two_letter_names_refuted.

(** If the first letter is not itself the name of a state, the step fails and the agent
    stays where it is. *)
Theorem C34_two_letter_names_fail_refuted :
  forall F Q W (u : code F Q W) fs s a wc q r ops c1 c2 states,
  fa_kind (fw_agents (fst wc) a) = KFsm states -> running u a wc q ->
  c_resume u s a q (fst wc) = (r, ops, GReturn (PStr (String c1 (String c2 EmptyString)))) ->
  (forall v', ~ In (FSet a v') ops) ->
  ~ In (String c1 EmptyString) (dkeys states) ->
  let '(w', _, _, o) := agent_step u fs s a wc in
  o = Exc /\ fa_cur (fw_agents w' a) = fa_cur (fw_agents (fst wc) a).
Proof. exact @two_letters_undeclared. Qed.
Print Assumptions C34_two_letter_names_fail_refuted.

Definition st_ok : state nat := State 3 "ok" false.
Definition short : cls (option (state nat)) := Cls 2 [fsm_class 0] [Some st_on; Some st_ok].
Example C34_two_letters_not_vacuous :
  let wc := (FWorld (fun _ => FAgent (KFsm (fst (meta short))) true (Some st_on)) 0, no_cors) in
  In "ok"%string (dkeys (fst (meta short))) /\
  running (simple (fun _ => PStr "ok")) 0 wc 1 /\
  snd (agent_step (simple (fun _ => PStr "ok")) no_float (timed_init false (Fin 1)) 0 wc) = Exc.
Proof.
  split; [simpl; auto|]. split; [|reflexivity]. left. repeat split. exists st_on. auto.
Qed.

(** C34 for all other names. *)
Theorem C34_other_names_partial :
  forall F Q W (u : code F Q W) fs s a wc q r ops n st states,
  fa_kind (fw_agents (fst wc) a) = KFsm states -> running u a wc q ->
  c_resume u s a q (fst wc) = (r, ops, GReturn (PStr n)) -> (forall v', ~ In (FSet a v') ops) ->
  dget n states = Some st -> String.length n <> 2 ->
  let '(w', c', l, o) := agent_step u fs s a wc in
  fa_cur (fw_agents w' a) = Some st /\ o = Ret None /\ get_co c' a = None.
Proof.
  intros F Q W u fs s a wc q r ops n st states K R C N D L.
  refine (state_moves u fs s a wc q r ops (PStr n) states (Some st) None K R C N _).
  constructor; [now constructor|]. intros n' E. injection E as <-. exact L.
Qed.
Print Assumptions C34_other_names_partial.

(** C35 is false: if a subclass redefines the default state without marking it as the
    default again, its agents start in the version of the base class... *)
Definition st_on2 : state nat := State 11 "one" false.
Definition sub_switch : cls (option (state nat)) := Cls 3 [switch] [Some st_on2].
Theorem C35_base_version_is_run_refuted :
  exists F (c : cls (option (state F))) n old new,
  st_name old = n /\ st_name new = n /\ st_fun old <> st_fun new /\
  own_state n (c_own c) = Some new /\ dget n (fst (meta c)) = Some new /\
  fsm_init c PNone = Some (Some old).
Proof.
  exists nat, sub_switch, "one"%string, st_on, st_on2. repeat split. discriminate.
Qed.
Print Assumptions C35_base_version_is_run_refuted.

(** ... and with two bases the version of the second one wins, even if it is the one that
    the first base overrides. *)
Definition other_switch : cls (option (state nat)) := Cls 4 [switch] [].
Definition both_switch : cls (option (state nat)) := Cls 5 [sub_switch; other_switch] [].
Theorem C35_last_base_wins_refuted :
  exists F (c : cls (option (state F))) l n,
  mro c = Some l /\ first_state n l <> None /\ dget n (fst (meta c)) <> first_state n l.
Proof.
  exists nat, both_switch, [both_switch; sub_switch; other_switch; switch; fsm_class 0], "one"%string.
  repeat split; discriminate.
Qed.
Print Assumptions C35_last_base_wins_refuted.

(** C35: what the code does for every hierarchy. *)
Theorem C35_table_of_states_partial :
  forall F i bases own n,
  dget n (fst (meta (F := F) (Cls i bases own))) =
  match own_state n own with
  | Some st => Some st
  | None => last_some (map (fun b => dget n (fst (meta b))) bases)
  end.
Proof. exact @meta_get. Qed.
Print Assumptions C35_table_of_states_partial.

(** C35 with single inheritance, for the table of states. *)
Theorem C35_single_inheritance_partial :
  forall F (c : cls (option (state F))) n l, line c = Some l -> NoDup (map c_id l) ->
  mro c = Some l /\ dget n (fst (meta c)) = first_state n l.
Proof. exact @states_single. Qed.
Print Assumptions C35_single_inheritance_partial.

(** C35: a state that the class itself marks as default is the initial one. *)
Theorem C35_own_default_partial :
  forall F i bases own st,
  own_default own = Some st -> snd (meta (F := F) (Cls i bases own)) = Some st.
Proof. exact @meta_default. Qed.
Print Assumptions C35_own_default_partial.

Example C35_not_vacuous :
  line sub_switch = Some [sub_switch; switch; fsm_class 0] /\
  NoDup (map c_id [sub_switch; switch; fsm_class 0]) /\
  dget "one"%string (fst (meta sub_switch)) = Some st_on2 /\
  dget "dead"%string (fst (meta sub_switch)) = Some st_dead /\
  own_default (c_own switch) = Some st_on.
Proof. repeat split. repeat constructor; simpl; intuition discriminate. Qed.

(** C36 is false for agents with a step of their own: agent 0 is killed by agent 1 and
    keeps being woken, and its code keeps being run. *)
Definition plain_world : fworld nat nat * cors (frame nat) :=
  (FWorld (fun b => FAgent (KPlain b) true None) 0, no_cors).
Definition killer : code nat nat nat :=
  Code (fun f => f)
    (fun _ a q w => if Nat.eqb a 1 then (fw_rest w, [FDie 0; FDie 1], GReturn (PNum PInf))
                    else (S (fw_rest w), [], GReturn PNone)).
Lemma killer_forward fs shuffle : (forall n d, fs n = Some d -> nonneg d = true) ->
  forward_only (agent_user killer fs shuffle).
Proof.
  intros FN. apply code_forward; auto. intros s a q w r ops o E. simpl in E.
  destruct (Nat.eqb a 1); injection E as <- <- <-; simpl; auto.
Qed.

Theorem C36_killed_agent_goes_on_refuted :
  exists F Q (u : code F Q nat) fs shuffle h1 h2 x a,
  forward_only (agent_user u fs shuffle) /\
  let '(s1, x1, tr1) := run_hist (agent_user u fs shuffle) h1 (timed_init false (Fin 1)) x in
  let '(s2, x2, tr2) := run_hist (agent_user u fs shuffle) h2 s1 x1 in
  no_exc (tr1 ++ tr2) /\ adds_of a (tr1 ++ tr2) = 1 /\
  fa_alive (fw_agents (fst x1) a) = false /\
  List.length (filter (act_of a) tr2) = 3 /\ fw_rest (fst x2) = fw_rest (fst x1) + 3.
Proof.
  exists nat, nat, killer, no_float, no_shuffle, [CAdd 0 None; CAdd 1 None; CStep],
    [CStep; CStep; CStep], plain_world, 0.
  split; [apply killer_forward; discriminate|]. vm_compute. repeat split.
Qed.
Print Assumptions C36_killed_agent_goes_on_refuted.

(** C36 is false for state machines that are suspended inside a state (a generator): the
    state goes on after the death of the agent. *)
Definition seq_killer : code nat nat nat :=
  Code (fun f => f)
    (fun _ a q w => if Nat.eqb a 1 then (fw_rest w, [FDie 0], GReturn (PTuple [PStr "dead"; PNum PInf]))
                    else (S (fw_rest w), [], GYield (PNum (Fin 1)) q)).
Theorem C36_suspended_state_goes_on_refuted :
  exists F Q (u : code F Q nat) fs shuffle h1 h2 x a,
  forward_only (agent_user u fs shuffle) /\
  (forall b, exists states, fa_kind (fw_agents (fst x) b) = KFsm states) /\
  let '(s1, x1, tr1) := run_hist (agent_user u fs shuffle) h1 (timed_init false (Fin 1)) x in
  let '(s2, x2, tr2) := run_hist (agent_user u fs shuffle) h2 s1 x1 in
  no_exc (tr1 ++ tr2) /\ adds_of a (tr1 ++ tr2) = 1 /\
  fa_alive (fw_agents (fst x1) a) = false /\
  List.length (filter (act_of a) tr2) = 3 /\ fw_rest (fst x2) = fw_rest (fst x1) + 3.
Proof.
  exists nat, nat, seq_killer, no_float, no_shuffle, [CAdd 0 None; CAdd 1 None; CStep],
    [CStep; CStep; CStep], (switches 0), 0.
  split; [|split; [intros b; eexists; reflexivity|vm_compute; repeat split]].
  apply code_forward; [|discriminate]. intros s a q w r ops o E. simpl in E.
  destruct (Nat.eqb a 1); injection E as <- <- <-; simpl; auto.
Qed.
Print Assumptions C36_suspended_state_goes_on_refuted.

(** C36 for state machines that are not suspended inside a state when they die: their code
    is never run again (whatever it is, nothing changes) ... *)
Theorem C36_code_of_the_dead_is_not_run_partial :
  forall F Q W fs {AR : Arith} (u v : code F Q W) shuffle a h s wc,
  same_but a u v -> dead_idle a wc -> Forall (keeps (dead_idle a)) h ->
  run_hist (agent_user u fs shuffle) h s wc = run_hist (agent_user v fs shuffle) h s wc.
Proof. exact @dead_code_not_run. Qed.
Print Assumptions C36_code_of_the_dead_is_not_run_partial.

(** ... and they are woken at most once. *)
Theorem C36_woken_at_most_once_partial :
  forall F Q W fs {AR : Arith} (u : code F Q W) shuffle a sh di h1 h2 x s1 x1 tr1 s2 x2 tr2,
  let U := agent_user u fs shuffle in
  let P := fun wc => dead_idle a wc /\ get_co (snd wc) a = None in
  forward_only U -> (sh = true -> fair_shuffle U) -> nonneg di = true ->
  run_hist U h1 (timed_init sh di) x = (s1, x1, tr1) ->
  run_hist U h2 s1 x1 = (s2, x2, tr2) ->
  no_exc (tr1 ++ tr2) -> adds_of a (tr1 ++ tr2) = 1 ->
  P x1 -> Forall (keeps P) h2 ->
  List.length (filter (act_of a) tr2) <= 1.
Proof. exact @dead_woken_once. Qed.
Print Assumptions C36_woken_at_most_once_partial.

(** Agent 0 is killed by agent 1 and woken once more; agent 2 goes on. *)
Definition fsm_killer : code nat nat nat :=
  Code (fun f => f)
    (fun _ a q w => if Nat.eqb a 1 then (fw_rest w, [FDie 0], GReturn (PTuple [PStr "dead"; PNum PInf]))
                    else (S (fw_rest w), [], GReturn PNone)).
Example C36_not_vacuous :
  let U := agent_user fsm_killer no_float no_shuffle in
  let P := fun wc : fworld nat nat * cors (frame nat) => dead_idle 0 wc /\ get_co (snd wc) 0 = None in
  forward_only U /\
  let '(s1, x1, tr1) := run_hist U [CAdd 0 None; CAdd 1 None; CAdd 2 None; CStep]
                          (timed_init false (Fin 1)) (switches 0) in
  let '(s2, x2, tr2) := run_hist U [CStep; CStep; CStep] s1 x1 in
  no_exc (tr1 ++ tr2) /\ adds_of 0 (tr1 ++ tr2) = 1 /\ P x1 /\
  filter (act_of 0) tr2 = [EvAct (Fin 1) 0 Dead] /\ fw_rest (fst x2) = 5.
Proof.
  split.
  - apply code_forward; [|discriminate]. intros s a q w r ops o E. simpl in E.
    destruct (Nat.eqb a 1); injection E as <- <- <-; simpl; auto.
  - vm_compute. repeat split; auto. eexists. reflexivity.
Qed.
