(** C131: the state of agents that have died. *)
From Coq Require Import ZArith List Bool Arith String Lia.
From Verif Require Import Num PyDict TimedModel AgentModel AgentSpec AgentProofs FsmModel FsmSpec FsmProofs FsmDieModel.
Import ListNotations.
Local Open Scope string_scope.

Lemma fops_last {F W} (s : sched) (ops : list (fop F)) op (w : fworld F W) w1 l1 : run_fops s ops w = (w1, l1) ->
  run_fops s (ops ++ [op]) w = let '(w2, l2) := run_fops s [op] w1 in (w2, (l1 ++ l2)%list).
Proof.
  revert w w1 l1. induction ops as [|o ops IH]; intros w w1 l1 E; cbn [app run_fops] in *.
  - injection E as <- <-. destruct op; reflexivity.
  - destruct o as [b|b v|o].
    + destruct (run_fops s ops _) as [w2 l2] eqn:E2. injection E as <- <-. rewrite (IH _ _ _ E2).
      destruct op; reflexivity.
    + apply IH; auto.
    + destruct (run_fops s ops w) as [w2 l2] eqn:E2. injection E as <- <-. rewrite (IH _ _ _ E2).
      destruct op; reflexivity.
Qed.

(** C131 is false for agents that are killed by others: whatever state they are in, they stay in it. *)
Theorem C131_killed_stays_refuted :
  forall F Q W (u : code F Q W) fs s a b wc q r g now states,
  b <> a -> running u a wc q -> (exists kind, fa_kind (fw_agents (fst wc) a) = KFsm kind) ->
  c_resume u s a q (fst wc) = (r, fst (fsm_die (AR := exact) now states b), g) ->
  let '(w', _, l, _) := agent_step u fs s a wc in
  l = [SRem b] /\ fa_alive (fw_agents w' b) = false /\ fa_cur (fw_agents w' b) = fa_cur (fw_agents (fst wc) b).
Proof.
  intros F Q W u fs s a b [w c] q r g now states NE R (kind & K) C. cbn [fst snd fsm_die] in *.
  assert (IN : inside u s a q w =
    match g with
    | GYield v q' => (upd (FWorld (fw_agents w) r) b (set_alive (fw_agents w b) false), [SRem b], GYield v (FIn q'))
    | GRaise d => (upd (FWorld (fw_agents w) r) b (set_alive (fw_agents w b) false), [SRem b], GRaise d)
    | GReturn v => let '(w2, g') := finish kind a (upd (FWorld (fw_agents w) r) b (set_alive (fw_agents w b) false)) v in (w2, [SRem b], g')
    end).
  { unfold inside. rewrite C. cbn [run_fops]. destruct g; auto. cbn [upd fw_agents].
    apply Nat.eqb_neq in NE. rewrite Nat.eqb_sym in NE. now rewrite NE, K. }
  set (w1 := upd (FWorld (fw_agents w) r) b (set_alive (fw_agents w b) false)) in *.
  assert (B : fa_alive (fw_agents w1 b) = false /\ fa_cur (fw_agents w1 b) = fa_cur (fw_agents w b)).
  { cbn. rewrite Nat.eqb_refl. auto. }
  assert (FI : forall v, fw_agents (fst (finish (Q := Q) kind a w1 v)) b = fw_agents w1 b).
  { intros v. apply Nat.eqb_neq in NE. unfold finish. destruct (unpack2 v) as [[x y]|].
    - destruct (set_state kind _ x); auto. cbn [fst upd fw_agents]. now rewrite NE.
    - destruct (set_state kind _ v); auto. cbn [fst upd fw_agents]. now rewrite NE. }
  assert (SG : forall fr, (fr = FIn q \/ fr = FStart /\ get_co c a = None) -> step_gen u s a fr w = inside u s a q w).
  { intros fr [->|[-> G]]; [reflexivity|]. destruct R as [(_ & A & st & CU & ->)|R]; cbn [fst snd] in *; [|congruence].
    cbn [step_gen]. rewrite K, A. cbn [negb]. now rewrite CU. }
  unfold agent_step, decorated. cbn [fst snd].
  assert (S0 : exists fr, match get_co c a with Some g0 => g0 | None => GSusp FStart end = GSusp fr /\
    step_gen u s a fr w = inside u s a q w).
  { destruct R as [(G & _)|G]; cbn [snd] in G; rewrite G; eexists; (split; [reflexivity|]); apply SG; auto. }
  destruct S0 as (fr & -> & S0). cbn [send]. rewrite S0, IN. destruct g as [v q'|v|d].
  - auto.
  - specialize (FI v). destruct (finish kind a w1 v) as [w2 g']. cbn [fst] in FI. destruct g' as [v2 q2|v2|d2]; try destruct d2; rewrite FI; auto.
  - destruct d; auto.
Qed.
Print Assumptions C131_killed_stays_refuted.

(** C131 if the agent itself returns [self.die()] from a state, at a finite instant: it is dead, in the
    state "dead" of its class, out of the schedule and never to be woken (the delay is infinite). *)
Theorem C131_return_die_partial :
  forall {AR : Arith} F Q W (u : code F Q W) fs s a wc q r ops states st v,
  fa_kind (fw_agents (fst wc) a) = KFsm states -> dget "dead" states = Some st ->
  running u a wc q -> n_add PInf (n_opp (s_time s)) = PInf ->
  snd (fsm_die (s_time s) states a) = Some v ->
  c_resume u s a q (fst wc) = (r, (ops ++ fst (fsm_die (s_time s) states a))%list, GReturn v) ->
  let '(w', c', l, o) := agent_step u fs s a wc in
  fa_alive (fw_agents w' a) = false /\ fa_cur (fw_agents w' a) = Some st /\
  dead_idle a (w', c') /\ In (SRem a) l /\ o = Ret (Some PInf).
Proof.
  intros AR F Q W u fs s a wc q r ops states st v K D R N V C.
  cbn [fsm_die fst snd] in *. rewrite D in V. cbn [option_map] in V. injection V as <-.
  destruct (resume_finish u fs s a wc q r _ _ states K R C) as (w1 & l & E1 & ->).
  destruct (run_fops s ops (FWorld (fw_agents (fst wc)) r)) as [w0 l0] eqn:E0.
  rewrite (fops_last _ _ _ _ _ _ E0) in E1. cbn [run_fops] in E1. injection E1 as <- <-.
  unfold finish, state_at. cbn [unpack2 set_state upd fw_agents]. rewrite Nat.eqb_refl. cbn [set_alive set_cur fa_cur fa_alive fa_kind].
  cbn [fa_alive fa_cur].
  split; [reflexivity|]. split; [reflexivity|]. split; [|split].
  - unfold dead_idle. cbn [fst snd upd fw_agents]. rewrite Nat.eqb_refl. cbn [fa_kind fa_alive set_cur set_alive].
    split; [|split; [reflexivity|]].
    + exists states. pose proof (run_fops_le s ops _ _ _ E0 a) as [K1 _]. cbn in K1. now rewrite K1.
    + left. now rewrite get_set_co, Nat.eqb_refl.
  - apply in_or_app. right. now left.
  - cbn. now rewrite N.
Qed.
Print Assumptions C131_return_die_partial.

(** The state of an agent that is not the one that runs, if the one that runs does not set it. *)
Lemma step_other_cur {F Q W} (u : code F Q W) fs s a b wc w' c' l o : b <> a ->
  (forall s b q w v, ~ In (FSet a v) (snd (fst (c_resume u s b q w)))) ->
  agent_step u fs s b wc = (w', c', l, o) -> fa_cur (fw_agents w' a) = fa_cur (fw_agents (fst wc) a).
Proof.
  intros NE N E.
  assert (FI : forall states w v, fw_agents (fst (finish (F := F) (Q := Q) (W := W) states b w v)) a = fw_agents w a).
  { intros states w v. apply Nat.eqb_neq in NE. rewrite Nat.eqb_sym in NE. unfold finish.
    destruct (unpack2 v) as [[x y]|].
    - destruct (set_state states _ x); auto. cbn [fst upd fw_agents]. now rewrite NE.
    - destruct (set_state states _ v); auto. cbn [fst upd fw_agents]. now rewrite NE. }
  assert (IN : forall q w w1 l1 g, inside u s b q w = (w1, l1, g) -> fa_cur (fw_agents w1 a) = fa_cur (fw_agents w a)).
  { intros q w w1 l1 g. unfold inside. specialize (N s b q w).
    destruct (c_resume u s b q w) as [[r ops] g0]. cbn [fst snd] in N.
    destruct (run_fops s ops (FWorld (fw_agents w) r)) as [w2 l2] eqn:E2.
    pose proof (run_fops_cur s ops a N _ _ _ E2) as CU. cbn [fw_agents] in CU.
    destruct g0 as [v q'|v|d].
    - intros X. injection X as <- <- <-. auto.
    - destruct (fa_kind (fw_agents w2 b)) as [states|f].
      + specialize (FI states w2 v). destruct (finish states b w2 v) as [w3 g']. intros X. injection X as <- <- <-.
        cbn [fst] in FI. now rewrite FI.
      + intros X. injection X as <- <- <-. auto.
    - intros X. injection X as <- <- <-. auto. }
  assert (SG : forall fr w w1 l1 g, step_gen u s b fr w = (w1, l1, g) -> fa_cur (fw_agents w1 a) = fa_cur (fw_agents w a)).
  { intros fr w w1 l1 g. unfold step_gen. destruct fr as [|q]; [|apply IN].
    destruct (fa_kind (fw_agents w b)) as [states|f]; [|apply IN].
    destruct (negb (fa_alive (fw_agents w b))); [intros X; injection X as <- <- <-; auto|].
    destruct (fa_cur (fw_agents w b)) as [st|]; [apply IN|intros X; injection X as <- <- <-; auto]. }
  unfold agent_step, decorated in E.
  destruct (match get_co (snd wc) b with Some g => g | None => GSusp FStart end) as [fr|]; cbn [send] in E.
  - destruct (step_gen u s b fr (fst wc)) as [[w1 l1] g] eqn:E1. apply SG in E1.
    destruct g as [v q|v|[]]; injection E as <- <- <- <-; auto.
  - injection E as <- <- <- <-. auto.
Qed.

(** C131: and it stays there, whatever happens, if nobody sets its state. *)
Theorem C131_for_ever_partial :
  forall {AR : Arith} F Q W (u : code F Q W) fs shuffle a st h s x s' x' tr,
  (forall s b q w v, ~ In (FSet a v) (snd (fst (c_resume u s b q w)))) ->
  let P := fun wc => dead_idle a wc /\ fa_cur (fw_agents (fst wc) a) = Some st in
  P x -> Forall (keeps P) h -> run_hist (agent_user u fs shuffle) h s x = (s', x', tr) -> P x'.
Proof.
  intros AR F Q W u fs shuffle a st h s x s' x' tr N P PX KH E.
  refine (hist_keeps P (agent_user u fs shuffle) _ h s x s' x' tr E KH PX). split.
  - intros s0 b wc [D CU]. cbn [agent_user u_step]. split; [now apply dead_step|].
    destruct (Nat.eq_dec b a) as [->|NE].
    + rewrite (dead_step_self fs u a s0 wc D). destruct (get_co (snd wc) a); exact CU.
    + destruct (agent_step u fs s0 b wc) as [[[w' c'] l] o] eqn:E1. cbn [fst].
      now rewrite (step_other_cur u fs s0 a b wc w' c' l o NE N E1).
  - intros l wc [D CU]. cbn [agent_user u_shuffle]. destruct (shuffle l (fw_rest (fst wc))). split; [exact D|exact CU].
Qed.
Print Assumptions C131_for_ever_partial.

(** Agents 1 and 2 are machines with states "live" and "dead"; agent 1 kills agent 2 and then returns
    [self.die()]. *)
Section Case.
Let live := State 0 "live" true.
Let dead := State 1 "dead" false.
Let states : dict string (state nat) := [("dead", dead); ("live", live)].
Let w : fworld nat nat := FWorld (fun _ => FAgent (KFsm states) true (Some live)) 7.
Let u (end_it : bool) : code nat nat nat :=
  Code (fun f => f) (fun s a q w =>
    if end_it then (fw_rest w, (FSched (SRem 3) :: fst (fsm_die (AR := exact) (s_time s) states a))%list,
      GReturn (match snd (fsm_die (AR := exact) (s_time s) states a) with Some v => v | None => PNone end))
    else (fw_rest w, fst (fsm_die (AR := exact) (s_time s) states 2), GReturn PNone)).
Let s : sched := Sched (Fin 5) 4 [] [1; 2; 3] false (Fin 1).
Example C131_killed_case :
  let '(w', _, l, o) := agent_step (u false) (fun _ => None) s 1 (w, no_cors) in
  l = [SRem 2] /\ fa_alive (fw_agents w' 2) = false /\ fa_cur (fw_agents w' 2) = Some live /\
  running (u false) 1 (w, no_cors) 0.
Proof.
  vm_compute. repeat split. left. repeat split. exists live. split; reflexivity.
Qed.
Example C131_die_case :
  let '(w', c', l, o) := agent_step (u true) (fun _ => None) s 1 (w, no_cors) in
  l = [SRem 3; SRem 1] /\ fa_cur (fw_agents w' 1) = Some dead /\ fa_alive (fw_agents w' 1) = false /\
  o = Ret (Some PInf) /\ n_add (Arith := exact) PInf (n_opp (s_time s)) = PInf.
Proof. vm_compute. auto. Qed.
End Case.
