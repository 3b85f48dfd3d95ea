(** The state in which a state machine starts: C115. *)
From Coq Require Import ZArith List Bool Arith String.
From Verif Require Import Num PyDict TimedModel AgentModel FsmModel FsmInitSpec FsmInitProofs.
Import ListNotations.
Local Open Scope string_scope.

(** C115: the state that is given as [state_id], by its name or as an object; other names and
    values are refused. *)
Theorem C115_given_state : forall F (c : cls (option (state F))),
  (forall n, fsm_init c (PStr n) =
     match dget n (fst (meta c)) with Some st => Some (Some st) | None => None end) /\
  (forall st, fsm_init c (PState st) = Some (Some st)) /\
  (forall v, (exists x, v = PNum x) \/ (exists l, v = PTuple l) \/ v = PObj -> fsm_init c v = None).
Proof. exact @init_given. Qed.
Print Assumptions C115_given_state.

(** C115: without [state_id], the last of the default states of the bases and of the class. *)
Theorem C115_default_state : forall F (c : cls (option (state F))) st,
  last_default (sources c) st -> fsm_init c PNone = Some (Some st).
Proof. exact @init_default. Qed.
Print Assumptions C115_default_state.

(** C115: if there is none, the agent cannot be created when its class has a state besides
    [dead], and has no state otherwise. *)
Theorem C115_without_default_state : forall F (c : cls (option (state F))),
  no_default (sources c) ->
  fsm_init c PNone = if (1 <? List.length (fst (meta c)))%nat then None else Some None.
Proof. exact @init_no_default. Qed.
Print Assumptions C115_without_default_state.
Theorem C115_a_default_state_is_needed : forall F i dead (own : list (option (state F))) st,
  no_default (written own) -> In st (written own) -> st_name st <> "dead" ->
  fsm_init (Cls i [fsm_class dead] own) PNone = None.
Proof. exact @init_needs_default. Qed.
Print Assumptions C115_a_default_state_is_needed.

(** C115: an agent that has no state raises (and is not taken for dead) when it is activated. *)
Theorem C115_no_state_no_step : forall F Q W (u : code F Q W) fs s a (wc : fworld F W * cors (frame Q)) states,
  fa_kind (fw_agents (fst wc) a) = KFsm states -> fa_alive (fw_agents (fst wc) a) = true ->
  fa_cur (fw_agents (fst wc) a) = None -> get_co (snd wc) a = None ->
  exists c, agent_step u fs s a wc = (fst wc, c, [], Exc).
Proof.
  intros F Q W u fs s a [w c] states K A C G. cbn [fst snd] in *.
  unfold agent_step, decorated. cbn [fst snd]. rewrite G. unfold send. cbn. rewrite K, A, C. cbn.
  eexists. reflexivity.
Qed.
Print Assumptions C115_no_state_no_step.

(** A class with a default state, one that inherits it, and one without any. *)
Definition fsm0 := fsm_class 0.
Definition lamp : cls (option (state nat)) :=
  Cls 1 [fsm0] [Some (State 1 "off" true); None; Some (State 2 "on" false)].
Definition lamp2 : cls (option (state nat)) := Cls 2 [lamp] [Some (State 3 "broken" false)].
Definition lamp3 : cls (option (state nat)) := Cls 3 [lamp] [Some (State 3 "broken" true)].
Definition bulb : cls (option (state nat)) := Cls 4 [fsm0] [Some (State 3 "broken" false)].
Example C115_not_vacuous :
  last_default (sources lamp2) (State 1 "off" true) /\ last_default (sources lamp3) (State 3 "broken" true) /\
  no_default (sources bulb) /\
  fsm_init lamp2 PNone = Some (Some (State 1 "off" true)) /\
  fsm_init lamp2 (PStr "on") = Some (Some (State 2 "on" false)) /\ fsm_init lamp2 (PStr "in") = None /\
  fsm_init lamp3 PNone = Some (Some (State 3 "broken" true)) /\
  fsm_init bulb PNone = None /\ fsm_init fsm0 PNone = Some None.
Proof.
  split; [|split; [|split; [|repeat split]]].
  - exists [State 0 "dead" false], [State 2 "on" false; State 3 "broken" false]. repeat split.
    cbn. intuition; subst; reflexivity.
  - exists [State 0 "dead" false; State 1 "off" true; State 2 "on" false], []. repeat split. intros ? [].
  - cbn. intros st H. cbn in H. intuition; subst; reflexivity.
Qed.
