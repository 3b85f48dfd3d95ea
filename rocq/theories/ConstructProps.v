(** C154-C156: the construction of agents. *)
From Coq Require Import List Bool Arith String Lia.
From Verif Require Import PyDict ConstructModel ConstructSpec ConstructProofs.
Import ListNotations.
Local Open Scope list_scope.

(** soil.agents.Agent (soil/agents/__init__.py:685) and the agents of examples/cars/cars_sim.py. *)
Definition soil_agent : list part := [PNet; PFsm; PEvent].
Definition driver : list part := [PPlain; PEvent; PFsm].
Definition three_states : list string := ["dead"; "idle"; "busy"]%string.
Definition no_init (o : obj) (w : cworld) : out := (w, inl o).
Definition two_nodes : cworld := CWorld [(0, None); (1, Some 7)] [7].

(** C154: whatever the order of the classes, [init] is called once, unless the constructor is told
    not to, or raises before. *)
Theorem C154_init_once :
  forall mro states default self pick user_init b s n w r t,
  new_agent mro states default self pick user_init (Args b s n) w = (r, t) ->
  (b = Some false -> t = []) /\
  (b <> Some false -> (exists o, t = [o]) \/ (t = [] /\ exists w' e, r = (w', inr e))).
Proof.
  intros mro states default self pick user_init b s n w r t E.
  apply new_agent_cases in E as (pre & m & _ & _ & _ & E1 & E2). split; auto. intros NB.
  destruct (E2 NB) as [(-> & w' & e & -> & _)|(o & w' & -> & _)]; eauto.
Qed.
Print Assumptions C154_init_once.
(** The exception, if any, is that of [init] or one about the state or the node; in the first case the
    call of [init] is the last thing that happens. *)
Theorem C154_exceptions_of_init :
  forall mro states default self pick user_init b s n w w' e t o,
  new_agent mro states default self pick user_init (Args b s n) w = ((w', inr e), t) -> t = [o] ->
  exists w0, user_init o w0 = (w', inr e).
Proof.
  intros mro states default self pick user_init b s n w w' e t o E T.
  apply new_agent_cases in E as (pre & m & _ & _ & _ & E1 & E2). destruct b as [[|]|].
  2:{ rewrite E1 in T by auto. discriminate. }
  all: destruct E2 as [[-> _]|(o' & w0 & -> & _ & _ & E3)]; try discriminate; injection T as ->; exists w0;
    destruct (user_init o w0) as [w2 [o2|e2]]; congruence.
Qed.
Print Assumptions C154_exceptions_of_init.
Example C154_not_vacuous :
  let make b s := new_agent soil_agent three_states (Some "idle"%string) 8 (fun _ => 0) no_init (Args b s None) two_nodes in
  snd (make None None) = [Obj true true true (Some "idle"%string) (Some 0)] /\
  snd (make (Some false) None) = [] /\
  make None (Some "lost"%string) = ((two_nodes, inr CValueError), []) /\
  new_agent soil_agent three_states (Some "idle"%string) 8 (fun _ => 0) (fun _ w => (w, inr CUserError)) (Args None None (Some 1)) two_nodes =
    ((CWorld [(0, None); (1, Some 8)] [7], inr CUserError), [Obj true true true (Some "idle"%string) (Some 1)]).
Proof. repeat split; reflexivity. Qed.

(** C155: when [init] is called, the attributes, the node and the state are there, whatever the
    order of the classes. *)
Theorem C155_state_and_node_partial :
  forall mro states default self pick user_init b s n w r t o,
  new_agent mro states default self pick user_init (Args b s n) w = (r, t) -> In o t ->
  o_base o = true /\ o_alive o = true /\ has_node mro o /\ has_state mro default s o.
Proof.
  intros mro states default self pick user_init b s n w r t o E I.
  apply new_agent_cases in E as (pre & m & -> & F & _ & E1 & E2). destruct b as [[|]|].
  2:{ rewrite E1 in I by auto. destruct I. }
  all: destruct E2 as [[-> _]|(o' & w0 & -> & C & _)]; try discriminate; try (now destruct I); destruct I as [<-|[]];
    apply (complete_all states default pre m s n); auto.
Qed.
Print Assumptions C155_state_and_node_partial.
(** So is the inbox if a network agent or a state machine comes first, as in soil.agents.Agent. *)
Theorem C155_inbox_partial :
  forall pre p rest states default self pick user_init b s n w r t o,
  Forall (eq PPlain) pre -> p = PNet \/ p = PFsm ->
  new_agent (pre ++ p :: rest) states default self pick user_init (Args b s n) w = (r, t) -> In o t ->
  has_inbox (pre ++ p :: rest) o.
Proof.
  intros pre0 p rest states default self pick user_init b s n w r t o P0 NP E I.
  apply new_agent_cases in E as (pre & m & Q & F & H & E1 & E2).
  pose proof (plain_pre pre0 p rest pre m P0 NP Q F H) as NE. rewrite Q. intros J. apply in_app_or in J as [J|J]; [contradiction|].
  destruct b as [[|]|].
  2:{ rewrite E1 in I by auto. destruct I. }
  all: destruct E2 as [[-> _]|(o' & w0 & -> & C & _)]; try discriminate; try (now destruct I); destruct I as [<-|[]]; now apply C.
Qed.
Print Assumptions C155_inbox_partial.
(** C155 is false for all classes with EventedAgent first (or alone): [init] is called before there
    is an inbox. *)
Theorem C155_no_inbox_refuted :
  forall pre rest states default self pick user_init b s n w r t o,
  Forall (eq PPlain) pre -> ~ In PEvent rest ->
  new_agent (pre ++ PEvent :: rest) states default self pick user_init (Args b s n) w = (r, t) -> In o t ->
  o_inbox o = false.
Proof.
  intros pre0 rest states default self pick user_init b s n w r t o P0 NR E I.
  apply new_agent_cases in E as (pre & m & Q & F & H & E1 & E2).
  pose proof (event_first pre0 rest pre m P0 NR Q H) as NE.
  destruct b as [[|]|].
  2:{ rewrite E1 in I by auto. destruct I. }
  all: destruct E2 as [[-> _]|(o' & w0 & -> & C & _)]; try discriminate; try (now destruct I); destruct I as [<-|[]];
    destruct C as (_ & _ & _ & _ & _ & C & _); rewrite C by auto; reflexivity.
Qed.
Print Assumptions C155_no_inbox_refuted.
(** After the constructor everything is there, if [init] takes nothing away. *)
Theorem C155_afterwards_partial :
  forall mro states default self pick user_init b s n w w' o t,
  (forall o w w' o', user_init o w = (w', inl o') -> o' = o) ->
  new_agent mro states default self pick user_init (Args b s n) w = ((w', inl o), t) ->
  o_base o = true /\ o_alive o = true /\ has_node mro o /\ has_state mro default s o /\ has_inbox mro o.
Proof.
  intros mro states default self pick user_init b s n w w' o t K E.
  assert (D : b = Some false \/ b <> Some false) by (destruct b as [[|]|]; auto; right; discriminate).
  destruct D as [->|NB].
  - unfold new_agent in E. destruct (quiet states default self pick user_init mro s n blank w) as (r0 & Q & H).
    rewrite Q in E. injection E as -> _. destruct (H _ _ eq_refl) as (B & A & I & N & S & _). tauto.
  - apply new_agent_cases in E as (pre & m & -> & F & H & E1 & E2).
    destruct (E2 NB) as [[_ (? & ? & X & _)]|(o1 & w1 & _ & C & _ & X)]; [discriminate|].
    destruct (user_init o1 w1) as [w2 [o2|e2]] eqn:U; [|discriminate]. injection X as _ ->. apply K in U as ->.
    destruct (complete_all states default pre m s n o1 F C) as (B & A & N & S). cbn [o_base o_alive].
    split; [exact B|]. split; [exact A|]. split; [exact N|]. split; [exact S|].
    intros I. cbn [o_inbox]. apply in_app_or in I as [I|I]; [now rewrite has_in|]. destruct C as (_ & _ & C & _). now rewrite C, orb_true_r.
Qed.
Print Assumptions C155_afterwards_partial.
Example C155_not_vacuous :
  let make mro := new_agent mro three_states (Some "idle"%string) 8 (fun _ => 0) no_init (Args None None None) two_nodes in
  make soil_agent = ((CWorld [(0, Some 8); (1, Some 7)] [7], inl (Obj true true true (Some "idle"%string) (Some 0))),
    [Obj true true true (Some "idle"%string) (Some 0)]) /\
  make driver = ((two_nodes, inl (Obj true true true (Some "idle"%string) None)),
    [Obj true true false (Some "idle"%string) None]) /\
  driver = [PPlain] ++ PEvent :: [PFsm] /\ (forall o w w' o', no_init o w = (w', inl o') -> o' = o).
Proof. repeat split; try reflexivity. unfold no_init. congruence. Qed.

(** The [init] of an agent that gives up at once. *)
Definition dies (mro : list part) (self : nat) (o : obj) (w : cworld) : out :=
  let '(o', w') := die mro self o w in (w', inl o').

(** C156 is false: the agent is added to the schedule after its death. *)
Theorem C156_dead_and_scheduled_refuted :
  forall mro states default self pick b s w w' o, b <> Some false ->
  add_agent mro states default self pick (dies mro self) b s None w = (w', inl o) ->
  o_alive o = false /\ In self (cw_sched w').
Proof.
  intros mro states default self pick b s w w' o NB. unfold add_agent.
  destruct (new_agent _ _ _ _ _ _ _ _) as [[w1 [o1|e1]] t] eqn:E; cbn [fst]; [|discriminate].
  intros X. injection X as <- <-. split; [|cbn [cw_sched]; apply in_or_app; right; now left].
  apply new_agent_cases in E as (pre & m & -> & F & H & _ & E2).
  destruct (E2 NB) as [[_ (? & ? & X & _)]|(o2 & w2 & _ & C & _ & X)]; [discriminate|].
  unfold dies, die in X. destruct (die_from _ _ _ _) as [o3 w3] eqn:D. injection X as _ ->. cbn [o_alive].
  apply die_alive in D; auto. apply C.
Qed.
Print Assumptions C156_dead_and_scheduled_refuted.
(** For network agents with a node the call raises KeyError, because the node is gone (which ends
    [populate_network]), and the agent is in the schedule all the same. *)
Theorem C156_key_error_refuted :
  forall mro states default self pick b s n w w' r, b <> Some false -> In PNet mro ->
  dwf (cw_nodes w) -> dget n (cw_nodes w) <> None ->
  add_agent mro states default self pick (dies mro self) b s (Some n) w = (w', r) -> r <> inr CValueError ->
  r = inr CKeyError /\ dget n (cw_nodes w') = None /\ In self (cw_sched w').
Proof.
  intros mro states default self pick b s n w w' r NB NM W HN. unfold add_agent.
  destruct (new_agent _ _ _ _ _ _ _ _) as [[w1 x1] t] eqn:E; cbn [fst].
  apply new_agent_cases in E as (pre & m & Q & F & H & _ & E2).
  assert (NMM : In PNet m) by (subst mro; apply (in_app_pre pre m) in NM; auto).
  destruct (E2 NB) as [[_ (w2 & e & X & K)]|(o2 & w2 & _ & C & K & X)].
  - injection X as -> ->. intros X. injection X as <- <-. intros NV.
    destruct (quiet_keys states default self pick (dies mro self) m n s (Some n) blank w HN) as [_ V].
    rewrite K in V. elim NV. f_equal. now apply (V (or_intror eq_refl) w2).
  - unfold dies, die in X. destruct (die_from self mro o2 w2) as [o3 w3] eqn:D. injection X as -> ->.
    destruct C as (_ & A & _ & _ & _ & _ & _ & CN).
    destruct (quiet_world states default self pick (dies mro self) m s (Some n) blank w) as [_ WW]. rewrite K in WW. cbn [fst] in WW.
    apply (die_net self mro o2 w2 o3 w3 n) in D; auto. destruct D as [D _]. cbn [cw_nodes]. rewrite dhas_get, D.
    intros X. injection X as <- <-. intros _. cbn [cw_nodes cw_sched]. repeat split; auto. apply in_or_app. right. now left.
Qed.
Print Assumptions C156_key_error_refuted.
Example C156_not_vacuous :
  let add mro node := add_agent mro three_states (Some "idle"%string) 8 (fun _ => 0) (dies mro 8) None None node two_nodes in
  add driver None = (CWorld (cw_nodes two_nodes) [7; 8], inl (Obj true false true (Some "idle"%string) None)) /\
  add soil_agent (Some 0) = (CWorld [(1, Some 7)] [7; 8], inr CKeyError) /\
  dwf (cw_nodes two_nodes).
Proof. split; [reflexivity|]. split; [reflexivity|]. repeat constructor; cbn; intuition discriminate. Qed.
