(** C271: agents that cannot be created. *)
From Coq Require Import List Bool Arith String Lia.
From Verif Require Import PyDict ConstructModel ConstructSpec ConstructProofs ConstructProps.
Import ListNotations.
Local Open Scope list_scope.

(** The class cannot begin in the state that is asked for: it has no such state, or none is given and there is no default
    one although there are several. *)
Definition no_such_state (states : list string) (default s : option string) : Prop :=
  match s with Some x => ~ In x states | None => default = None /\ 1 < List.length states end.

Lemma quiet_passes states default self pick user_init pre m s n o w r : Forall passes_on pre ->
  construct states default self pick user_init m (Args (Some false) s n) o w = (r, []) ->
  exists r', construct states default self pick user_init (pre ++ m) (Args (Some false) s n) o w = (r', []) /\
  fst r' = fst r /\ match snd r with inr e => snd r' = inr e | inl _ => exists o', snd r' = inl o' end.
Proof.
  intros F E. destruct (passed states default self pick user_init pre m (Args (Some false) s n) o w F) as [P1 P2].
  rewrite E in P1, P2. destruct (construct states default self pick user_init (pre ++ m) _ o w) as [r' t]. cbn [fst snd] in *. subst t.
  exists r'. split; [reflexivity|]. destruct r as [w1 [o1|e]]; subst r'; cbn [fst snd]; eauto.
Qed.
Lemma quiet_end states default self pick user_init post s n o w : Forall passes_on post ->
  exists o', construct states default self pick user_init post (Args (Some false) s n) o w = ((w, inl o'), []).
Proof.
  intros F. destruct (quiet_passes states default self pick user_init post [] s n o w _ F eq_refl) as ([w' x] & E & W & X).
  rewrite app_nil_r in E. cbn in W, X. destruct X as (o' & X). cbn [snd] in X. subst x w'. eauto.
Qed.
Lemma bad_state states default self pick user_init post s n o w : Forall passes_on post -> no_such_state states default s ->
  construct states default self pick user_init (PFsm :: post) (Args (Some false) s n) o w = ((w, inr CValueError), []).
Proof.
  intros F B. cbn [construct a_state a_node]. destruct (quiet_end states default self pick user_init post None n o w F) as (o' & ->).
  unfold finish, set_up_state. cbn [a_state a_init]. destruct s as [s|]; cbn in B.
  - destruct (existsb (String.eqb s) states) eqn:X; [|reflexivity]. apply existsb_exists in X as (y & Y & EQ).
    apply String.eqb_eq in EQ. now subst.
  - destruct B as [-> L]. apply Nat.ltb_lt in L. now rewrite L.
Qed.
Lemma new_agent_refused states default self pick user_init pre p m b s n w w' e : Forall passes_on pre -> p = PNet \/ p = PFsm ->
  construct states default self pick user_init (p :: m) (Args (Some false) s n) blank w = ((w', inr e), []) ->
  new_agent (pre ++ p :: m) states default self pick user_init (Args b s n) w = ((w', inr e), []).
Proof.
  intros F NP E. unfold new_agent.
  assert (D : b = Some false \/ b <> Some false) by (destruct b as [[|]|]; auto; right; discriminate).
  destruct D as [->|NB].
  - destruct (quiet_passes states default self pick user_init pre _ s n blank w _ F E) as ([w2 x] & E2 & W & X). cbn [fst snd] in *. now subst.
  - pose proof (with_init states default self pick user_init pre (p :: m) b s n w F NP NB) as Q.
    destruct (construct _ _ _ _ _ (pre ++ p :: m) _ _ _) as [r t]. rewrite E in Q. cbn [fst] in Q.
    destruct Q as [(-> & w2 & e2 & -> & X)|(o & w2 & _ & _ & X & _)]; [|discriminate X]. injection X as -> ->. reflexivity.
Qed.

(** C271: if NetworkAgent comes before FSM, as in soil.agents.Agent, an agent that cannot have its state is refused with
    ValueError, its method [init] is not called, and the model is as it was. *)
Theorem C271_no_trace_partial : forall pre mid post states default self pick user_init b s n w,
  Forall passes_on pre -> Forall passes_on mid -> Forall passes_on post -> no_such_state states default s ->
  new_agent (pre ++ PNet :: mid ++ PFsm :: post) states default self pick user_init (Args b s n) w = ((w, inr CValueError), []) /\
  add_agent (pre ++ PNet :: mid ++ PFsm :: post) states default self pick user_init b s n w = (w, inr CValueError).
Proof.
  intros pre mid post states default self pick user_init b s n w F1 F2 F3 B.
  assert (X : new_agent (pre ++ PNet :: mid ++ PFsm :: post) states default self pick user_init (Args b s n) w = ((w, inr CValueError), [])).
  { apply new_agent_refused; auto. cbn [construct a_state a_node].
    destruct (quiet_passes states default self pick user_init mid _ s None blank w _ F2
      (bad_state states default self pick user_init post s None blank w F3 B)) as ([w2 x] & -> & W & X). cbn [fst snd] in *. now subst. }
  split; auto. unfold add_agent. now rewrite X.
Qed.
Print Assumptions C271_no_trace_partial.
(** The same for nodes that do not exist, in either order, if the state is fine: KeyError. *)
Theorem C271_no_node_partial : forall pre mid post states default self pick user_init b s k w p q,
  (p = PNet /\ q = PFsm) \/ (p = PFsm /\ q = PNet) ->
  Forall passes_on pre -> Forall passes_on mid -> Forall passes_on post -> ~ no_such_state states default s ->
  dhas k (cw_nodes w) = false ->
  add_agent (pre ++ p :: mid ++ q :: post) states default self pick user_init b s (Some k) w = (w, inr CKeyError).
Proof.
  intros pre mid post states default self pick user_init b s k w p q PQ F1 F2 F3 B K. unfold add_agent.
  rewrite (new_agent_refused states default self pick user_init pre p (mid ++ q :: post) b s (Some k) w w CKeyError); [reflexivity|auto|tauto|].
  destruct PQ as [[-> ->]|[-> ->]]; cbn [construct a_state a_node].
  - assert (X : exists o', construct states default self pick user_init (PFsm :: post) (Args (Some false) s None) blank w = ((w, inl o'), [])).
    { cbn [construct a_state a_node]. destruct (quiet_end states default self pick user_init post None None blank w F3) as (o' & ->).
      unfold finish, set_up_state. cbn [a_state a_init]. destruct s as [s|]; cbn in B.
      - destruct (existsb (String.eqb s) states) eqn:X; [rewrite andb_false_r; eauto|]. elim B. intros I.
        assert (existsb (String.eqb s) states = true) by (apply existsb_exists; exists s; split; auto; apply String.eqb_refl). congruence.
      - destruct default; [rewrite andb_false_r; eauto|]. destruct (Nat.ltb_spec 1 (List.length states)); [elim B; split; [reflexivity|lia]|]. eexists. reflexivity. }
    destruct X as (o' & X).
    destruct (quiet_passes states default self pick user_init mid _ s None blank w _ F2 X) as ([w2 x] & -> & W & Y). cbn [fst snd] in *.
    destruct Y as (o2 & ->). subst w2. unfold finish, set_up_node. cbn [a_node]. now rewrite K.
  - assert (X : construct states default self pick user_init (PNet :: post) (Args (Some false) None (Some k)) blank w = ((w, inr CKeyError), [])).
    { cbn [construct a_state a_node]. destruct (quiet_end states default self pick user_init post None None blank w F3) as (o' & ->).
      unfold finish, set_up_node. cbn [a_node]. now rewrite K. }
    destruct (quiet_passes states default self pick user_init mid _ None (Some k) blank w _ F2 X) as ([w2 x] & -> & W & Y). cbn [fst snd] in *.
    now subst.
Qed.
Print Assumptions C271_no_node_partial.
(** C271 is false for FSM before NetworkAgent, as in examples/newsspread, pubcrawl and rabbits: the agent that is refused has
    the node, whoever had it before, and is not in the schedule. *)
Theorem C271_takes_the_node_refuted : forall pre mid post states default self pick user_init b s k w,
  Forall passes_on pre -> Forall passes_on mid -> Forall passes_on post -> no_such_state states default s ->
  dhas k (cw_nodes w) = true ->
  exists w', add_agent (pre ++ PFsm :: mid ++ PNet :: post) states default self pick user_init b s (Some k) w = (w', inr CValueError) /\
  cw_sched w' = cw_sched w /\ dget k (cw_nodes w') = Some (Some self) /\
  forall j, j <> k -> dget j (cw_nodes w') = dget j (cw_nodes w).
Proof.
  intros pre mid post states default self pick user_init b s k w F1 F2 F3 B K.
  exists (CWorld (dset k (Some self) (cw_nodes w)) (cw_sched w)). split.
  - unfold add_agent.
    rewrite (new_agent_refused states default self pick user_init pre PFsm (mid ++ PNet :: post) b s (Some k) w
      (CWorld (dset k (Some self) (cw_nodes w)) (cw_sched w)) CValueError); [reflexivity|auto|auto|].
    assert (X : exists o', construct states default self pick user_init (PNet :: post) (Args (Some false) None (Some k)) blank w =
      ((CWorld (dset k (Some self) (cw_nodes w)) (cw_sched w), inl o'), [])).
    { cbn [construct a_state a_node]. destruct (quiet_end states default self pick user_init post None None blank w F3) as (o' & ->).
      unfold finish, set_up_node. cbn [a_node]. rewrite K. cbn [a_init]. eauto. }
    destruct X as (o' & X). cbn [construct a_state a_node].
    destruct (quiet_passes states default self pick user_init mid _ None (Some k) blank w _ F2 X) as ([w2 x] & -> & W & Y). cbn [fst snd] in *.
    destruct Y as (o2 & ->). subst w2. unfold finish, set_up_state. cbn [a_state a_init]. destruct s as [s|]; cbn in B.
    + destruct (existsb (String.eqb s) states) eqn:Z; [|reflexivity]. apply existsb_exists in Z as (y & Y & EQ).
      apply String.eqb_eq in EQ. now subst.
    + destruct B as [-> L]. apply Nat.ltb_lt in L. now rewrite L.
  - cbn [cw_sched cw_nodes]. split; [reflexivity|]. rewrite dget_set, eqb_refl. split; [reflexivity|].
    intros j NE. rewrite dget_set. destruct (eqb j k) eqn:X; [|reflexivity]. apply eqb_eq in X. contradiction.
Qed.
Print Assumptions C271_takes_the_node_refuted.
(** Without a node, the agent that is refused has the one that was chosen for it, which may be new (soil/agents/network_agents.py:10-20). *)
Theorem C271_takes_some_node_refuted : forall pre mid post states default self pick user_init b s w,
  Forall passes_on pre -> Forall passes_on mid -> Forall passes_on post -> no_such_state states default s ->
  exists w', add_agent (pre ++ PFsm :: mid ++ PNet :: post) states default self pick user_init b s None w = (w', inr CValueError) /\
  cw_sched w' = cw_sched w /\ dget (pick w) (cw_nodes w') = Some (Some self) /\
  forall j, j <> pick w -> dget j (cw_nodes w') = dget j (cw_nodes w).
Proof.
  intros pre mid post states default self pick user_init b s w F1 F2 F3 B.
  set (w1 := CWorld (dset (pick w) (Some self) (cw_nodes w)) (cw_sched w)).
  exists w1. split.
  - unfold add_agent.
    rewrite (new_agent_refused states default self pick user_init pre PFsm (mid ++ PNet :: post) b s None w w1 CValueError); [reflexivity|auto|auto|].
    assert (X : exists o', construct states default self pick user_init (PNet :: post) (Args (Some false) None None) blank w = ((w1, inl o'), [])).
    { cbn [construct a_state a_node]. destruct (quiet_end states default self pick user_init post None None blank w F3) as (o' & ->).
      unfold finish, set_up_node. cbn [a_node a_init]. eauto. }
    destruct X as (o' & X). cbn [construct a_state a_node].
    destruct (quiet_passes states default self pick user_init mid _ None None blank w _ F2 X) as ([w2 x] & -> & W & Y). cbn [fst snd] in *.
    destruct Y as (o2 & ->). subst w2. unfold finish, set_up_state. cbn [a_state a_init]. destruct s as [s|]; cbn in B.
    + destruct (existsb (String.eqb s) states) eqn:Z; [|reflexivity]. apply existsb_exists in Z as (y & Y & EQ).
      apply String.eqb_eq in EQ. now subst.
    + destruct B as [-> L]. apply Nat.ltb_lt in L. now rewrite L.
  - unfold w1. cbn [cw_sched cw_nodes]. split; [reflexivity|]. rewrite dget_set, eqb_refl. split; [reflexivity|].
    intros j NE. rewrite dget_set. destruct (eqb j (pick w)) eqn:X; [|reflexivity]. apply eqb_eq in X. contradiction.
Qed.
Print Assumptions C271_takes_some_node_refuted.
Example C271_some_node_case :
  add_agent [PFsm; PNet] three_states None 8 (fun w => List.length (cw_nodes w)) no_init None None None two_nodes =
    (CWorld [(0, None); (1, Some 7); (2, Some 8)] [7], inr CValueError).
Proof. reflexivity. Qed.
(** soil.agents.Agent, and the order of examples/newsspread/newsspread_sim.py:8, with a state that does not exist, and
    without a default state. *)
Example C271_case :
  let add mro default s n := add_agent mro three_states default 8 (fun _ => 0) no_init None s (Some n) two_nodes in
  add soil_agent (Some "idle"%string) (Some "lost"%string) 1 = (two_nodes, inr CValueError) /\
  add soil_agent (Some "idle"%string) (Some "busy"%string) 5 = (two_nodes, inr CKeyError) /\
  add [PFsm; PNet] (Some "idle"%string) (Some "lost"%string) 1 = (CWorld [(0, None); (1, Some 8)] [7], inr CValueError) /\
  add [PFsm; PNet] None None 1 = (CWorld [(0, None); (1, Some 8)] [7], inr CValueError) /\
  no_such_state three_states (Some "idle"%string) (Some "lost"%string) /\ no_such_state three_states None None /\
  ~ no_such_state three_states (Some "idle"%string) (Some "busy"%string) /\
  soil_agent = [] ++ PNet :: [] ++ PFsm :: [PEvent].
Proof.
  repeat split; try reflexivity; cbn.
  - intros [X|[X|[X|[]]]]; discriminate.
  - lia.
  - intuition.
Qed.
