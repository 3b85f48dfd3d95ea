(** C44, C45, C68 and C69: queries for agents. *)
From Coq Require Import List Bool Arith String Lia.
From Verif Require Import PyDict QueryModel QuerySpec QueryProofs.
Import ListNotations.
Local Open Scope string_scope.

(** Agents of the examples: id, class, state and two attributes. *)
Record thing := Thing { th_id : nat; th_class : nat; th_state : nat; th_colour : nat; th_size : nat }.
Definition th_attr (t : thing) (k : string) : nat :=
  if String.eqb k "colour" then th_colour t else if String.eqb k "size" then th_size t else 0.
Definition th_isinstance (t : thing) (c : nat) : bool := Nat.eqb (th_class t) c.
Definition things : list thing :=
  [Thing 3 0 1 5 7; Thing 4 1 1 5 8; Thing 9 0 2 6 7; Thing 1 0 1 5 7; Thing 2 0 1 6 8].
Notation find := (filter_agents Nat.eqb th_id th_state th_attr th_isinstance).
Notation fits := (matches Nat.eqb th_id th_state th_attr th_isinstance).

(** C44 is false with two attributes: only the last one counts (the closures of the loop
    read its variables when they are called). *)
Theorem C44_first_attribute_ignored_refuted :
  exists A V C veq (uid state_of : A -> V) attr (isinstance : A -> C -> bool) q agents,
  proper q /\
  ~ selects (matches veq uid state_of attr isinstance q) (q_limit q) agents
      (filter_agents veq uid state_of attr isinstance agents q).
Proof.
  exists thing, nat, nat, Nat.eqb, th_id, th_state, th_attr, th_isinstance,
    (Criteria [] None None None None None [("colour", One 5); ("size", One 8)]), things.
  split.
  - split; [|discriminate]. repeat constructor; simpl; intuition congruence.
  - intros S.
    assert (selects (fits (Criteria [] None None None None None [("colour", One 5); ("size", One 8)]))
              None things (cut None (filter (fun t => Nat.eqb (th_colour t) 5 && Nat.eqb (th_size t) 8) things))) as T.
    { apply selects_filter. intros t.
      rewrite andb_true_iff. unfold matches, meets, wanted. simpl. split.
      - intros [E1 E2]. split; [discriminate|]. split; [discriminate|]. split; [discriminate|].
        intros k l. destruct (eqb k "colour") eqn:K1.
        + apply eqb_eq in K1. subst. intros [= <-]. exists 5. simpl. auto.
        + destruct (eqb k "size") eqn:K2; [|discriminate].
          apply eqb_eq in K2. subst. intros [= <-]. exists 8. simpl. auto.
      - intros (_ & _ & _ & H). split.
        + destruct (H "colour" [5] eq_refl) as (x & [<-|[]] & E). exact E.
        + destruct (H "size" [8] eq_refl) as (x & [<-|[]] & E). exact E. }
    pose proof (selects_fun _ _ _ _ S _ T) as X. vm_compute in X. discriminate.
Qed.
Print Assumptions C44_first_attribute_ignored_refuted.

(** C44 is false for an empty list of ids: instead of nobody, everybody is selected. *)
Theorem C44_empty_list_of_ids_refuted :
  forall A V C veq (uid state_of : A -> V) attr (isinstance : A -> C -> bool) agents,
  filter_agents veq uid state_of attr isinstance agents
    (Criteria [] (Some (Many [])) None None None None []) = agents /\
  forall a, ~ matches veq uid state_of attr isinstance
                (Criteria [] (Some (Many [])) None None None None []) a.
Proof.
  intros. split; [reflexivity|]. intros a (I & _). destruct (I [] eq_refl) as (x & [] & _).
Qed.
Print Assumptions C44_empty_list_of_ids_refuted.

(** C44 otherwise, that is, with at most one attribute: the agents that satisfy all the
    criteria, in order, the first [limit] of them. *)
Theorem C44_exactly_the_matching_agents_partial :
  forall A V C veq (uid state_of : A -> V) attr (isinstance : A -> C -> bool) q agents,
  proper q -> wanted_ids q <> Some [] ->
  (forall k k', wanted q k <> None -> wanted q k' <> None -> k = k') ->
  selects (matches veq uid state_of attr isinstance q) (q_limit q) agents
    (filter_agents veq uid state_of attr isinstance agents q).
Proof. intros. now apply filter_one_attr. Qed.
Print Assumptions C44_exactly_the_matching_agents_partial.

(** What the code does for all criteria. *)
Theorem C44_criteria_as_understood :
  forall A V C veq (uid state_of : A -> V) attr (isinstance : A -> C -> bool) q agents,
  proper q ->
  selects (matches veq uid state_of attr isinstance (understood q)) (q_limit q) agents
    (filter_agents veq uid state_of attr isinstance agents q).
Proof. intros. now apply filter_exact. Qed.
Print Assumptions C44_criteria_as_understood.

(** The specification leaves no choice. *)
Theorem C44_the_selection_is_unique :
  forall A (P : A -> Prop) n l l1 l2, selects P n l l1 -> selects P n l l2 -> l1 = l2.
Proof. intros. eapply selects_fun; eauto. Qed.
Print Assumptions C44_the_selection_is_unique.

Example C44_not_vacuous :
  let q := Criteria [3; 1] (Some (Many [4; 2])) (Some (One 1)) (Some [0; 7])
             (Some [("colour", One 6)]) (Some 2) [("colour", Many [5; 0])] in
  proper q /\ wanted_ids q = Some [4; 2; 3; 1] /\ wanted q "colour" = Some [5; 0] /\
  (forall k k', wanted q k <> None -> wanted q k' <> None -> k = k') /\
  map th_id (find things q) = [3; 1].
Proof.
  split; [|split; [reflexivity|split; [reflexivity|split; [|reflexivity]]]].
  - split; [|intros d [= <-]]; repeat constructor; simpl; tauto.
  - assert (forall k, wanted (Criteria (C:=nat) [3; 1] (Some (Many [4; 2])) (Some (One 1)) (Some [0; 7])
             (Some [("colour", One 6)]) (Some 2) [("colour", Many [5; 0])]) k <> None -> k = "colour") as H.
    { intros k. unfold wanted. simpl. destruct (eqb k "colour") eqn:E; [|simpl; congruence].
      now apply eqb_eq in E. }
    intros k k' E E'. rewrite (H k E), (H k' E'). reflexivity.
Qed.

Example C44_understood_not_vacuous :
  map th_id (find things (Criteria [] None None None (Some [("colour", One 5)]) None [("size", One 7)]))
    = [3; 9; 1] /\
  map th_id (find things (Criteria [] None None None (Some [("size", One 7)]) None [("colour", One 5); ("size", One 1)]))
    = [3; 4; 1].
Proof. split; reflexivity. Qed.

(** C45 is false: a network agent that asks for an agent by its id gets everybody ... *)
Theorem C45_everybody_refuted :
  forall A V C veq (uid state_of : A -> V) attr (isinstance : A -> C -> bool) i registered,
  net_get_agents veq uid state_of attr isinstance registered
    (Criteria [] (Some (One i)) None None None None []) = registered.
Proof. intros. apply one_id_all. Qed.
Print Assumptions C45_everybody_refuted.

(** ... and the ids never make a difference. *)
Theorem C45_ids_never_matter_refuted :
  forall A V C veq (uid state_of : A -> V) attr (isinstance : A -> C -> bool) q q' registered,
  q_state_id q = q_state_id q' -> q_class q = q_class q' -> q_state q = q_state q' ->
  q_limit q = q_limit q' -> q_kwargs q = q_kwargs q' ->
  net_get_agents veq uid state_of attr isinstance registered q =
  net_get_agents veq uid state_of attr isinstance registered q'.
Proof. intros. now apply net_ignores_ids. Qed.
Print Assumptions C45_ids_never_matter_refuted.

(** C45 for the other agents. *)
Theorem C45_other_agents_partial :
  forall A V C veq (uid state_of : A -> V) attr (isinstance : A -> C -> bool) i registered b,
  In b (get_agents veq uid state_of attr isinstance registered
          (Criteria [] (Some (One i)) None None None None [])) <->
  In b registered /\ veq (uid b) i = true.
Proof. intros. apply base_by_id. Qed.
Print Assumptions C45_other_agents_partial.

Example C45_not_vacuous :
  let q := Criteria [] (Some (One 9)) None None None None [] in
  map th_id (get_agents Nat.eqb th_id th_state th_attr th_isinstance things q) = [9] /\
  map th_id (net_get_agents Nat.eqb th_id th_state th_attr th_isinstance things q) = [3; 4; 9; 1; 2].
Proof. split; reflexivity. Qed.

(** C68 is false for all populations: no id is ever found. *)
Theorem C68_lookup_by_id_refuted :
  forall A V in_set nth_of (registered : list A) (i : V),
  view_contains in_set registered (TheId i) = false /\
  view_getitem in_set nth_of registered (TheId i) = None.
Proof. split; reflexivity. Qed.
Print Assumptions C68_lookup_by_id_refuted.

(** C69 is false: the keyword arguments end up in the caller's dictionary. *)
Theorem C69_argument_changed_refuted :
  forall V C (q : criteria V C) d k v,
  proper q -> q_state q = Some d -> d <> [] -> dget k (q_kwargs q) = Some v ->
  exists d', state_after q = Some d' /\ dget k d' = Some v.
Proof. exact @state_changed. Qed.
Print Assumptions C69_argument_changed_refuted.

(** C69 without keyword arguments, or with an empty dictionary. *)
Theorem C69_argument_kept_partial :
  forall V C (q : criteria V C),
  q_kwargs q = [] \/ q_state q = Some [] -> state_after q = q_state q.
Proof. exact @state_kept. Qed.
Print Assumptions C69_argument_kept_partial.

(** A dictionary that is used for two queries: the second one finds less than it should. *)
Example C69_not_vacuous :
  let q1 := Criteria [] None None None (Some [("size", One 7)]) None [("colour", One 6)] in
  state_after (C:=nat) q1 = Some [("size", One 7); ("colour", One 6)] /\
  map th_id (find things (Criteria [] None None None (Some [("size", One 7)]) None [])) = [3; 9; 1] /\
  map th_id (find things (Criteria [] None None None (state_after (C:=nat) q1) None [])) = [9; 2].
Proof. repeat split. Qed.
