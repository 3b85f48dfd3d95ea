(** C157-C159: searches by position, subgraphs, and the export of networks with positions. *)
From Coq Require Import List Bool Arith Lia.
From Verif Require Import PyDict GeoModel GeoSpec GeoProofs.
Import ListNotations.

(** Four nodes in a plane, the last one without position; agent 9 is not of the network, agent 8 has
    left it. *)
Definition far (p q : nat * nat) : nat := (fst p - fst q) + (fst q - fst p) + (snd p - snd q) + (snd q - snd p).
Definition at_most (p q : nat * nat) (r : nat) : Prop := far p q <= r.
Definition tree (l : list (nat * nat)) (p : nat * nat) (r : nat) : list nat :=
  filter (fun i => match nth_error l i with Some q => far q p <=? r | None => false end) (seq 0 (List.length l)).
Lemma tree_finds : finds at_most tree.
Proof.
  intros l p r. split; [apply NoDup_filter, seq_NoDup|]. intros i. unfold tree. rewrite filter_In, in_seq. split.
  - intros [_ H]. destruct (nth_error l i) as [q|]; [|discriminate]. exists q. split; auto. now apply Nat.leb_le.
  - intros (q & Q & H). rewrite Q. split; [|now apply Nat.leb_le]. assert (i < List.length l) by (apply nth_error_Some; congruence). lia.
Qed.
Definition plane : gworld nat :=
  GWorld [(0, GNode (Some (0, 0)) None); (1, GNode (Some (1, 1)) None); (2, GNode (Some (5, 5)) None); (3, GNode None None)]
    [(0, 1); (1, 2); (2, 3)]
    (fun a => if a <? 4 then Some (Some a) else if Nat.eqb a 8 then Some None else None).

(** C157: an agent of the network with a position finds the nodes with agents that were asked for
    within the radius, all of them, each once, and its own only with [center]. *)
Theorem C157_nearby_partial :
  forall (P R : Type) (within : P * P -> P * P -> R -> Prop) ball, finds within ball ->
  forall (w : gworld P) self n p radius center selected, dwf (gw_nodes w) ->
  (forall a, In a selected -> networked w a) -> stands w self n -> lies w n p ->
  exists l, geo_search ball w self radius center selected = inl l /\ NoDup l /\
  forall m, In m l <-> (center = true \/ m <> n) /\
    exists q, lies w m q /\ within q p radius /\ exists a, (a = self \/ In a selected) /\ stands w a m.
Proof. intros P R within ball B. exact (search within ball B). Qed.
Print Assumptions C157_nearby_partial.
(** C157 is false for an agent whose own node has no position: KeyError as soon as another one has. *)
Theorem C157_no_position_refuted :
  forall (P R : Type) ball (w : gworld P) self n (radius : R) center selected a m q, dwf (gw_nodes w) ->
  (forall a, In a selected -> networked w a) -> stands w self n -> (forall p, ~ lies w n p) ->
  In a selected -> stands w a m -> lies w m q ->
  geo_search ball w self radius center selected = inr GKeyError.
Proof.
  intros P R ball w self n radius center selected a m q W S ST NL I SA L. unfold geo_search. unfold stands in ST. rewrite ST.
  unfold subgraph. cbn iota. destruct (node_ids_ok w (selected ++ [self])) as (r & E & K).
  { intros b J. apply in_app_or in J as [J|[<-|[]]]; auto. unfold networked. congruence. }
  rewrite E. destruct (nx_subgraph w r) as [g ed] eqn:G.
  pose proof (sub_positions w (selected ++ [self]) r W E K) as SP. rewrite G in SP. cbn [fst] in SP.
  assert (HM : In (m, q) (positions g)).
  { apply SP. split; auto. exists a. split; auto. apply in_or_app. now left. }
  assert (WG : dwf (positions g)).
  { apply positions_wf. unfold nx_subgraph in G. injection G as <- _. now apply filter_wf. }
  destruct (dget n (positions g)) as [p|] eqn:D.
  - exfalso. apply dget_In in D; auto. apply SP in D as [D _]. exact (NL p D).
  - destruct (positions g); [destruct HM|]. reflexivity.
Qed.
Print Assumptions C157_no_position_refuted.
Example C157_not_vacuous :
  finds at_most tree /\ dwf (gw_nodes plane) /\
  geo_search tree plane 0 2 false [0; 1; 2; 3; 8] = inl [1] /\ geo_search tree plane 0 2 true [1; 2; 3] = inl [0; 1] /\
  stands plane 0 0 /\ lies plane 0 (0, 0) /\ (forall a, In a [0; 1; 2; 3; 8] -> networked plane a) /\
  geo_search tree plane 3 2 false [0; 1; 2; 3] = inr GKeyError /\ (forall p, ~ lies plane 3 p).
Proof.
  split; [exact tree_finds|]. split; [repeat constructor; cbn; intuition discriminate|]. split; [reflexivity|]. split; [reflexivity|].
  split; [reflexivity|]. split; [eexists; split; reflexivity|]. split.
  { intros a [<-|[<-|[<-|[<-|[<-|[]]]]]]; discriminate. }
  split; [reflexivity|]. intros p (d & D & Q). cbn in D. injection D as <-. discriminate.
Qed.

(** C158: the subgraph of agents of the network: their nodes, and the edges between them. *)
Theorem C158_subgraph_partial :
  forall (P : Type) (w : gworld P) self center selected,
  (forall a, In a (self :: selected) -> networked w a) ->
  exists g ed, subgraph w self center selected = inl (g, ed) /\
  let chosen n := exists a, (In a selected \/ (center = true /\ a = self)) /\ stands w a n in
  (forall n d, In (n, d) g <-> In (n, d) (gw_nodes w) /\ chosen n) /\
  (forall n m, In (n, m) ed <-> In (n, m) (gw_edges w) /\ chosen n /\ chosen m).
Proof.
  intros P w self center selected H. unfold subgraph.
  destruct (node_ids_ok w (selected ++ if center then [self] else [])) as (r & -> & K).
  { intros a I. apply H. apply in_app_or in I as [I|I]; [now right|]. destruct center; [destruct I as [<-|[]]; now left|destruct I]. }
  eexists _, _. split; [reflexivity|]. cbn zeta.
  assert (C : forall n, In (Some n) r <-> exists a, (In a selected \/ (center = true /\ a = self)) /\ stands w a n).
  { intros n. rewrite K. split; intros (a & I & S); exists a; split; auto.
    - apply in_app_or in I as [I|I]; auto. destruct center; [destruct I as [<-|[]]; auto|destruct I].
    - apply in_or_app. destruct I as [I|[-> ->]]; auto. right. now left. }
  split.
  - intros n d. rewrite filter_In. cbn [fst]. now rewrite ok_in, C.
  - intros n m. rewrite filter_In, andb_true_iff. cbn [fst snd]. now rewrite !ok_in, !C.
Qed.
Print Assumptions C158_subgraph_partial.
(** C158 is false if an agent that is asked for is not of the network (all agents are, without
    arguments): AttributeError, also for [geo_search]. *)
Theorem C158_other_agents_refuted :
  forall (P R : Type) ball (w : gworld P) self center (radius : R) selected a, In a selected -> gw_node_of w a = None ->
  subgraph w self center selected = inr GAttributeError /\
  geo_search ball w self radius center selected = inr GAttributeError.
Proof.
  intros P R ball w self center radius selected a I E.
  assert (B : forall c, subgraph w self c selected = inr GAttributeError).
  { intros c. unfold subgraph. rewrite (node_ids_bad w _ a); auto. apply in_or_app. now left. }
  split; auto. unfold geo_search. rewrite B. now destruct (gw_node_of w self).
Qed.
Print Assumptions C158_other_agents_refuted.
Example C158_not_vacuous :
  subgraph plane 0 true [1; 3; 8] = inl ([(0, GNode (Some (0, 0)) None); (1, GNode (Some (1, 1)) None); (3, GNode None None)], [(0, 1)]) /\
  subgraph plane 0 false [1; 2] = inl ([(1, GNode (Some (1, 1)) None); (2, GNode (Some (5, 5)) None)], [(1, 2)]) /\
  (forall a, In a (0 :: [1; 3; 8]) -> networked plane a) /\
  subgraph plane 0 true [1; 9] = inr GAttributeError /\ gw_node_of plane 9 = None.
Proof.
  split; [reflexivity|]. split; [reflexivity|]. split; [|split; reflexivity].
  intros a [<-|[<-|[<-|[<-|[]]]]]; discriminate.
Qed.

(** C159 is false: writing a network with [dump_gexf] takes the positions of all nodes away, so that
    [geo_search] finds nothing afterwards. *)
Theorem C159_positions_are_lost_refuted :
  forall (P R : Type) ball (w : gworld P) self (radius : R) center selected, 
  (forall n p, ~ lies (dump_gexf w) n p) /\
  ((forall a, In a (self :: selected) -> networked w a) -> dwf (gw_nodes w) ->
   geo_search ball (dump_gexf w) self radius center selected = inl []).
Proof.
  intros P R ball w self radius center selected.
  assert (N : forall n p, ~ lies (dump_gexf w) n p).
  { intros n p (d & D & Q). cbn [dump_gexf gw_nodes] in D. revert D. induction (gw_nodes w) as [|[m x] l IH]; cbn [map dget fst snd]; [discriminate|].
    destruct (eqb n m); auto. intros X. injection X as <-. destruct (g_pos x) eqn:E; cbn in Q; congruence. }
  split; auto. intros H W. unfold geo_search. cbn [dump_gexf gw_node_of].
  destruct (gw_node_of w self) as [node|] eqn:ES; [|elim (H self (or_introl eq_refl)); auto].
  unfold subgraph. destruct (node_ids_ok (dump_gexf w) (selected ++ [self])) as (r & E & K).
  { intros a I. change (networked w a). apply H. apply in_app_or in I as [I|[<-|[]]]; [now right|now left]. }
  rewrite E. destruct (nx_subgraph (dump_gexf w) r) as [g ed] eqn:G.
  assert (W' : dwf (gw_nodes (dump_gexf w))).
  { unfold dwf, dkeys in *. cbn [dump_gexf gw_nodes]. now rewrite map_map. }
  pose proof (sub_positions (dump_gexf w) (selected ++ [self]) r W' E K) as SP. rewrite G in SP. cbn [fst] in SP.
  destruct (positions g) as [|[m q] pos]; [reflexivity|]. exfalso. apply (N m q). apply (SP m q). now left.
Qed.
Print Assumptions C159_positions_are_lost_refuted.
(** The rest of the network stays. *)
Theorem C159_rest_partial :
  forall (P : Type) (w : gworld P), gw_edges (dump_gexf w) = gw_edges w /\ gw_node_of (dump_gexf w) = gw_node_of w /\
  map fst (gw_nodes (dump_gexf w)) = map fst (gw_nodes w) /\
  forall n d, dget n (gw_nodes w) = Some d -> g_pos d = None -> dget n (gw_nodes (dump_gexf w)) = Some d.
Proof.
  intros P w. split; [reflexivity|]. split; [reflexivity|]. split; [cbn [dump_gexf gw_nodes]; now rewrite map_map|].
  cbn [dump_gexf gw_nodes]. intros n d. induction (gw_nodes w) as [|[m x] l IH]; cbn [map dget fst snd]; [discriminate|].
  destruct (eqb n m); auto. intros X Q. injection X as ->. now rewrite Q.
Qed.
Print Assumptions C159_rest_partial.
Example C159_not_vacuous :
  lies plane 1 (1, 1) /\ geo_search tree plane 0 2 false [1; 2; 3] = inl [1] /\
  geo_search tree (dump_gexf plane) 0 2 false [1; 2; 3] = inl [] /\
  dget 1 (gw_nodes (dump_gexf plane)) = Some (GNode None (Some (1, 1))).
Proof. split; [eexists; split; reflexivity|]. repeat split; reflexivity. Qed.
