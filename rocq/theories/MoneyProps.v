(** C229 to C231: the construction of the wealth example (examples/mesa/social_wealth.py:74-111) and its portrayals
    (examples/mesa/server.py:13-58). *)
From Coq Require Import List Bool Arith ZArith QArith Lia.
From Verif Require Import PyDict NetModel MoneyModel MoneySpec MoneyProofs.
Import ListNotations.
Local Close Scope Q_scope.
Local Open Scope nat_scope.

(** A generator that always draws the last node and the greatest coordinate, and one that draws the agent's own node. *)
Definition last_luck : luck := Luck (fun _ l => repeat (last l 0) (List.length l)) (fun _ b => b - 1).
Definition own_luck : luck :=
  Luck (fun i l => if existsb (Nat.eqb i) l then repeat i (List.length l) else l) (fun _ b => b - 1).
Lemma last_luck_fair : fair last_luck.
Proof.
  split.
  - intros i l. cbn. split; [|apply repeat_length]. intros x I.
    destruct l as [|y l]; [contradiction|]. apply repeat_spec in I as ->. destruct (exists_last (l := y :: l) ltac:(discriminate)) as (l' & z & ->). rewrite last_last.
    apply in_app_iff. right. left. reflexivity.
  - intros i b B. cbn. lia.
Qed.
Lemma own_luck_fair : fair own_luck.
Proof.
  split.
  - intros i l. cbn. destruct (existsb (Nat.eqb i) l) eqn:E; [|split; [apply incl_refl|reflexivity]].
    split; [|apply repeat_length]. intros x I. apply repeat_spec in I as ->. apply existsb_exists in E as (y & I & E).
    apply Nat.eqb_eq in E as ->. exact I.
  - intros i b B. cbn. lia.
Qed.
Lemma own_luck_own n : forall i, i < n -> find (Nat.leb i) (l_choices own_luck i (seq 0 n)) = Some i.
Proof.
  intros i L. cbn [own_luck l_choices]. replace (existsb (Nat.eqb i) (seq 0 n)) with true.
  - rewrite seq_length. destruct n as [|n]; [lia|]. cbn. rewrite Nat.leb_refl. reflexivity.
  - symmetry. apply existsb_exists. exists i. split; [apply in_seq; lia|apply Nat.eqb_refl].
Qed.
Lemma star_plain n : plain n (star n).
Proof. reflexivity. Qed.

(** ** C229 *)
(** C229 is false for the social agents: of two agents, the first knows the node of the second, and the second a third node, which is
    new. *)
Theorem C229_unsettled_refuted : exists r n e pos, fair r /\ money_env r true (star n) 5 5 = Made e pos /\
  List.length (ne_objs e) = n /\ List.length (g_nodes (ne_graph e)) = S n /\ ~ settled e /\
  exists o m p, node_of e o = Some m /\ agent_on e m p /\ p <> o.
Proof.
  exists last_luck, 2. do 2 eexists. split; [exact last_luck_fair|]. split; [vm_compute; reflexivity|].
  split; [reflexivity|]. split; [reflexivity|]. split.
  - intros S. specialize (S 0 _ eq_refl) as (m & A & B & _). injection A as <-. discriminate B.
  - exists 0, 1, 1. split; [reflexivity|]. split; [reflexivity|discriminate].
Qed.
Print Assumptions C229_unsettled_refuted.

(** C229, what holds for both classes: there are [n] agents, numbered from 0, all of them alive, in the schedule and in a cell of the
    grid; the node [m] of the generator has the agent [m], no node is without an agent, and the edges are those of the generator. *)
Theorem C229_made_partial : forall r social n g width height, fair r -> 0 < n -> plain n g -> 0 < width -> 0 < height ->
  exists e pos, money_env r social g width height = Made e pos /\
    List.length (ne_objs e) = n /\ ne_reg e = seq 0 n /\
    (forall o a, nth_error (ne_objs e) o = Some a -> ag_uid a = Z.of_nat o /\ ag_alive a = true) /\
    (forall m, m < n -> agent_on e m m) /\
    (forall m, In m (dkeys (g_nodes (ne_graph e))) -> exists o, o < n /\ agent_on e m o) /\
    g_edges (ne_graph e) = g_edges g /\ g_directed (ne_graph e) = g_directed g /\
    map fst pos = seq 0 n /\ Forall (fun p => fst (snd p) < width /\ snd (snd p) < height) pos.
Proof.
  intros r social n g width height F N P W H. destruct (money_made r social n g width height F N P W H) as (e & _ & E & IV).
  exists e. eexists. split; [exact E|]. destruct (i_objs _ _ _ _ _ IV) as (L & OB). destruct (i_edges _ _ _ _ _ IV) as (E1 & E2).
  destruct (place_spec r width height (seq 0 n) F W H 0) as (P1 & P2).
  split; [exact L|]. split; [apply (i_reg _ _ _ _ _ IV)|]. split; [intros o a NE; destruct (OB _ _ NE); tauto|].
  split; [apply (i_done _ _ _ _ _ IV)|]. split; [apply (assertions social n g e N IV)|]. tauto.
Qed.
Print Assumptions C229_made_partial.

(** ... and the agents may be anywhere: for any choice of the cells there are draws that place them there.  On a grid without cells no
    environment is made. *)
Theorem C229_anywhere_partial : forall r social n g width height (target : nat -> nat * nat), fair r -> 0 < n -> plain n g -> 0 < width -> 0 < height ->
  (forall o, o < n -> fst (target o) < width /\ snd (target o) < height) ->
  exists r' e, fair r' /\ (forall i l, l_choices r' i l = l_choices r i l) /\
    money_env r' social g width height = Made e (map (fun o => (o, target o)) (seq 0 n)).
Proof.
  intros r social n g width height target F N P W H T.
  set (r' := Luck (l_choices r) (fun i b => (if Nat.even i then fst (target (Nat.div2 i)) else snd (target (Nat.div2 i))) mod b)).
  assert (F' : fair r'). { split; [apply F|]. intros i b B. cbn [r' l_range]. apply Nat.mod_upper_bound. lia. }
  destruct (money_made r' social n g width height F' N P W H) as (e & _ & E & _). exists r', e. split; [exact F'|]. split; [reflexivity|].
  rewrite E. f_equal. enough (G : forall k i, i + k <= n -> place r' (2 * i) (seq i k) width height = map (fun o => (o, target o)) (seq i k))
    by (apply (G n 0); lia).
  induction k as [|k IH]; intros i L; [reflexivity|]. cbn [seq place map].
  replace (S (S (2 * i))) with (2 * S i) by lia. rewrite (IH (S i)) by lia. f_equal. f_equal. cbn [r' l_range].
  rewrite Nat.even_succ, Nat.odd_mul, Nat.even_mul. cbn [Nat.even Nat.odd negb andb orb].
  rewrite Nat.div2_double, Nat.div2_succ_double. destruct (T i) as [A B]; [lia|].
  rewrite !Nat.mod_small by assumption. now destruct (target i).
Qed.
Print Assumptions C229_anywhere_partial.
Theorem C229_no_room_partial : forall r social n g width height, fair r -> 0 < n -> plain n g -> width = 0 \/ height = 0 ->
  money_env r social g width height = Failed UserError.
Proof.
  intros r social n g width height F N P Z. destruct (money_made r social n g 1 1 F N P ltac:(lia) ltac:(lia)) as (e & PO & _ & IV).
  unfold money_env. rewrite PO, (i_reg _ _ _ _ _ IV), seq_length. destruct n as [|n]; [lia|]. destruct Z as [-> | ->]; cbn [Nat.eqb negb andb orb]; [reflexivity|].
  now rewrite orb_true_r.
Qed.
Print Assumptions C229_no_room_partial.

(** C229, what holds for social agents: they know different nodes of the graph, and a node that was not in it is that of the agent that
    it has. *)
Theorem C229_nodes_partial : forall r n g width height e pos, fair r -> 0 < n -> plain n g -> 0 < width -> 0 < height ->
  money_env r true g width height = Made e pos ->
  (forall o, o < n -> exists m, node_of e o = Some m /\ In m (dkeys (g_nodes (ne_graph e)))) /\
  (forall o p m, node_of e o = Some m -> node_of e p = Some m -> o = p) /\
  (forall m, In m (dkeys (g_nodes (ne_graph e))) -> n <= m -> exists o, agent_on e m o /\ node_of e o = Some m) /\
  (exists k, dkeys (g_nodes (ne_graph e)) = seq 0 (n + k)).
Proof.
  intros r n g width height e pos F N P W H E. destruct (money_made r true n g width height F N P W H) as (e' & _ & E' & IV).
  rewrite E' in E. injection E as <- _. destruct (i_objs _ _ _ _ _ IV) as (L & OB). destruct (i_keys _ _ _ _ _ IV) as (k & KK & _ & KN).
  split; [|split; [apply (i_inj _ _ _ _ _ IV)|split; [|eauto]]].
  - intros o LT. unfold node_of. destruct (nth_error (ne_objs e') o) as [a|] eqn:NE; [|apply nth_error_None in NE; lia].
    destruct (OB _ _ NE) as (_ & _ & m & A & B & _). eauto.
  - intros m I G. rewrite KK, in_seq in I. destruct (KN m ltac:(lia)) as (o & _ & A & B). eauto.
Qed.
Print Assumptions C229_nodes_partial.

(** C229, for agents of the class MoneyAgent: no nodes are added, so that each agent is on exactly one node. *)
Theorem C229_money_partial : forall r n g width height e pos, fair r -> 0 < n -> plain n g -> 0 < width -> 0 < height ->
  money_env r false g width height = Made e pos ->
  dkeys (g_nodes (ne_graph e)) = seq 0 n /\ forall m o, agent_on e m o <-> m = o /\ o < n.
Proof.
  intros r n g width height e pos F N P W H E. destruct (money_made r false n g width height F N P W H) as (e' & _ & E' & IV).
  rewrite E' in E. injection E as <- _. destruct (i_keys _ _ _ _ _ IV) as (k & KK & K0 & _). rewrite K0, Nat.add_0_r in KK by reflexivity.
  split; [exact KK|]. intros m o. split.
  - intros A. destruct (Nat.lt_ge_cases m n) as [G|G].
    + pose proof (i_done _ _ _ _ _ IV m G) as D. unfold agent_on in *. rewrite D in A. injection A as ->. auto.
    + unfold agent_on, get_slot in A. destruct (dget m (g_nodes (ne_graph e'))) eqn:DG; [|discriminate].
      assert (In m (dkeys (g_nodes (ne_graph e')))) as I by (apply dhas_in; rewrite dhas_get, DG; reflexivity).
      rewrite KK, in_seq in I. lia.
  - intros [-> LT]. apply (i_done _ _ _ _ _ IV). exact LT.
Qed.
Print Assumptions C229_money_partial.

(** C229, for social agents that happen to draw their own node: each agent is on exactly one node, which it knows. *)
Theorem C229_own_partial : forall r n g width height, fair r -> 0 < n -> plain n g -> 0 < width -> 0 < height ->
  (forall i, i < n -> find (Nat.leb i) (l_choices r i (seq 0 n)) = Some i) ->
  exists e pos, money_env r true g width height = Made e pos /\ settled e /\ dkeys (g_nodes (ne_graph e)) = seq 0 n /\
    forall o, o < n -> node_of e o = Some o.
Proof.
  intros r n g width height F N P W H OWN. destruct (money_own r n g width height F N P W H OWN) as (e & E & IV & KK & NO).
  exists e. eexists. split; [exact E|]. split; [|auto]. intros o a NE. destruct (i_objs _ _ _ _ _ IV) as (L & OB).
  assert (LT : o < n) by (rewrite <- L; apply nth_error_Some; congruence).
  exists o. specialize (NO o LT). unfold node_of in NO. rewrite NE in NO. split; [exact NO|]. split; [apply (i_done _ _ _ _ _ IV); exact LT|].
  intros m A. destruct (Nat.lt_ge_cases m n) as [G|G].
  - pose proof (i_done _ _ _ _ _ IV m G) as D. unfold agent_on in *. rewrite D in A. injection A as ->. reflexivity.
  - unfold agent_on, get_slot in A. destruct (dget m (g_nodes (ne_graph e))) eqn:DG; [|discriminate].
    assert (In m (dkeys (g_nodes (ne_graph e)))) as I by (apply dhas_in; rewrite dhas_get, DG; reflexivity).
    rewrite KK, in_seq in I. lia.
Qed.
Print Assumptions C229_own_partial.

Example C229_case : fair last_luck /\ fair own_luck /\ plain 3 (star 3) /\
  (forall i, i < 3 -> find (Nat.leb i) (l_choices own_luck i (seq 0 3)) = Some i) /\
  (exists e pos, money_env last_luck true (star 3) 4 2 = Made e pos /\ map (node_of e) [0; 1; 2] = [Some 2; Some 3; Some 4] /\
     map (get_slot (ne_graph e)) [0; 1; 2; 3; 4] = [Some (Some 0); Some (Some 1); Some (Some 2); Some (Some 1); Some (Some 2)] /\
     pos = [(0, (3, 1)); (1, (3, 1)); (2, (3, 1))]) /\
  (exists e pos, money_env own_luck true (star 3) 4 2 = Made e pos /\ map (node_of e) [0; 1; 2] = [Some 0; Some 1; Some 2]) /\
  (exists e pos, money_env last_luck false (star 3) 4 2 = Made e pos /\ map (node_of e) [0; 1; 2] = [None; None; None]) /\
  money_env last_luck true (star 0) 4 2 = Failed AssertionError /\ money_env last_luck true (star 3) 0 2 = Failed UserError.
Proof.
  split; [exact last_luck_fair|]. split; [exact own_luck_fair|]. split; [reflexivity|]. split; [apply own_luck_own|].
  repeat split; try (do 2 eexists; split; [vm_compute; reflexivity|]); vm_compute; auto.
Qed.

(** ** C230 *)
(** C230 is false: the nodes 0 and 1 are adjacent, but the agent of node 0 has itself for its only friend, and that of node 1 has
    none. *)
Theorem C230_friends_refuted : exists r e pos, fair r /\ money_env r true (star 2) 5 5 = Made e pos /\
  agent_on e 0 0 /\ agent_on e 1 1 /\ nx_adjacent (ne_graph e) 0 1 = true /\ friends e 0 = [0] /\ friends e 1 = [].
Proof.
  exists last_luck. do 2 eexists. split; [exact last_luck_fair|]. split; [vm_compute; reflexivity|]. vm_compute. auto.
Qed.
Print Assumptions C230_friends_refuted.

(** C230, what holds for agents that draw their own node: the friends are the agents on the adjacent nodes, so that in a graph without
    directions friendship is mutual. *)
Theorem C230_friends_partial : forall r n g width height, fair r -> 0 < n -> plain n g -> 0 < width -> 0 < height ->
  (forall i, i < n -> find (Nat.leb i) (l_choices r i (seq 0 n)) = Some i) ->
  exists e pos, money_env r true g width height = Made e pos /\
    (forall o p, o < n -> (In p (friends e o) <-> p < n /\
       (In (o, p) (g_edges g) \/ g_directed g = false /\ In (p, o) (g_edges g)))) /\
    (g_directed g = false -> forall o p, o < n -> p < n -> (In p (friends e o) <-> In o (friends e p))).
Proof.
  intros r n g width height F N P W H OWN. destruct (money_own r n g width height F N P W H OWN) as (e & E & IV & KK & NO).
  exists e. eexists. split; [exact E|]. destruct (i_edges _ _ _ _ _ IV) as (E1 & E2).
  assert (K : forall o p, o < n -> (In p (friends e o) <-> p < n /\ (In (o, p) (g_edges g) \/ g_directed g = false /\ In (p, o) (g_edges g)))).
  { intros o p LT. unfold friends. rewrite (NO o LT). rewrite in_flat_map. unfold nx_neighbors, nx_adjacent. rewrite E1, E2. split.
    - intros (m & I & J). apply filter_In in I as [I A]. rewrite KK, in_seq in I.
      pose proof (i_done _ _ _ _ _ IV m ltac:(lia)) as D. unfold agent_on in D. rewrite D in J. destruct J as [<-|[]].
      split; [lia|]. apply existsb_exists in A as ([x y] & I2 & A). cbn [fst snd] in A. apply orb_true_iff in A as [A|A].
      + apply andb_true_iff in A as [A B]. apply Nat.eqb_eq in A, B. subst. auto.
      + apply andb_true_iff in A as [A B]. apply andb_true_iff in A as [A C]. apply Nat.eqb_eq in B, C. apply negb_true_iff in A. subst. auto.
    - intros [LP A]. exists p. split.
      + apply filter_In. split; [rewrite KK, in_seq; lia|]. apply existsb_exists. destruct A as [A|[A B]].
        * exists (o, p). split; [exact A|]. cbn [fst snd]. rewrite !eqb_refl. reflexivity.
        * exists (p, o). split; [exact B|]. cbn [fst snd]. rewrite !eqb_refl, A. apply orb_true_r.
      + pose proof (i_done _ _ _ _ _ IV p LP) as D. unfold agent_on in D. rewrite D. left. reflexivity. }
  split; [exact K|]. intros DI o p LO LP. rewrite !K by assumption. rewrite DI. tauto.
Qed.
Print Assumptions C230_friends_partial.

(** C230, the outcasts: a social agent that draws no free node has no friends. *)
Theorem C230_outcast_partial : forall r n g width height e pos o m, fair r -> 0 < n -> plain n g -> 0 < width -> 0 < height ->
  (forall x y, In (x, y) (g_edges g) -> x < n /\ y < n) ->
  money_env r true g width height = Made e pos -> node_of e o = Some m -> n <= m -> friends e o = [].
Proof.
  intros r n g width height e pos o m F N P W H ED E NO G. destruct (money_made r true n g width height F N P W H) as (e' & _ & E' & IV).
  rewrite E' in E. injection E as <- _. destruct (i_edges _ _ _ _ _ IV) as (E1 & E2). unfold friends. rewrite NO.
  replace (nx_neighbors (ne_graph e') m) with (@nil nat); [reflexivity|]. symmetry. unfold nx_neighbors.
  assert (Z : forall x, nx_adjacent (ne_graph e') m x = false).
  { intros x. apply not_true_iff_false. intros A. unfold nx_adjacent in A. rewrite E1 in A. apply existsb_exists in A as ([y z] & I & A).
    destruct (ED _ _ I) as [Y Z]. cbn [fst snd] in A. apply orb_true_iff in A as [A|A].
    - apply andb_true_iff in A as [A _]. apply Nat.eqb_eq in A. lia.
    - apply andb_true_iff in A as [A _]. apply andb_true_iff in A as [_ A]. apply Nat.eqb_eq in A. lia. }
  induction (dkeys (g_nodes (ne_graph e'))) as [|x l IH]; cbn; [reflexivity|]. rewrite Z. exact IH.
Qed.
Print Assumptions C230_outcast_partial.

(** C230, of the graph of the example: its centre is adjacent to itself, so that its agent is its own friend. *)
Theorem C230_own_friend_refuted : forall n, 0 < n -> exists r e pos, fair r /\
  money_env r true (star n) 5 5 = Made e pos /\ settled e /\ In 0 (friends e 0).
Proof.
  intros n N. destruct (C229_own_partial own_luck n (star n) 5 5 own_luck_fair N (star_plain n) ltac:(lia) ltac:(lia) (own_luck_own n))
    as (e & pos & E & S & _).
  destruct (C230_friends_partial own_luck n (star n) 5 5 own_luck_fair N (star_plain n) ltac:(lia) ltac:(lia) (own_luck_own n))
    as (e' & pos' & E' & K & _).
  rewrite E in E'. injection E' as <- <-. exists own_luck, e, pos. split; [exact own_luck_fair|]. split; [exact E|]. split; [exact S|].
  apply K; [exact N|]. split; [exact N|]. left. cbn. apply in_map_iff. exists 0. split; [reflexivity|]. apply in_seq. lia.
Qed.
Print Assumptions C230_own_friend_refuted.

Example C230_case :
  (exists e pos, money_env own_luck true (star 3) 4 2 = Made e pos /\ map (friends e) [0; 1; 2] = [[0; 1; 2]; [0]; [0]]) /\
  (exists e pos, money_env last_luck true (star 3) 4 2 = Made e pos /\ map (friends e) [0; 1; 2] = [[0]; []; []]).
Proof. split; do 2 eexists; (split; [vm_compute; reflexivity|]); vm_compute; auto. Qed.

(** ** C231 *)
(** C231 is false: two agents, with two coins in all, are shown as three nodes with three coins. *)
Theorem C231_twice_refuted : exists r e pos nodes edges, fair r /\ money_env r true (star 2) 5 5 = Made e pos /\
  List.length (ne_objs e) = 2 /\ network_portrayal (ne_graph e) (fun _ => 1%Z) = Some (nodes, edges) /\
  map pn_wealth nodes = [1; 1; 1]%Z.
Proof.
  exists last_luck. do 4 eexists. split; [exact last_luck_fair|]. split; [vm_compute; reflexivity|]. split; [reflexivity|].
  split; [vm_compute; reflexivity|]. reflexivity.
Qed.
Print Assumptions C231_twice_refuted.

(** C231 is false: the cell of an agent with ten coins is as pale as that of an agent with one. *)
Theorem C231_pale_refuted : (opacity 10 == opacity 1)%Q /\ (opacity 10 < opacity 9)%Q.
Proof. split; vm_compute; reflexivity. Qed.
Print Assumptions C231_pale_refuted.

(** C231, what holds: the network is always shown, with a node for each agent, the size and the label of which tell its wealth and which
    is red exactly if the agent has nothing; the edges are those of the graph, numbered from 0.  With agents of the class MoneyAgent no
    other nodes are shown. *)
Theorem C231_network_partial : forall r social n g width height e pos wealth,
  fair r -> 0 < n -> plain n g -> 0 < width -> 0 < height -> money_env r social g width height = Made e pos ->
  exists nodes edges, network_portrayal (ne_graph e) wealth = Some (nodes, edges) /\
    (forall m, m < n -> nth_error nodes m = Some (PNode m (2 * (wealth m + 1)) (if (wealth m =? 0)%Z then true else false) (wealth m))) /\
    (social = false -> List.length nodes = n) /\
    map snd edges = g_edges g /\ map fst edges = seq 0 (List.length (g_edges g)).
Proof.
  intros r social n g width height e pos wealth F N P W H E. destruct (money_made r social n g width height F N P W H) as (e' & _ & E' & IV).
  rewrite E' in E. injection E as <- _. destruct (assertions social n g e' N IV) as [_ ALL].
  destruct (i_keys _ _ _ _ _ IV) as (k & KK & K0 & _). destruct (i_edges _ _ _ _ _ IV) as (E1 & _).
  assert (WF : dwf (g_nodes (ne_graph e'))) by (unfold dwf; rewrite KK; apply seq_NoDup).
  assert (ON : forall m s, In (m, s) (g_nodes (ne_graph e')) -> get_slot (ne_graph e') m = s).
  { intros m s I. unfold get_slot. rewrite (dget_in_wf m s _ WF I). reflexivity. }
  destruct (opt_map_all (portray_node wealth) (g_nodes (ne_graph e'))) as (nodes & EN & MN).
  { intros [m s] I. assert (In m (dkeys (g_nodes (ne_graph e')))) as J by (unfold dkeys; apply in_map_iff; exists (m, s); auto).
    destruct (ALL m J) as (o & _ & A). unfold agent_on in A. rewrite (ON m s I) in A. subst. discriminate. }
  unfold network_portrayal. rewrite EN, E1. do 2 eexists. split; [reflexivity|]. split; [|split; [|split]].
  - intros m L. assert (A : nth_error (map Some nodes) m = nth_error (map (portray_node wealth) (g_nodes (ne_graph e'))) m) by congruence.
    assert (B : nth_error (dkeys (g_nodes (ne_graph e'))) m = Some m).
    { rewrite KK. rewrite (nth_error_nth' _ 0) by (rewrite seq_length; lia). rewrite seq_nth by lia. reflexivity. }
    unfold dkeys in B. rewrite nth_error_map in A, B. rewrite nth_error_map in A.
    destruct (nth_error (g_nodes (ne_graph e')) m) as [[m' s]|] eqn:NE; [|discriminate]. cbn in B. injection B as ->.
    pose proof (ON m s (nth_error_In _ _ NE)) as S. pose proof (i_done _ _ _ _ _ IV m L) as D. unfold agent_on in D. rewrite D in S. subst s.
    destruct (nth_error nodes m) as [p|]; [|discriminate]. cbn [option_map portray_node fst snd] in A. injection A as ->.
    destruct (wealth m =? 0)%Z; reflexivity.
  - intros SF. rewrite K0, Nat.add_0_r in KK by exact SF. apply (f_equal (@List.length _)) in MN. rewrite !map_length in MN. rewrite MN.
    rewrite <- (seq_length n 0), <- KK. unfold dkeys. rewrite map_length. reflexivity.
  - rewrite <- (seq_length (List.length (g_edges g)) 0) at 1.
    assert (X : forall (A B : Type) (l : list A) (l' : list B), List.length l = List.length l' -> map snd (combine l l') = l').
    { clear. intros A B l. induction l as [|x l IH]; intros [|y l']; cbn; intros L; try discriminate; auto. f_equal. apply IH. lia. }
    apply X. rewrite !seq_length. reflexivity.
  - assert (X : forall (A B : Type) (l : list A) (l' : list B), List.length l = List.length l' -> map fst (combine l l') = l).
    { clear. intros A B l. induction l as [|x l IH]; intros [|y l']; cbn; intros L; try discriminate; auto. f_equal. apply IH. lia. }
    apply X. rewrite !seq_length. reflexivity.
Qed.
Print Assumptions C231_network_partial.

(** C231, what holds of the grid: up to nine coins, who has more is shown darker. *)
Theorem C231_grid_partial : forall v w, (1 <= v < w)%Z -> (w <= 9)%Z -> (opacity v < opacity w)%Q.
Proof.
  assert (K : forall v, (1 <= v <= 9)%Z -> (opacity v == v # 10)%Q).
  { intros v B. assert (v = 1 \/ v = 2 \/ v = 3 \/ v = 4 \/ v = 5 \/ v = 6 \/ v = 7 \/ v = 8 \/ v = 9)%Z as X by lia.
    decompose [or] X; subst; vm_compute; reflexivity. }
  intros v w B1 B2. rewrite !K by lia. unfold Qlt. cbn. lia.
Qed.
Print Assumptions C231_grid_partial.

Example C231_case :
  (exists e pos, money_env own_luck false (star 3) 4 2 = Made e pos /\
     network_portrayal (ne_graph e) (fun o => Z.of_nat o) =
       Some ([PNode 0 2 true 0; PNode 1 4 false 1; PNode 2 6 false 2], [(0, (0, 0)); (1, (0, 1)); (2, (0, 2))])) /\
  (opacity 3 == 3 # 10)%Q /\ (opacity 0 == 1 # 10)%Q /\ (opacity 99 == 1 # 10)%Q.
Proof. split; [do 2 eexists; split; [vm_compute; reflexivity|]; vm_compute; reflexivity|]. vm_compute. auto. Qed.
