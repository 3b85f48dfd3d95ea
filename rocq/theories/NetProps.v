(** C28, C46-C51 and C70: agents in networks. *)
From Coq Require Import List Bool Arith ZArith String.
From Verif Require Import PyDict QueryModel QuerySpec NetModel NetSpec NetProofs NetProofs2.
Import ListNotations.

(** In the examples nodes are numbers, and "node_for_i" is 50 + i. *)
Definition ex_int (n : nat) : nat := n.
Definition ex_name (i : Z) : nat := 50 + Z.to_nat i.
(** A path of four nodes without agents. *)
Definition path4 : graph nat :=
  Graph [(0, None); (1, None); (2, None); (3, None)] [(0, 1); (1, 2); (2, 3)] false.
Definition env4 : nenv nat := NEnv path4 (-1) [] [].
Definition populated : nenv nat := fst (populate ex_int env4 [KNet; KStrict; KBase; KNet]).
Definition all_net : nenv nat := fst (populate ex_int env4 [KNet; KNet; KNet; KNet]).

(** C47.  [first] is the number of agents before; the new ones come after. *)
Theorem C47_one_agent_on_every_free_node_partial :
  forall N (EN : Eqb N) int_node (e e' : nenv N) classes,
  dwf (g_nodes (ne_graph e)) -> known e ->
  List.length classes = List.length (g_nodes (ne_graph e)) -> ~ In KRaise classes ->
  populate int_node e classes = (e', None) ->
  let first := List.length (ne_objs e) in
  (exists more, ne_objs e' = ne_objs e ++ more /\ List.length more = vacancies e) /\
  ne_reg e' = ne_reg e ++ seq first (vacancies e) /\
  dkeys (g_nodes (ne_graph e')) = dkeys (g_nodes (ne_graph e)) /\
  g_edges (ne_graph e') = g_edges (ne_graph e) /\
  (forall n, vacant e n -> exists o a, first <= o /\ placed e' o n /\ the_agent e' o a /\
     In (ag_kind a, n) (combine classes (dkeys (g_nodes (ne_graph e)))) /\ ag_alive a = true /\
     (ag_kind a <> KStrict -> ag_node a = Some n)) /\
  (forall n, ~ vacant e n -> same_at e e' n) /\
  (forall o, first <= o < first + vacancies e ->
     exists n, vacant e n /\ placed e' o n /\ forall m, placed e' o m -> m = n).
Proof. exact @populate_spec. Qed.
Print Assumptions C47_one_agent_on_every_free_node_partial.

(** C47: it works on every graph with a free node, a reserved one or a living agent. *)
Theorem C47_populate_succeeds :
  forall N (EN : Eqb N) int_node (e : nenv N) classes n,
  dwf (g_nodes (ne_graph e)) ->
  List.length classes = List.length (g_nodes (ne_graph e)) -> ~ In KRaise classes ->
  vacant e n \/ reserved e n \/ (exists o a, placed e o n /\ the_agent e o a /\ ag_alive a = true) ->
  exists e', populate int_node e classes = (e', None).
Proof. exact @populate_succeeds. Qed.
Print Assumptions C47_populate_succeeds.

(** C47 is false after a failure: the nodes that were reserved by a call that raised stay
    without agent for ever, although [populate_network] succeeds. *)
Theorem C47_failed_call_refuted :
  exists N (EN : Eqb N) int_node (e : nenv N) classes classes2 n,
  let '(e1, r1) := populate int_node e classes in
  let '(e2, r2) := populate int_node e1 classes2 in
  fresh_env e /\ r1 = Some UserError /\ r2 = None /\ ~ In KRaise classes2 /\
  in_graph e2 n /\ (forall o, ~ placed e2 o n) /\ ne_reg e2 = ne_reg e1.
Proof.
  exists nat, _, ex_int, env4, [KNet; KRaise; KNet; KNet], [KNet; KNet; KNet; KNet], 3.
  vm_compute. repeat split; auto.
  - repeat constructor; simpl; intuition congruence.
  - intros [|[|[|[|[|n]]]]] o; discriminate.
  - intuition discriminate.
  - intros o. discriminate.
Qed.
Print Assumptions C47_failed_call_refuted.

Example C47_not_vacuous :
  dwf (g_nodes (ne_graph env4)) /\ known env4 /\
  g_nodes (ne_graph populated) =
    [(0, Some (Some 0)); (1, Some (Some 1)); (2, Some (Some 2)); (3, Some (Some 3))] /\
  map (fun a => (ag_uid a, ag_node a)) (ne_objs populated) =
    [(0%Z, Some 0); (2%Z, None); (3%Z, Some 2); (4%Z, Some 3)] /\
  ne_reg populated = [0; 1; 2; 3].
Proof.
  split; [|split; [|vm_compute; repeat split]].
  - repeat constructor; simpl; intuition congruence.
  - intros o [|[|[|[|n]]]] P; discriminate.
Qed.

(** C48 is false: the nodes are drawn with replacement, so that a free one can be missed
    and a new one is created ... *)
Theorem C48_free_node_missed_refuted :
  exists N (EN : Eqb N) int_node (e : nenv N) picks m,
  let '(e', r) := add_agent int_node e KNet None None false picks [] in
  List.length picks = List.length (g_nodes (ne_graph e)) /\ (forall p, In p picks -> in_graph e p) /\
  vacant e m /\ (exists o n, r = Val o /\ placed e' o n /\ ~ in_graph e n).
Proof.
  exists nat, _, ex_int,
    (NEnv (Graph [(0, Some (Some 0)); (1, None)] [] false) 0 [Agent 0 KNet (Some 0) true] [0]), [0; 0], 1.
  vm_compute. split; [auto|]. split; [intuition|]. split; [auto|].
  exists 1, 2. repeat split. intuition discriminate.
Qed.
Print Assumptions C48_free_node_missed_refuted.

(** ... and the new one is called after the number of nodes: if there is a node with that
    name, the new agent takes the place of the agent that was there.  This happens for all
    graphs whose nodes are all taken, and all draws. *)
Theorem C48_agent_evicted_refuted :
  forall N (EN : Eqb N) int_node (e : nenv N) uid picks p2 old,
  (forall p, In p picks -> in_graph e p) -> (forall n, ~ vacant e n /\ ~ reserved e n) ->
  placed e old (int_node (List.length (g_nodes (ne_graph e)))) ->
  exists e' o, add_agent int_node e KNet uid None false picks p2 = (e', Val o) /\
  o = List.length (ne_objs e) /\ placed e' o (int_node (List.length (g_nodes (ne_graph e)))).
Proof.
  intros N EN int_node e uid picks p2 old Pi Fr P.
  destruct (add_lonely int_node e uid picks p2 Pi) as (e' & n & a & E & _ & _ & _ & _ & _ & Q & _ & _ & Ch).
  exists e', (List.length (ne_objs e)). split; auto. split; auto.
  destruct Ch as [[_ [V|V]]|[-> _]]; auto; destruct (Fr n); contradiction.
Qed.
Print Assumptions C48_agent_evicted_refuted.

(** Agent 1 dies (node 1 of 0, 1, 2 disappears), and the next agent evicts agent 2. *)
Example C48_evicted_not_vacuous :
  let e := NEnv (Graph [(0, None); (1, None); (2, None)] [] false) (-1) [] [] in
  let e1 := nrun ex_int ex_name [NPopulate [KNet; KNet; KNet]; NDie 1 true] e in
  let e2 := nstep ex_int ex_name e1 (NAdd KNet None None false [0; 2] []) in
  g_nodes (ne_graph e1) = [(0, Some (Some 0)); (2, Some (Some 2))] /\
  g_nodes (ne_graph e2) = [(0, Some (Some 0)); (2, Some (Some 3))] /\
  ne_reg e2 = [0; 2; 3] /\ map ag_node (ne_objs e2) = [Some 0; None; Some 2; Some 2].
Proof. vm_compute. repeat split. Qed.

(** C48: what is done in all cases.  If the name of the new node is not in use, nobody is
    evicted; and a free node that is drawn is used. *)
Theorem C48_node_of_its_own_partial :
  forall N (EN : Eqb N) int_node (e : nenv N) uid picks p2,
  (forall p, In p picks -> in_graph e p) ->
  let o := List.length (ne_objs e) in
  exists e' n a, add_agent int_node e KNet uid None false picks p2 = (e', Val o) /\
  ne_objs e' = ne_objs e ++ [a] /\ ne_reg e' = ne_reg e ++ [o] /\
  ag_node a = Some n /\ ag_alive a = true /\ ag_kind a = KNet /\ placed e' o n /\
  (dwf (g_nodes (ne_graph e)) -> dwf (g_nodes (ne_graph e'))) /\
  (forall m, m <> n -> same_at e e' m) /\
  ((In n picks /\ (vacant e n \/ reserved e n)) \/
   (n = int_node (List.length (g_nodes (ne_graph e))) /\
    forall p, In p picks -> ~ vacant e p /\ ~ reserved e p)).
Proof. exact @add_lonely. Qed.
Print Assumptions C48_node_of_its_own_partial.

Example C48_not_vacuous :
  let e := NEnv (Graph [(0, Some (Some 0)); (1, None)] [] false) 0 [Agent 0 KNet (Some 0) true] [0] in
  let e1 := nstep ex_int ex_name e (NAdd KNet None None false [0; 1] []) in
  let e2 := nstep ex_int ex_name e1 (NAdd KNet None None false [1; 1] []) in
  g_nodes (ne_graph e1) = [(0, Some (Some 0)); (1, Some (Some 1))] /\
  g_nodes (ne_graph e2) = [(0, Some (Some 0)); (1, Some (Some 1)); (2, Some (Some 2))].
Proof. vm_compute. repeat split. Qed.

(** C49, for all graphs, shuffles and classes: the node is free or new; it is new only if
    no node is vacant; the other nodes are left alone.  An error (the name of the new node
    is in use) changes nothing. *)
Theorem C49_add_node_partial :
  forall N (EN : Eqb N) int_node name_node (e e' : nenv N) k uid node order p1 p2 r,
  (forall n, In n order <-> in_graph e n) -> k <> KRaise ->
  add_node int_node name_node e k uid node order p1 p2 = (e', r) ->
  exists n,
  match node with
  | Some n' => n = n'
  | None => vacant e n \/
            (n = name_node (match uid with Some i => i | None => ne_last e + 1 end)%Z /\ forall m, ~ vacant e m)
  end /\
  match r with
  | Val o => (vacant e n \/ ~ in_graph e n) /\ o = List.length (ne_objs e) /\ placed e' o n /\
             (exists a, ne_objs e' = ne_objs e ++ [a] /\ ag_kind a = k /\ ag_alive a = true /\
                        (k <> KStrict -> ag_node a = Some n)) /\
             ne_reg e' = ne_reg e ++ [o] /\ (forall m, m <> n -> same_at e e' m) /\
             (dwf (g_nodes (ne_graph e)) -> dwf (g_nodes (ne_graph e')))
  | Err x => x = AssertionError /\ in_graph e n /\ ~ vacant e n /\
             ne_objs e' = ne_objs e /\ ne_reg e' = ne_reg e /\ ne_graph e' = ne_graph e
  end.
Proof. exact @add_node_spec. Qed.
Print Assumptions C49_add_node_partial.

(** C49 is false for nodes that have no agent but were reserved by a call of
    [populate_network] that failed: a new node is created. *)
Theorem C49_reserved_node_refuted :
  exists N (EN : Eqb N) int_node name_node (e : nenv N) m order,
  let '(e1, r1) := populate int_node e [KRaise; KRaise] in
  let '(e2, r2) := add_node int_node name_node e1 KNet None None order [] [] in
  fresh_env e /\ (forall n, In n order <-> in_graph e1 n) /\ reserved e1 m /\ exists o n, r2 = Val o /\ placed e2 o n /\ ~ in_graph e1 n.
Proof.
  exists nat, _, ex_int, ex_name, (NEnv (Graph [(0, None); (1, None)] [] false) (-1) [] []), 1, [0; 1].
  vm_compute. repeat split; auto.
  - repeat constructor; simpl; intuition congruence.
  - intros [|[|[|n]]] o; discriminate.
  - exists 0, (ex_name 1). vm_compute. repeat split. intuition discriminate.
Qed.
Print Assumptions C49_reserved_node_refuted.

Example C49_not_vacuous :
  let e := NEnv (Graph [(0, Some (Some 0)); (1, None)] [] false) 0 [Agent 0 KNet (Some 0) true] [0] in
  let e1 := nstep ex_int ex_name e (NAddNode KNet None None [1; 0] [] []) in
  let e2 := nstep ex_int ex_name e1 (NAddNode KStrict None None [0; 1] [] []) in
  let e3 := nstep ex_int ex_name e2 (NAddNode KBase None (Some 0) [] [] []) in
  g_nodes (ne_graph e1) = [(0, Some (Some 0)); (1, Some (Some 1))] /\
  g_nodes (ne_graph e2) = [(0, Some (Some 0)); (1, Some (Some 1)); (52, Some (Some 2))] /\
  e3 = NEnv (ne_graph e2) (ne_last e2 + 1) (ne_objs e2) (ne_reg e2).
Proof. vm_compute. repeat split. Qed.

(** C50. *)
Theorem C50_node_and_edges_go_partial :
  forall N (EN : Eqb N) (e : nenv N) o a n,
  the_agent e o a -> ag_kind a = KNet -> ag_alive a = true ->
  ag_node a = Some n -> in_graph e n -> dwf (g_nodes (ne_graph e)) ->
  exists e', die e o true = (e', None) /\
  ~ in_graph e' n /\
  (forall m, m <> n -> same_at e e' m) /\
  (forall p, In p (g_edges (ne_graph e')) <-> In p (g_edges (ne_graph e)) /\ fst p <> n /\ snd p <> n) /\
  g_directed (ne_graph e') = g_directed (ne_graph e) /\
  (forall p, In p (ne_reg e') <-> In p (ne_reg e) /\ p <> o) /\
  (exists a', the_agent e' o a' /\ ag_alive a' = false /\ ag_uid a' = ag_uid a) /\
  (forall p, p <> o -> nth_error (ne_objs e') p = nth_error (ne_objs e) p) /\
  forall r, die e' o r = (e', None).
Proof. intros N EN e o a n. exact (die_net (fun _ => n) e o a n). Qed.
Print Assumptions C50_node_and_edges_go_partial.

(** C50 is false for an agent whose node is gone: [die] raises, and the agent stays alive
    and registered. *)
Theorem C50_node_already_gone_refuted :
  forall N (EN : Eqb N) (e : nenv N) o a n,
  the_agent e o a -> ag_kind a = KNet -> ag_alive a = true -> ag_node a = Some n -> ~ in_graph e n ->
  die e o true = (e, Some NetworkXError).
Proof. intros N EN e o a n. exact (die_net_fails e o a n). Qed.
Print Assumptions C50_node_already_gone_refuted.

Example C50_not_vacuous :
  let e1 := nstep ex_int ex_name all_net (NDie 1 true) in
  g_nodes (ne_graph e1) = [(0, Some (Some 0)); (2, Some (Some 2)); (3, Some (Some 3))] /\
  g_edges (ne_graph e1) = [(2, 3)] /\ ne_reg e1 = [0; 2; 3].
Proof. vm_compute. repeat split. Qed.

(** Two agents that were created on the same node: the first death removes it. *)
Example C50_refuted_not_vacuous :
  let e1 := nrun ex_int ex_name [NAdd KNet None (Some 0) false [] []; NAdd KNet None (Some 0) false [] [];
                                 NDie 0 true] env4 in
  let a := Agent 1 KNet (Some 0) true in
  the_agent e1 1 a /\ ~ in_graph e1 0 /\ ne_reg e1 = [1] /\ die e1 1 true = (e1, Some NetworkXError).
Proof. vm_compute. repeat split. intuition discriminate. Qed.

(** C51: along every history of an environment, the ids that it chooses are all different,
    and they never change. *)
Theorem C51_chosen_ids_are_different :
  forall N (EN : Eqb N) int_node name_node ops (e : nenv N), NoDup (chosen_ids int_node name_node ops e).
Proof. intros. apply chosen_nodup. Qed.
Print Assumptions C51_chosen_ids_are_different.

Theorem C51_ids_never_change :
  forall N (EN : Eqb N) int_node name_node ops (e : nenv N) o a,
  the_agent e o a -> exists a', the_agent (nrun int_node name_node ops e) o a' /\ ag_uid a' = ag_uid a.
Proof. intros. now apply ids_kept. Qed.
Print Assumptions C51_ids_never_change.

Definition history1 : list (nop nat) :=
  [NPopulate [KNet; KStrict; KBase; KNet]; NDie 0 true; NAdd KBase (Some 77%Z) None false [] [];
   NAddNode KNet None None [1; 2; 3] [] []; NDie 3 false; NEdge 5 3; NAdd KNet None None false [1; 2; 3; 1] []].
Example C51_not_vacuous :
  chosen_ids ex_int ex_name history1 env4 = [0; 2; 3; 4; 5; 6]%Z /\
  map ag_uid (ne_objs (nrun ex_int ex_name history1 env4)) = [0; 2; 3; 4; 77; 5; 6]%Z.
Proof. vm_compute. repeat split. Qed.

(** C70 is false: the id that is chosen can be that of an agent that was given its id. *)
Theorem C70_id_in_use_refuted :
  exists N (EN : Eqb N) int_node name_node (ops : list (nop N)) (e : nenv N) o p a b,
  let e' := nrun int_node name_node ops e in
  fresh_env e /\ o <> p /\ the_agent e' o a /\ the_agent e' p b /\ ag_uid a = ag_uid b /\
  In o (ne_reg e') /\ In p (ne_reg e').
Proof.
  exists nat, _, ex_int, ex_name, [NAdd KBase (Some 0%Z) None false [] []; NAdd KBase None None false [] []], env4,
    0, 1, (Agent 0 KBase None true), (Agent 0 KBase None true).
  vm_compute. repeat split; auto.
  - repeat constructor; simpl; intuition congruence.
  - intros [|[|[|[|[|n]]]]] o; discriminate.
  - discriminate.
Qed.
Print Assumptions C70_id_in_use_refuted.

(** C70 when no id is given. *)
Theorem C70_all_ids_are_different_partial :
  forall N (EN : Eqb N) int_node name_node ops (e : nenv N),
  ne_objs e = [] -> forallb automatic ops = true ->
  NoDup (map ag_uid (ne_objs (nrun int_node name_node ops e))).
Proof.
  intros N EN int_node name_node ops e E A. rewrite all_chosen, E by auto. apply chosen_nodup.
Qed.
Print Assumptions C70_all_ids_are_different_partial.

(** C46.  The agents of the examples: their state is the parity of their number. *)
Definition nbrs := get_neighbors (N:=nat) (C:=nat) Z.eqb (fun i => i) (fun o => Z.of_nat (o mod 2))
                     (fun _ _ => 0%Z) (fun _ _ => true).
Definition no_criteria : criteria Z nat := Criteria [] None None None None None [].

(** C46 is false if two agents are on the same node: only the last one is found. *)
Theorem C46_shared_node_refuted :
  exists (ops : list (nop nat)) o b n m,
  let e := nrun ex_int ex_name ops env4 in
  node_of e o = Some n /\ node_of e b = Some m /\ linked e n m /\ In o (ne_reg e) /\ In b (ne_reg e) /\
  exists l, nbrs e o no_criteria = Some l /\ ~ In b l.
Proof.
  exists [NAdd KNet None (Some 0) false [] []; NAdd KNet None (Some 1) false [] []; NAdd KNet None (Some 1) false [] []],
    0, 1, 0, 1.
  vm_compute. repeat split; auto.
  exists [2]. split; auto. intuition discriminate.
Qed.
Print Assumptions C46_shared_node_refuted.

(** C46 is false if two agents have the same id: one that is not adjacent is found. *)
Theorem C46_shared_id_refuted :
  exists (ops : list (nop nat)) o b n m,
  let e := nrun ex_int ex_name ops env4 in
  node_of e o = Some n /\ node_of e b = Some m /\ ~ linked e n m /\ consistent e /\
  exists l, nbrs e o no_criteria = Some l /\ In b l.
Proof.
  exists [NAddNode KNet None (Some 0) [] [] []; NAddNode KNet None (Some 1) [] [] [];
          NAddNode KNet (Some 1%Z) (Some 3) [] [] []], 0, 2, 0, 3.
  split; [reflexivity|]. split; [reflexivity|]. split; [|split].
  - vm_compute. intuition discriminate.
  - intros o n. vm_compute. intros [<-|[<-|[<-|[]]]]; destruct n as [|[|[|[|n]]]]; split; congruence.
  - vm_compute. exists [1; 2]. split; auto.
Qed.
Print Assumptions C46_shared_id_refuted.

(** C46 for all histories that put agents on free nodes only and let the environment choose
    the ids: the neighbours are, in order of registration, the registered agents whose node
    is adjacent to that of the caller (and that meet the other criteria). *)
Theorem C46_agents_of_adjacent_nodes_partial :
  forall N (EN : Eqb N) int_node name_node V C veq id_val state_of attr isinstance,
  (forall i j, veq (id_val i) (id_val j) = true <-> i = j) ->
  forall ops (e0 : nenv N) o n (q : criteria V C),
  fresh_env e0 -> all_orderly int_node name_node ops e0 -> forallb automatic ops = true ->
  let e := nrun int_node name_node ops e0 in
  In o (ne_reg e) -> node_of e o = Some n ->
  proper q -> q_unique_id q = None -> q_id_args q = [] ->
  (forall k k', wanted q k <> None -> wanted q k' <> None -> k = k') ->
  exists l, get_neighbors veq id_val state_of attr isinstance e o q = Some l /\
  selects (fun b => (exists m, node_of e b = Some m /\ linked e n m) /\
                    matches veq (uid_of id_val e) state_of attr isinstance q b)
    (q_limit q) (ne_reg e) l.
Proof. intros. now apply history_neighbors. Qed.
Print Assumptions C46_agents_of_adjacent_nodes_partial.

(** C46 for all environments in terms of the agents that the nodes have. *)
Theorem C46_agents_the_adjacent_nodes_have_partial :
  forall N (EN : Eqb N) V C veq id_val state_of attr isinstance,
  (forall i j, veq (id_val i) (id_val j) = true <-> i = j) ->
  forall (e : nenv N) o n (q : criteria V C),
  NoDup (map ag_uid (ne_objs e)) -> known e -> (forall b, In b (ne_reg e) -> b < List.length (ne_objs e)) ->
  node_of e o = Some n -> in_graph e n ->
  proper q -> q_unique_id q = None -> q_id_args q = [] ->
  (forall k k', wanted q k <> None -> wanted q k' <> None -> k = k') ->
  exists l, get_neighbors veq id_val state_of attr isinstance e o q = Some l /\
  selects (fun b => (exists m, linked e n m /\ placed e b m) /\
                    matches veq (uid_of id_val e) state_of attr isinstance q b)
    (q_limit q) (ne_reg e) l.
Proof. intros. eapply neighbors_spec; eauto. Qed.
Print Assumptions C46_agents_the_adjacent_nodes_have_partial.

Definition history2 : list (nop nat) :=
  [NPopulate [KNet; KNet; KBase; KNet]; NDie 3 true; NAddNode KNet None None [0; 1; 2] [] []; NEdge 4 1].
Example C46_not_vacuous :
  fresh_env env4 /\ all_orderly ex_int ex_name history2 env4 /\ forallb automatic history2 = true /\
  let e := nrun ex_int ex_name history2 env4 in
  ne_reg e = [0; 1; 2; 4] /\ node_of e 1 = Some 1 /\ node_of e 4 = Some 54 /\
  nbrs e 1 no_criteria = Some [0; 2; 4] /\ nbrs e 2 no_criteria = Some [1] /\
  nbrs e 1 (Criteria [] None (Some (One 0%Z)) None None (Some 2) []) = Some [0; 2] /\
  nbrs e 3 no_criteria = None.
Proof.
  split; [|split; [|split; [reflexivity|vm_compute; repeat split]]].
  - split; [repeat constructor; simpl; intuition congruence|]. repeat split.
    intros [|[|[|[|n]]]] o; discriminate.
  - vm_compute. intuition.
Qed.

(** C28 is false for a topology that is a networkx graph: whatever the first iteration
    does, the second one begins without any agent (and [_run_model] raises). *)
Theorem C28_shared_graph_refuted :
  forall N (EN : Eqb N) int_node name_node g classes e1 (ops : list (nop N)) classes2 e2 r2,
  dwf (g_nodes g) -> (forall n s, In (n, s) (g_nodes g) -> s = None) ->
  List.length classes = List.length (g_nodes g) -> ~ In KRaise classes ->
  new_env int_node TGraph (g, []) classes = (e1, None) ->
  Forall no_failed_add ops ->
  new_env int_node TGraph (left_over (nrun int_node name_node ops e1)) classes2 = (e2, r2) ->
  List.length (ne_reg e1) = List.length (g_nodes g) /\ g_nodes g <> [] /\ ne_reg e2 = [].
Proof. exact @shared_graph. Qed.
Print Assumptions C28_shared_graph_refuted.

Example C28_refuted_not_vacuous :
  let cs := [KNet; KNet; KNet; KNet] in
  let '(e1, r1) := new_env ex_int TGraph (path4, []) cs in
  let '(e2, r2) := new_env ex_int TGraph (left_over (nrun ex_int ex_name [NDie 2 true] e1)) cs in
  r1 = None /\ ne_reg e1 = [0; 1; 2; 3] /\ r2 = None /\ ne_reg e2 = [] /\
  dkeys (g_nodes (ne_graph e2)) = [0; 1; 3].
Proof. vm_compute. repeat split. Qed.

(** C28 for the other kinds of topology: after any previous iteration, the new one starts
    with one new agent on each node of the topology, and with its edges. *)
Theorem C28_new_graphs_partial :
  forall N (EN : Eqb N) int_node (g : graph N) classes,
  dwf (g_nodes g) -> (forall n s, In (n, s) (g_nodes g) -> s = None) -> g_nodes g <> [] ->
  List.length classes = List.length (g_nodes g) -> ~ In KRaise classes ->
  exists e, (forall prev, new_env int_node (TNew g) prev classes = (e, None)) /\
  ne_reg e = seq 0 (List.length (g_nodes g)) /\ List.length (ne_objs e) = List.length (g_nodes g) /\
  dkeys (g_nodes (ne_graph e)) = dkeys (g_nodes g) /\ g_edges (ne_graph e) = g_edges g /\
  forall n, In n (dkeys (g_nodes g)) -> exists o, placed e o n.
Proof. exact @new_graphs. Qed.
Print Assumptions C28_new_graphs_partial.

Example C28_not_vacuous :
  let '(e1, r1) := new_env ex_int (TNew path4) (left_over all_net) [KNet; KBase; KStrict; KNet] in
  dwf (g_nodes path4) /\ r1 = None /\ ne_reg e1 = [0; 1; 2; 3].
Proof. vm_compute. repeat split. repeat constructor; simpl; intuition congruence. Qed.
