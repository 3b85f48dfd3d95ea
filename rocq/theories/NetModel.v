(** Model of agents in networks: soil/agents/network_agents.py, NetworkEnvironment
    (soil/environment.py:256-409), network.find_unassigned (soil/network.py:56-68) and the
    creation and death of agents (soil/environment.py:152-166, soil/agents/__init__.py:232-242).

    Simplifications: the constructors of agents do nothing to the environment but what is
    modelled here (no [init] that adds agents or edges); the graph of an agent is that of
    the environment; graphs have no parallel edges, and of the attributes of nodes and edges
    only "agent" is kept; no two agents are equal for Python (they differ in an attribute). *)
From Coq Require Import List Bool Arith ZArith String.
From Verif Require Import PyDict QueryModel.
Import ListNotations.

Section Net.
(** The type of the nodes; [int_node n] is the int [n] and [name_node i] the string
    "node_for_i". *)
Context {N : Type} `{Eqb N}.
Variable int_node : nat -> N.
Variable name_node : Z -> N.

(** Agents are numbered in the order of their creation. *)
Definition obj := nat.

(** The entry "agent" of the attributes of a node: [None] if it does not exist. *)
Definition slot := option (option obj).
Record graph := Graph { g_nodes : dict N slot; g_edges : list (N * N); g_directed : bool }.

(** The classes of agents: [NetworkAgent]; one whose constructor takes any argument and
    keeps it, as [BaseAgent]; one whose constructor has no argument [node_id]; one whose
    constructor raises an exception that is not a TypeError, before it touches the graph. *)
Inductive kind := KNet | KBase | KStrict | KRaise.

Record agent := Agent { ag_uid : Z; ag_kind : kind; ag_node : option N; ag_alive : bool }.

(** [ne_last] is mesa's [model.current_id], [ne_reg] the agents of the schedule. *)
Record nenv := NEnv { ne_graph : graph; ne_last : Z; ne_objs : list agent; ne_reg : list obj }.

Inductive exn := KeyError | TypeError | AssertionError | NetworkXError | UserError.
Inductive outcome := Val (o : obj) | Err (x : exn).

Definition with_graph (e : nenv) (g : graph) : nenv := NEnv g (ne_last e) (ne_objs e) (ne_reg e).
Definition get_slot (g : graph) (n : N) : slot :=
  match dget n (g_nodes g) with Some s => s | None => None end.
Definition has_node (g : graph) (n : N) : bool := dhas n (g_nodes g).
Definition set_slot (g : graph) (n : N) (s : slot) : graph :=
  Graph (dset n s (g_nodes g)) (g_edges g) (g_directed g).

(** networkx: [G.add_node(n)], which does nothing to an existing node. *)
Definition nx_add_node (g : graph) (n : N) : graph :=
  if has_node g n then g else set_slot g n None.
(** networkx: [G.remove_node(n)]; None is the NetworkXError. *)
Definition nx_remove_node (g : graph) (n : N) : option graph :=
  if has_node g n then
    Some (Graph (ddel n (g_nodes g))
            (filter (fun p => negb (eqb n (fst p)) && negb (eqb n (snd p))) (g_edges g)) (g_directed g))
  else None.
(** networkx: [G.neighbors(n)] (the successors, in a directed graph). *)
Definition nx_adjacent (g : graph) (n m : N) : bool :=
  existsb (fun p => (eqb n (fst p) && eqb m (snd p)) ||
                    (negb (g_directed g) && eqb n (snd p) && eqb m (fst p))) (g_edges g).
Definition nx_neighbors (g : graph) (n : N) : list N := filter (nx_adjacent g n) (dkeys (g_nodes g)).

(** [G.nodes[n]["agent"] = a]; None is the KeyError. *)
Definition put (g : graph) (n : N) (o : obj) : option graph :=
  if has_node g n then Some (set_slot g n (Some (Some o))) else None.

Definition is_free (s : slot) : bool := match s with Some (Some _) => false | _ => true end.
Definition has_key (s : slot) : bool := match s with None => false | _ => true end.

(** soil/agents/network_agents.py:10-19.  [picks] is what [random.choices] gives: as many
    nodes as there are in the graph, drawn with replacement. *)
Definition choose_node (g : graph) (picks : list N) : graph * N :=
  match find (fun n => is_free (get_slot g n)) picks with
  | Some n => (g, n)
  | None => let n := int_node (List.length (g_nodes g)) in (nx_add_node g n, n)
  end.

Definition push (e : nenv) (g : graph) (a : agent) : nenv * outcome :=
  (NEnv g (ne_last e) (ne_objs e ++ [a]) (ne_reg e), Val (List.length (ne_objs e))).

(** The call of the class: soil/agents/network_agents.py:5-24 for a [NetworkAgent],
    soil/agents/__init__.py:117-146 for the rest.  [arg] is the argument [node_id], which
    may be missing, or None.  An agent whose constructor raises is not kept anywhere; what
    it did to the graph stays. *)
Definition construct (e : nenv) (k : kind) (uid : Z) (arg : option (option N)) (picks : list N)
  : nenv * outcome :=
  let g := ne_graph e in
  match k with
  | KRaise => (e, Err UserError)
  | KStrict => match arg with
               | None => push e g (Agent uid k None true)
               | Some _ => (e, Err TypeError)
               end
  | KBase => push e g (Agent uid k (match arg with Some x => x | None => None end) true)
  | KNet =>
      let '(g', n) := match arg with Some (Some n) => (g, n) | _ => choose_node g picks end in
      match put g' n (List.length (ne_objs e)) with
      | None => (with_graph e g', Err KeyError)
      | Some g2 => push e g2 (Agent uid k (Some n) true)
      end
  end.

(** mesa's [next_id]: the id, and the environment after it. *)
Definition next_id (e : nenv) : Z * nenv :=
  ((ne_last e + 1)%Z, NEnv (ne_graph e) (ne_last e + 1) (ne_objs e) (ne_reg e)).
Definition take_id (e : nenv) (uid : option Z) : Z * nenv :=
  match uid with Some i => (i, e) | None => next_id e end.

(** soil/environment.py:152-166. *)
Definition base_add_agent (e : nenv) (k : kind) (uid : option Z) (arg : option (option N))
    (picks : list N) : nenv * outcome :=
  let '(i, e1) := take_id e uid in
  match construct e1 k i arg picks with
  | (e2, Val o) => (NEnv (ne_graph e2) (ne_last e2) (ne_objs e2) (ne_reg e2 ++ [o]), Val o)
  | r => r
  end.

(** soil/environment.py:287-296.  [topology] tells whether that argument is given. *)
Definition add_agent (e : nenv) (k : kind) (uid : option Z) (node : option N) (topology : bool)
    (picks picks2 : list N) : nenv * outcome :=
  match node, topology with
  | None, false => base_add_agent e k uid None picks
  | _, _ =>
      let '(e1, r) := match base_add_agent e k uid (Some node) picks with
                      | (e1, Err TypeError) => base_add_agent e1 k uid None picks2
                      | x => x
                      end in
      match r, node with
      | Err x, _ => (e1, Err x)
      | Val _, None => (e1, Err KeyError)
      | Val o, Some n => match put (ne_graph e1) n o with
                         | None => (e1, Err KeyError)
                         | Some g => (with_graph e1 g, Val o)
                         end
      end
  end.

(** soil/network.py:56-68; [order] are the nodes after the shuffle. *)
Definition find_unassigned (g : graph) (order : list N) : option N :=
  find (fun n => negb (has_key (get_slot g n))) order.

(** soil/environment.py:335-358. *)
Definition add_node (e : nenv) (k : kind) (uid : option Z) (node : option N) (order : list N)
    (picks picks2 : list N) : nenv * outcome :=
  let '(i, e1) := take_id e uid in
  let n := match node with
           | Some n => n
           | None => match find_unassigned (ne_graph e1) order with
                     | Some n => n
                     | None => name_node i
                     end
           end in
  let e2 := with_graph e1 (nx_add_node (ne_graph e1) n) in
  if has_key (get_slot (ne_graph e2) n) then (e2, Err AssertionError)
  else add_agent e2 k (Some i) (Some n) true picks picks2.

(** soil/environment.py:399-404: [None] is put on the free nodes.  [classes] are the
    classes that were drawn. *)
Fixpoint reserve (classes : list kind) (nodes : dict N slot) (g : graph) : graph * list (kind * N) :=
  match classes, nodes with
  | k :: classes', (n, s) :: nodes' =>
      if has_key s then reserve classes' nodes' g
      else let '(g', l) := reserve classes' nodes' (set_slot g n (Some None)) in (g', (k, n) :: l)
  | _, _ => (g, [])
  end.
(** soil/environment.py:405-407. *)
Fixpoint add_all (l : list (kind * N)) (e : nenv) : nenv * option exn :=
  match l with
  | [] => (e, None)
  | (k, n) :: l' =>
      match add_agent e k None (Some n) true [] [] with
      | (e1, Err x) => (e1, Some x)
      | (e1, Val o) => match put (ne_graph e1) n o with
                       | None => (e1, Some KeyError)
                       | Some g => add_all l' (with_graph e1 g)
                       end
      end
  end.
(** soil/environment.py:326-333: is there one at all?  [getattr(None, "alive", True)] is
    true, so a reserved node counts. *)
Definition alive (e : nenv) (o : obj) : bool :=
  match nth_error (ne_objs e) o with Some a => ag_alive a | None => false end.
Definition some_network_agent (e : nenv) : bool :=
  existsb (fun p => match snd p with
                    | None => false | Some None => true | Some (Some o) => alive e o
                    end) (g_nodes (ne_graph e)).

(** soil/environment.py:390-409. *)
Definition populate (e : nenv) (classes : list kind) : nenv * option exn :=
  match g_nodes (ne_graph e) with
  | [] => (e, Some AssertionError)
  | nodes =>
      let '(g, l) := reserve classes nodes (ne_graph e) in
      match add_all l (with_graph e g) with
      | (e1, Some x) => (e1, Some x)
      | (e1, None) =>
          if forallb (fun p => has_key (snd p)) (g_nodes (ne_graph e1)) && some_network_agent e1
          then (e1, None) else (e1, Some AssertionError)
      end
  end.

Fixpoint set_nth {X} (l : list X) (i : nat) (x : X) : list X :=
  match l, i with
  | [], _ => []
  | _ :: l', 0 => x :: l'
  | y :: l', S i' => y :: set_nth l' i' x
  end.
Definition set_agent (e : nenv) (o : obj) (a : agent) : nenv :=
  NEnv (ne_graph e) (ne_last e) (set_nth (ne_objs e) o a) (ne_reg e).

(** soil/agents/__init__.py:232-242: not alive and not registered any more. *)
Definition base_die (e : nenv) (o : obj) (a : agent) : nenv :=
  let e' := set_agent e o (Agent (ag_uid a) (ag_kind a) (ag_node a) false) in
  NEnv (ne_graph e') (ne_last e') (ne_objs e') (filter (fun p => negb (Nat.eqb p o)) (ne_reg e')).

(** soil/agents/network_agents.py:90-95 and 69-72 for a [NetworkAgent].  An unknown agent
    is left alone. *)
Definition die (e : nenv) (o : obj) (remove : bool) : nenv * option exn :=
  match nth_error (ne_objs e) o with
  | None => (e, None)
  | Some a =>
      match ag_kind a with
      | KNet =>
          if negb (ag_alive a) then (e, None)
          else if remove then
            match ag_node a with
            | None => (e, Some NetworkXError)
            | Some n =>
                match nx_remove_node (ne_graph e) n with
                | None => (e, Some NetworkXError)
                | Some g =>
                    let a' := Agent (ag_uid a) (ag_kind a) None (ag_alive a) in
                    (base_die (set_agent (with_graph e g) o a') o a', None)
                end
            end
          else (base_die e o a, None)
      | _ => (base_die e o a, None)
      end
  end.

(** soil/agents/network_agents.py:74-88: both nodes must exist (ValueError otherwise; here,
    NetworkXError stands for it). *)
Definition node_of (e : nenv) (o : obj) : option N :=
  match nth_error (ne_objs e) o with Some a => ag_node a | None => None end.
Definition add_edge (e : nenv) (o p : obj) : nenv * option exn :=
  let g := ne_graph e in
  match node_of e o, node_of e p with
  | Some n, Some m =>
      if has_node g n && has_node g m
      then (with_graph e (Graph (g_nodes g) (g_edges g ++ [(n, m)]) (g_directed g)), None)
      else (e, Some NetworkXError)
  | _, _ => (e, Some NetworkXError)
  end.

(** Histories of an environment. *)
Inductive nop :=
| NAdd (k : kind) (uid : option Z) (node : option N) (topology : bool) (picks picks2 : list N)
| NAddNode (k : kind) (uid : option Z) (node : option N) (order picks picks2 : list N)
| NPopulate (classes : list kind)
| NDie (o : obj) (remove : bool)
| NEdge (o p : obj).
Definition nstep (e : nenv) (op : nop) : nenv :=
  match op with
  | NAdd k uid node t p1 p2 => fst (add_agent e k uid node t p1 p2)
  | NAddNode k uid node ord p1 p2 => fst (add_node e k uid node ord p1 p2)
  | NPopulate cs => fst (populate e cs)
  | NDie o r => fst (die e o r)
  | NEdge o p => fst (add_edge e o p)
  end.
Definition nrun (ops : list nop) (e : nenv) : nenv := fold_left nstep ops e.

(** soil/environment.py:262-285 for a [topology], as [Simulation.run] calls it once per
    iteration (soil/simulation.py:215-280).  A [networkx.Graph] is used as it is
    (soil/network.py:13-39): the environment gets the graph that the previous iteration
    left, with its agents.  Anything else (a path, a dictionary, a generator) gives a new
    graph each time. *)
Inductive topology := TGraph | TNew (g : graph).
Definition new_env (t : topology) (prev : graph * list agent) (classes : list kind)
  : nenv * option exn :=
  match t with
  | TGraph => populate (NEnv (fst prev) (-1) (snd prev) []) classes
  | TNew g => populate (NEnv g (-1) [] []) classes
  end.
(** One iteration: what is left of the graph, and of the agents that it mentions. *)
Definition left_over (e : nenv) : graph * list agent := (ne_graph e, ne_objs e).

(** [agent.get_neighbors(...)], soil/agents/network_agents.py:29-33 and 39-60.  [q] has the
    other criteria.  None is the NetworkXError of a node that is not in the graph. *)
Section Neighbors.
Context {V C : Type}.
Variable veq : V -> V -> bool.
Variable id_val : Z -> V.
Variable state_of : obj -> V.
Variable attr : obj -> string -> V.
Variable isinstance : obj -> C -> bool.
Definition uid_of (e : nenv) (o : obj) : V :=
  id_val match nth_error (ne_objs e) o with Some a => ag_uid a | None => 0%Z end.
Definition get_neighbors (e : nenv) (o : obj) (q : criteria V C) : option (list obj) :=
  match node_of e o with
  | None => None
  | Some n =>
      if has_node (ne_graph e) n then
        match flat_map (fun m => match get_slot (ne_graph e) m with
                                 | Some (Some b) => [uid_of e b] | _ => []
                                 end) (nx_neighbors (ne_graph e) n) with
        | [] => Some []
        | ids => Some (filter_agents veq (uid_of e) state_of attr isinstance (ne_reg e)
                         (Criteria [] (Some (Many ids)) (q_state_id q) (q_class q) (q_state q)
                            (q_limit q) (q_kwargs q)))
        end
      else None
  end.
End Neighbors.
End Net.
Arguments graph : clear implicits.
Arguments agent : clear implicits.
Arguments nenv : clear implicits.
Arguments nop : clear implicits.
Arguments topology : clear implicits.
Arguments Graph {N}. Arguments Agent {N}. Arguments NEnv {N}.
