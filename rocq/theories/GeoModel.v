(** Model of soil/agents/geo.py, of [subgraph] (soil/agents/network_agents.py:62-67) and of
    [dump_gexf] (soil/network.py:71-83). *)
From Coq Require Import List Bool Arith.
From Verif Require Import PyDict.
Import ListNotations.

Section Geo.
(** Coordinates, and numbers. *)
Context {P R : Type}.

(** The attributes of a node that matter here: [pos], and the position in [viz]. *)
Record gnode := GNode { g_pos : option (P * P); g_viz : option (P * P) }.
(** The network (nodes by their id; edges as pairs), and the attribute [node_id] of the agents: there is none
    for agents that are not of the network; None for those that have left it. *)
Record gworld := GWorld {
  gw_nodes : dict nat gnode;
  gw_edges : list (nat * nat);
  gw_node_of : nat -> option (option nat) }.

Inductive gexn := GAttributeError | GKeyError.

(** The attribute [node_id] of all of these agents; AttributeError if one has none. *)
Fixpoint node_ids (w : gworld) (l : list nat) : list (option nat) + gexn :=
  match l with
  | [] => inl []
  | a :: l' =>
      match gw_node_of w a with
      | None => inr GAttributeError
      | Some n => match node_ids w l' with inl r => inl (n :: r) | inr e => inr e end
      end
  end.
(** [nx.Graph.subgraph]: the nodes of the graph that are among these, and the edges between them.  (The order of the
    nodes is the one of the graph here; networkx may give them in another order.) *)
Definition nx_subgraph (w : gworld) (l : list (option nat)) : dict nat gnode * list (nat * nat) :=
  let ok n := existsb (fun m => match m with Some m => Nat.eqb m n | None => false end) l in
  (filter (fun x => ok (fst x)) (gw_nodes w), filter (fun e => ok (fst e) && ok (snd e)) (gw_edges w)).
(** soil/agents/network_agents.py:62-67; [selected] is what [get_agents] gives for the arguments. *)
Definition subgraph (w : gworld) (self : nat) (center : bool) (selected : list nat)
  : dict nat gnode * list (nat * nat) + gexn :=
  match node_ids w (selected ++ if center then [self] else []) with
  | inl l => inl (nx_subgraph w l)
  | inr e => inr e
  end.

(** [scipy.spatial.cKDTree(coords).query_ball_point(point, radius)]. *)
Variable ball : list (P * P) -> P * P -> R -> list nat.

(** [nx.get_node_attributes(G, "pos")]. *)
Fixpoint positions (l : dict nat gnode) : dict nat (P * P) :=
  match l with
  | [] => []
  | (n, d) :: l' => match g_pos d with Some p => (n, p) :: positions l' | None => positions l' end
  end.
(** soil/agents/geo.py:9-21 [geo_search].  The argument [center] is not passed to [subgraph]. *)
Definition geo_search (w : gworld) (self : nat) (radius : R) (center : bool) (selected : list nat)
  : list nat + gexn :=
  match gw_node_of w self with
  | None => inr GAttributeError
  | Some node =>
      match subgraph w self true selected with
      | inr e => inr e
      | inl (g, _) =>
          let pos := positions g in
          match pos with
          | [] => inl []
          | _ =>
              match node with
              | None => inr GKeyError
              | Some n =>
                  match dget n pos with
                  | None => inr GKeyError
                  | Some p =>
                      let indices := ball (map snd pos) p radius in
                      inl (filter (fun m => center || negb (Nat.eqb m n))
                             (flat_map (fun i => match nth_error (map fst pos) i with Some m => [m] | None => [] end)
                                indices))
                  end
              end
          end
      end
  end.

(** soil/network.py:71-81: what [dump_gexf] does to the network before it is written. *)
Definition dump_gexf (w : gworld) : gworld :=
  GWorld (map (fun x => (fst x, match g_pos (snd x) with
                                | Some p => GNode None (Some p)
                                | None => snd x
                                end)) (gw_nodes w))
    (gw_edges w) (gw_node_of w).
End Geo.
Arguments gnode : clear implicits.
Arguments gworld : clear implicits.
