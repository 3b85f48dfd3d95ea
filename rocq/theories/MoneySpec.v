(** Specification for MoneyProps.v. *)
From Coq Require Import List Bool Arith ZArith.
From Verif Require Import PyDict NetModel MoneyModel.
Import ListNotations.

(** What Python's generator guarantees. *)
Definition fair (r : luck) : Prop :=
  (forall i l, incl (l_choices r i l) l /\ List.length (l_choices r i l) = List.length l) /\
  (forall i b, 0 < b -> l_range r i b < b).

(** A graph with the nodes 0, ..., n-1, in order and without agents, such as [graph_generator] and [networkx.complete_graph] give. *)
Definition plain (n : nat) (g : graph nat) : Prop := g_nodes g = map (fun i => (i, None)) (seq 0 n).

(** The agent on a node. *)
Definition agent_on (e : nenv nat) (m : nat) (o : obj) : Prop := get_slot (ne_graph e) m = Some (Some o).

(** Every agent knows a node, which has that agent, and no other node has it. *)
Definition settled (e : nenv nat) : Prop :=
  forall o a, nth_error (ne_objs e) o = Some a ->
  exists m, ag_node a = Some m /\ agent_on e m o /\ forall m', agent_on e m' o -> m' = m.
