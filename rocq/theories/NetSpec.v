(** What is expected of agents in networks. *)
From Coq Require Import List Bool Arith ZArith String.
From Verif Require Import PyDict QueryModel NetModel.
Import ListNotations.

Section NetSpec.
Context {N : Type} `{EN : Eqb N}.

(** Agent [o] is the agent of node [n]. *)
Definition placed (e : nenv N) (o : nat) (n : N) : Prop :=
  dget n (g_nodes (ne_graph e)) = Some (Some (Some o)).
(** Node [n] is in the graph. *)
Definition in_graph (e : nenv N) (n : N) : Prop := In n (dkeys (g_nodes (ne_graph e))).
(** Node [n] has no entry for an agent ... *)
Definition vacant (e : nenv N) (n : N) : Prop := dget n (g_nodes (ne_graph e)) = Some None.
(** ... or has None in it. *)
Definition reserved (e : nenv N) (n : N) : Prop := dget n (g_nodes (ne_graph e)) = Some (Some None).
(** Node [n] has the same agent, or the same lack of one, in both. *)
Definition same_at (e e' : nenv N) (n : N) : Prop :=
  dget n (g_nodes (ne_graph e')) = dget n (g_nodes (ne_graph e)).
(** The nodes that [G.neighbors(n)] gives. *)
Definition linked (e : nenv N) (n m : N) : Prop :=
  In (n, m) (g_edges (ne_graph e)) \/
  (g_directed (ne_graph e) = false /\ In (m, n) (g_edges (ne_graph e))).

(** Number of nodes without an entry for an agent. *)
Definition vacancies (e : nenv N) : nat :=
  List.length (filter (fun p => match snd p with None => true | _ => false end) (g_nodes (ne_graph e))).

Definition the_agent (e : nenv N) (o : nat) (a : agent N) : Prop := nth_error (ne_objs e) o = Some a.

(** No node refers to an agent that does not exist yet. *)
Definition known (e : nenv N) : Prop := forall o n, placed e o n -> o < List.length (ne_objs e).

(** Operations that choose the ids of the new agents themselves. *)
Definition automatic (op : nop N) : bool :=
  match op with
  | NAdd _ (Some _) _ _ _ _ | NAddNode _ (Some _) _ _ _ _ => false
  | _ => true
  end.
(** The ids that are chosen along a history, in order. *)
Fixpoint chosen_ids (int_node : nat -> N) (name_node : Z -> N) (ops : list (nop N)) (e : nenv N) : list Z :=
  match ops with
  | [] => []
  | op :: ops' =>
      let e' := nstep int_node name_node e op in
      (if automatic op then map ag_uid (skipn (List.length (ne_objs e)) (ne_objs e')) else []) ++
      chosen_ids int_node name_node ops' e'
  end.

(** Every registered agent knows its node, and the node knows the agent. *)
Definition consistent (e : nenv N) : Prop :=
  forall o n, In o (ne_reg e) -> (node_of e o = Some n <-> placed e o n).

(** The operations that put agents on free nodes only, of classes that know about nodes
    (with random choices and shuffles of the nodes of the graph). *)
Definition knows_nodes (k : kind) : bool := match k with KNet | KBase => true | _ => false end.
Definition orderly (int_node : nat -> N) (e : nenv N) (op : nop N) : Prop :=
  match op with
  | NAdd KNet _ None false picks _ =>
      (forall p, In p picks -> in_graph e p) /\
      ~ in_graph e (int_node (List.length (g_nodes (ne_graph e))))
  | NAdd KBase _ None false _ _ => True
  | NAdd k _ (Some n) _ _ _ => knows_nodes k = true /\ (vacant e n \/ reserved e n)
  | NAdd _ _ _ _ _ _ => False
  | NAddNode k _ _ order _ _ => knows_nodes k = true /\ forall n, In n order <-> in_graph e n
  | NPopulate cs => forallb knows_nodes cs = true
  | NDie _ _ | NEdge _ _ => True
  end.
Fixpoint all_orderly (int_node : nat -> N) (name_node : Z -> N) (ops : list (nop N)) (e : nenv N) : Prop :=
  match ops with
  | [] => True
  | op :: ops' => orderly int_node e op /\ all_orderly int_node name_node ops' (nstep int_node name_node e op)
  end.

(** A new environment: no agents anywhere. *)
Definition fresh_env (e : nenv N) : Prop :=
  dwf (g_nodes (ne_graph e)) /\ ne_objs e = [] /\ ne_reg e = [] /\
  forall n o, ~ placed e o n.
End NetSpec.
