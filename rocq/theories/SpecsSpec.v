(** Specification for SpecsProps.v. *)
From Coq Require Import List Bool Arith String.
From Verif Require Import PyDict DistModel DistSpec SpecsModel.
Import ListNotations.

Section Spec.
Context {V C : Type}.
(** The entries of a distribution with a strategy. *)
Fixpoint filling (l : list (strategy * entry V C)) : list (entry V C) :=
  match l with [] => [] | (Topology, d) :: l' => d :: filling l' | _ :: l' => filling l' end.
Fixpoint totalling (l : list (strategy * entry V C)) : list (entry V C) :=
  match l with [] => [] | (Total, d) :: l' => d :: totalling l' | _ :: l' => totalling l' end.
(** The agents of an entry are in the network. *)
Definition meant (df : defaults V C) (d : entry V C) : Prop :=
  en_topology d = Some true \/ (en_topology d = None /\ df_topology df = true).
(** The agents with a specification of their own; how many of them are counted, and how many are in the network. *)
Definition own (cf : agent_config V C) : list (fixed V C) := match cf_fixed cf with Some l => l | None => [] end.
Definition seen (cf : agent_config V C) : nat := List.length (filter (fun f => negb (fx_hidden f)) (own cf)).
Definition linked (cf : agent_config V C) : nat :=
  List.length (filter (fun f => in_network (fx_topology f) (df_topology (cf_defaults cf)) (cf_defaults cf)) (own cf)).
(** The configuration is complete: entries that fill the network are meant to be in it, and it has nodes; for those that reach a total
    there is one; and the weights are positive. *)
Definition complete (cf : agent_config V C) (size : nat) : Prop :=
  (forall d, In d (filling (cf_distribution cf)) -> meant (cf_defaults cf) d) /\
  (filling (cf_distribution cf) <> [] -> size <> 0) /\
  (totalling (cf_distribution cf) <> [] -> exists n, cf_n cf = Some n /\ n <> 0) /\
  (exists ws, weighted (filling (cf_distribution cf)) ws) /\ (exists ws, weighted (totalling (cf_distribution cf)) ws).
End Spec.
