(** What is expected of agents that count the neighbours that are in the same state. *)
From Coq Require Import List Bool Arith String.
From Verif Require Import Num TimedModel.
Import ListNotations.
Local Open Scope string_scope.

(** The states in which agents begin: the default one is "normal". *)
Definition known (given : option string) : Prop := given = None \/ given = Some "normal" \/ given = Some "unreachable".
Definition normal (given : option string) : Prop := given <> Some "unreachable".
(** [l] are the agents of [ids] next to [a] that are normal, without repetition. *)
Record normal_neighbours (ids : list aid) (nbrs : aid -> list aid) (given : aid -> option string) (a : aid) (l : list aid) : Prop := {
  nn_once : NoDup l;
  nn_all : forall b, In b l <-> In b ids /\ In b (nbrs a) /\ normal (given b) }.
