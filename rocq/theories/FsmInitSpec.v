(** The state in which a state machine starts. *)
From Coq Require Import List Bool Arith String.
From Verif Require Import Num PyDict AgentModel FsmModel.
Import ListNotations.

Section Spec.
Context {F : Type}.

(** The last state of the list that is a default one. *)
Definition last_default (l : list (state F)) (st : state F) : Prop :=
  exists l1 l2, l = l1 ++ st :: l2 /\ st_default st = true /\
    forall st', In st' l2 -> st_default st' = false.
Definition no_default (l : list (state F)) : Prop := forall st, In st l -> st_default st = false.

(** The states in the body of a class. *)
Fixpoint written (own : list (option (state F))) : list (state F) :=
  match own with
  | [] => []
  | Some st :: own' => st :: written own'
  | None :: own' => written own'
  end.
(** The states that a class is made from: those of the tables of its bases, in order, and
    those of its body. *)
Definition sources (c : cls (option (state F))) : list (state F) :=
  flat_map (fun b => map snd (fst (meta b))) (c_bases c) ++ written (c_own c).
End Spec.
