(** What the data frames of an environment should hold: soil/environment.py:125-139 and soil/analysis.py:7-27. *)
From Coq Require Import ZArith List Bool Arith String Sorting.Sorted.
From Verif Require Import Num PyDict RunModel DfModel.
Import ListNotations.
Local Open Scope string_scope.
Local Open Scope list_scope.

Section Spec.
Context {V : Type}.
(** The data collector of a model with the given reporters, after the collections. *)
Definition collected (mr ar : list string) (sns : list (snap V)) : dcol V := fold_left dcollect sns (new_dcol mr ar).

(** A column of a frame. *)
Definition column (f : frame V) (name : string) : option (list (cell V)) := dget name (f_cols f).

(** The rows of a collection, with a time. *)
Definition rows_at (ar : list string) (sn : snap V) (t : num) : list (cell V * nat * list (option V)) :=
  map (fun a => (CTime t, a, map (fun r => Some (sn_agent sn a r)) ar)) (sn_agents sn).
(** How many of the values that are collected from the agents are the given one. *)
Definition cells_with (veqb : V -> V -> bool) (ar : list string) (sn : snap V) (v : V) : nat :=
  List.length (filter (veqb v) (flat_map (fun a => map (sn_agent sn a) ar) (sn_agents sn))).

(** The cells of a frame of agents by numbers of steps that have a value. *)
Definition filled (af : aframe V) : list (nat * V) :=
  flat_map (fun r => match fst (fst r) with
                     | CCount i => flat_map (fun x => match x with Some y => [(i, y)] | None => [] end) (snd r)
                     | _ => []
                     end) (af_rows af).

(** Collections at growing numbers of steps and at different times, which are numbers. *)
Definition regular (sns : list (snap V)) : Prop :=
  StronglySorted lt (map sn_steps sns) /\ NoDup (map sn_time sns) /\ Forall (fun sn => sn_time sn <> NaN) sns.
Definition peopled (sns : list (snap V)) : Prop := Forall (fun sn => sn_agents sn <> [] /\ NoDup (sn_agents sn)) sns.
End Spec.
