(** What is expected of agents and environments as dictionaries. *)
From Coq Require Import List Bool Ascii String.
From Verif Require Import PyDict MappingModel.
Import ListNotations.
Local Open Scope string_scope.

(** Names that do not begin with an underscore; those of agents are neither [model] nor [logger]. *)
Definition open_name (k : string) : bool := match k with String "_" _ => false | _ => true end.
Definition agent_name (k : string) : bool :=
  match k with "model" => false | "logger" => false | _ => open_name k end.

Section Spec.
Context {V : Type}.
(** The own attributes with a name of some kind, in their order. *)
Definition attributes (P : string -> bool) (o : object V) : list (string * V) :=
  filter (fun kv => P (fst kv)) (own o).
(** Is the name that of a property of the class? *)
Definition is_property (o : object V) (k : string) : Prop := exists g, dget k (cls o) = Some (CProperty g).
(** The objects that Python can build with names that are not empty: the names of its own attributes
    are different, and none is that of a property (they cannot be assigned). *)
Definition proper (o : object V) : Prop :=
  dwf (own o) /\ (forall k, In k (dkeys (own o)) -> ~ is_property o k) /\ ~ In "" (dkeys (own o)).
(** The object has nothing under the name: neither itself nor its class. *)
Definition lacks (o : object V) (k : string) : Prop := dget k (cls o) = None /\ dget k (own o) = None.
(** The value of a plain attribute: the own one, or else that of the class. *)
Definition plain (o : object V) (k : string) (v : V) : Prop :=
  ~ is_property o k /\
  (dget k (own o) = Some v \/ (dget k (own o) = None /\ dget k (cls o) = Some (CValue v))).
End Spec.
