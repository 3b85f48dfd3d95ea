(** Specification for CustomProps.v. *)
From Coq Require Import List Bool Ascii String.
From Verif Require Import PyDict SerialModel SerialSpec.
Import ListNotations.
Local Open Scope string_scope.

(** Names of attributes that are neither private nor special for classes of agents. *)
Definition public_name (k : string) : Prop :=
  k <> "" /\ (forall s, k <> String "_" s) /\ k <> "step" /\ k <> "defaults".

(** The object is not (used for) an attribute of a module, and not the value of an expression. *)
Definition unreachable {O} (import : string -> option (dict string O)) (eval : string -> option O) (hook : O -> option O)
    (r : dict string (option (dict string O))) (o : O) : Prop :=
  (forall k n x, has import r k n x -> ~ usable hook x o) /\ forall s, eval s <> Some o.
