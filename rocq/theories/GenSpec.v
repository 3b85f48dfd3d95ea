(** Specification for GenProps.v. *)
From Coq Require Import List Ascii String.
From Verif Require Import PyDict SerialModel SerialSpec GenModel.
Import ListNotations.
Local Open Scope string_scope.

(** The object that a generator stands for: a function is itself; a name without dots is that of an object of networkx.generators; a
    qualified name that of an object of a module. *)
Inductive stands_for {O} (import : string -> option (dict string O)) (builtins : dict string O) (hook : O -> option O)
    (r : dict string (option (dict string O))) : generator O -> O -> Prop :=
| for_object o : stands_for import builtins hook r (GObject o) o
| for_short s x o : ordinary builtins s -> has import r "networkx.generators" s x -> usable hook x o ->
    stands_for import builtins hook r (GName s) o
| for_qualified m t x o : plain_names import builtins r -> no_dot t -> (forall s, m <> String "<" s) -> m <> "" ->
    has import r m t x -> usable hook x o -> stands_for import builtins hook r (GName (m ++ "." ++ t)) o.
