(** Model of networks made by generators: soil/network.py:42-53 [from_params] and soil/environment.py:303-320 [create_network]. *)
From Coq Require Import List Bool Arith String.
From Verif Require Import PyDict SerialModel.
Import ListNotations.
Local Open Scope string_scope.
Local Open Scope list_scope.

Section Generators.
(** Objects (functions among them), values of arguments, the state of the world (random generators, ...) and graphs. *)
Context {O V W Gr : Type}.
Notation registry := (dict string (option (dict string O))).
(** What a call gives: a graph, something that is not a graph, a TypeError or another exception. *)
Inductive result := RGraph (g : Gr) | ROther | RTypeError | RRaises.
(** Whether a call with these keyword arguments fits the signature of the object, and what the body does then. *)
Context (accepts : O -> list string -> bool) (body : O -> dict string V -> W -> W * result).
Definition call (o : O) (params : dict string V) (w : W) : W * result :=
  if accepts o (dkeys params) then body o params w else (w, RTypeError).

(** Importing modules depends on [sys.path]. *)
Notation syspath := (list (option string)).
Context (import : syspath -> string -> option (dict string O)) (builtins : dict string O) (hook : O -> option O).

(** The argument [generator]: the name of one, or a function. *)
Inductive generator := GName (s : string) | GObject (o : O).

Definition opt_eqb (a b : option string) : bool :=
  match a, b with Some x, Some y => String.eqb x y | None, None => true | _, _ => false end.
(** soil/network.py:44-45. *)
Definition extend_path (dir_path : option string) (p : syspath) : syspath :=
  if existsb (opt_eqb dir_path) p then p else p ++ [dir_path].

(** Calling what [deserializer] returns (soil/serialization.py:218-254): the object, or a function of one optional argument x. *)
Definition call_found (f : found O) (params : dict string V) (w : W) : W * result :=
  match f with
  | Found o => call o params w
  | Identity | AlwaysNone | Literal _ => (w, if forallb (String.eqb "x") (dkeys params) then ROther else RTypeError)
  | RaisesValueError | RaisesOther => (w, RRaises)
  end.

(** soil/network.py:42-53 [from_params]: the result, and [sys.path], the registry of modules and the world afterwards. *)
Definition from_params (g : generator) (dir_path : option string) (params : dict string V) (p : syspath) (r : registry) (w : W)
  : syspath * registry * W * result :=
  let p' := extend_path dir_path p in
  let '(f, r') := match g with
                  | GObject o => (Found o, r)
                  | GName s => deserializer (import p') builtins hook s ["networkx.generators"] r
                  end in
  let '(w', x) := call_found f params w in (p', r', w', x).

(** soil/environment.py:303-320 [create_network].  [topology] and [path] are what [from_topology] makes of these arguments, if they are
    given (soil/network.py:13-39, see PathModel.v); [seed] is [self.random].  The names [seed] and [dir_path] cannot be used in
    [network_params]: [dict(...)] raises TypeError, outside of the try. *)
Definition create_network (topology path : option result) (g : option generator) (dir_path : string) (seed : V)
    (network_params : dict string V) (p : syspath) (r : registry) (w : W) : syspath * registry * W * result :=
  match topology, path, g with
  | Some x, _, _ => (p, r, w, x)
  | None, Some x, _ => (p, r, w, x)
  | None, None, Some g =>
      if dhas "seed" network_params || dhas "dir_path" network_params then (p, r, w, RTypeError)
      else
        match from_params g (Some dir_path) (("seed", seed) :: network_params) p r w with
        | (p1, r1, w1, RTypeError) => from_params g (Some dir_path) network_params p1 r1 w1
        | x => x
        end
  | None, None, None => (p, r, w, RRaises)
  end.
End Generators.
Arguments result : clear implicits. Arguments generator : clear implicits.
Arguments RGraph {Gr}. Arguments ROther {Gr}. Arguments RTypeError {Gr}. Arguments RRaises {Gr}.
