(** Model of soil/simulation.py:282-287 [to_dict] and [to_yaml], of soil/__init__.py:249-251 (the option
    [--only-convert]) and of the configurations (soil/simulation.py:174-189) of a simulation that is made from what
    they write, on [SerialModel]. *)
From Coq Require Import List Bool Arith String.
From Verif Require Import PyDict SimModel SerialModel.
Import ListNotations.

Section Convert.
Context {A C : Type} {EA : Eqb A}.
Context (repr : value A C -> string) (class_name class_text : C -> string).
Notation fields := (list (dkey A * value A C)).

(** The fields of a simulation that its configurations depend on, soil/simulation.py:90-91.  Simplification: the rest
    is left out. *)
Record simulation := Simulation { parameters : fields; matrix : fields }.

(** soil/simulation.py:282-284.  [asdict] copies dictionaries and lists, so that the simulation is left alone. *)
Definition to_dict (s : simulation) : simulation :=
  Simulation (serialize_dict repr class_name class_text (parameters s))
             (serialize_dict repr class_name class_text (matrix s)).

(** [iter(v)]: the elements of lists and tuples; None for TypeError.  Simplification: the values of a matrix are lists
    or tuples. *)
Definition elements (v : value A C) : option (list (value A C)) :=
  match v with VList l | VTuple l => Some l | _ => None end.
Fixpoint all_elements (m : fields) : option (list (list (value A C))) :=
  match m with
  | [] => Some []
  | (_, v) :: m' =>
      match elements v, all_elements m' with
      | Some l, Some ls => Some (l :: ls)
      | _, _ => None
      end
  end.

(** soil/simulation.py:174-189: the configurations, or None for TypeError. *)
Definition configurations (s : simulation) : option (list fields) :=
  let ps1 := if is_nil (parameters s) then [] else [parameters s] in
  match (if is_nil (matrix s) then Some []
         else option_map (fun ls => map (fun values => dict_of (combine (map fst (matrix s)) values)) (product ls))
                         (all_elements (matrix s))) with
  | None => None
  | Some ps2 => let ps := (ps1 ++ ps2)%list in Some (if is_nil ps then [[]] else ps)
  end.
End Convert.
Arguments simulation : clear implicits.
