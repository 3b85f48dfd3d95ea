(** Model of the option [--set] of the command line, soil/__init__.py:232-247. *)
From Coq Require Import List Bool String Ascii.
From Verif Require Import PyDict.
Import ListNotations.
Local Open Scope string_scope.
Local Open Scope list_scope.

(** [s.split(c, 1)]: the parts before and after the first [c]; None if there is none. *)
Fixpoint split_first (c : ascii) (s : string) : option (string * string) :=
  match s with
  | EmptyString => None
  | String x s' =>
      if Ascii.eqb x c then Some (EmptyString, s')
      else match split_first c s' with
           | None => None
           | Some (a, b) => Some (String x a, b)
           end
  end.

(** [s.split(c)] *)
Fixpoint split_all (c : ascii) (s : string) : list string :=
  match s with
  | EmptyString => [EmptyString]
  | String x s' =>
      if Ascii.eqb x c then EmptyString :: split_all c s'
      else match split_all c s' with
           | [] => [String x EmptyString]
           | p :: ps => String x p :: ps
           end
  end.

(** [s.rsplit(c, 1)]: the parts before and after the last [c], or the whole text. *)
Fixpoint split_last (c : ascii) (s : string) : option (string * string) :=
  match s with
  | EmptyString => None
  | String x s' =>
      match split_last c s' with
      | Some (a, b) => Some (String x a, b)
      | None => if Ascii.eqb x c then Some (EmptyString, s') else None
      end
  end.

Section CliSet.
(** Atomic values: numbers, texts, lists, classes, ...  Simplification: they have no
    attributes or items that can be set. *)
Context {A : Type}.

(** A value: an atom, a dictionary with texts as keys, or an object with attributes. *)
Inductive pv :=
| PA (a : A)
| PD (d : list (string * pv))
| PO (o : list (string * pv)).

(** The names of the attributes of dictionaries: "keys", "items", "get", ...
    Simplification: what is found there is no container ([--set __class__.x=1] is left
    out). *)
Variable dict_attr : string -> bool.
(** [eval(v)]: None when it raises. *)
Variable eval : string -> option pv.

(** soil/__init__.py:244-247: [setattr], or [target[tail] = v] if it raises
    AttributeError, as it does for dictionaries. *)
Definition set_in (target : pv) (tail : string) (v : pv) : option pv :=
  match target with
  | PA _ => None                           (* TypeError *)
  | PD d => Some (PD (dset tail v d))
  | PO o => Some (PO (dset tail v o))
  end.

(** soil/__init__.py:238-247: from the target along the names, attributes going before
    items.  The result is the target with the value set (None: an exception). *)
Fixpoint set_along (path : list string) (tail : string) (v : pv) (target : pv) : option pv :=
  match path with
  | [] => set_in target tail v
  | part :: path' =>
      match target with
      | PA _ => None                       (* AttributeError, then TypeError *)
      | PO o =>
          match dget part o with
          | None => None                   (* AttributeError, then TypeError *)
          | Some t => option_map (fun t' => PO (dset part t' o)) (set_along path' tail v t)
          end
      | PD d =>
          if dict_attr part then None      (* a method: nothing can be set there *)
          else match dget part d with
               | None => None              (* KeyError *)
               | Some t => option_map (fun t' => PD (dset part t' d)) (set_along path' tail v t)
               end
      end
  end.

(** soil/__init__.py:234-247: one option. *)
Definition cli_set (s : string) (parameters : pv) : option pv :=
  match split_first "=" s with
  | None => None                           (* ValueError *)
  | Some (k, text) =>
      match eval text with
      | None => None
      | Some v =>
          match split_last "." k with
          | None => set_along [] k v parameters
          | Some (head, tail) => set_along (split_all "." head) tail v parameters
          end
      end
  end.

(** soil/__init__.py:232-233: all the options, in order. *)
Fixpoint cli_sets (ss : list string) (parameters : pv) : option pv :=
  match ss with
  | [] => Some parameters
  | s :: ss' =>
      match cli_set s parameters with
      | None => None
      | Some p => cli_sets ss' p
      end
  end.
End CliSet.
Arguments pv : clear implicits.
