(** What is expected of flatten_dict and unflatten_dict. *)
From Coq Require Import List Bool Ascii String.
From Verif Require Import PyDict FlatModel.
Import ListNotations.
Local Open Scope string_scope.

Section FlatSpec.
Context {V K : Type} `{EK : Eqb K}.
Notation key := (key K).
Notation tree := (tree V K).

(** What is found in a nested dictionary by following keys. *)
Inductive thing := AValue (v : V) | ADict.
Fixpoint at_path (t : tree) (p : list key) : option thing :=
  match p, t with
  | [], Leaf v => Some (AValue v)
  | [], Node _ => Some ADict
  | _ :: _, Leaf _ => None
  | k :: p', Node d => match dget k d with None => None | Some t' => at_path t' p' end
  end.
(** Equality of dictionaries: the order of the keys does not matter. *)
Definition same (t t' : tree) : Prop := forall p, at_path t p = at_path t' p.

(** A Python dictionary: no key twice, at any level. *)
Fixpoint proper (t : tree) : Prop :=
  match t with
  | Leaf _ => True
  | Node d => NoDup (map fst d) /\
              (fix all d := match d with [] => True | (_, t') :: d' => proper t' /\ all d' end) d
  end.

Fixpoint dotted (s : string) : bool :=
  match s with EmptyString => false | String c s' => Ascii.eqb c "."%char || dotted s' end.
Definition plain (k : key) : Prop := exists s, k = KStr s /\ dotted s = false.

(** The dictionaries whose keys are strings without dots, that have no empty dictionary
    inside, and no dictionary under the key "". *)
Definition good (t : tree) : Prop :=
  at_path t [] = Some ADict /\
  (forall p k, at_path t (p ++ [k]) <> None -> plain k) /\
  (forall p, p <> [] -> at_path t p = Some ADict -> exists k, at_path t (p ++ [k]) <> None) /\
  at_path t [KStr ""] <> Some ADict.

(** The flat dictionaries: keys are strings, values are not dictionaries.  [clear]: no key
    begins with a dot, and none is a part of another one, such as "a.b" and "a.b.c". *)
Definition flat_dict (t : tree) : Prop :=
  at_path t [] = Some ADict /\
  (forall p, p <> [] -> at_path t p <> Some ADict) /\
  (forall k, at_path t [k] <> None -> exists s, k = KStr s).
Definition clear (t : tree) : Prop :=
  (forall s, at_path t [KStr (String "." s)] = None) /\
  (forall s r, at_path t [KStr s] <> None -> at_path t [KStr (s ++ "." ++ r)] = None).
End FlatSpec.
Arguments thing : clear implicits.
Arguments AValue {V}. Arguments ADict {V}.
