(** What is expected of [--set]. *)
From Coq Require Import List Bool String Ascii.
From Verif Require Import PyDict CliSetModel.
Import ListNotations.
Local Open Scope string_scope.
Local Open Scope list_scope.

(** The text does not contain the character. *)
Fixpoint lacks (c : ascii) (s : string) : Prop :=
  match s with
  | EmptyString => True
  | String x s' => x <> c /\ lacks c s'
  end.

(** "a.b.c" *)
Fixpoint dotted (p : string) (ps : list string) : string :=
  match ps with
  | [] => p
  | q :: ps' => p ++ "." ++ dotted q ps'
  end.

Section Spec.
Context {A : Type}.

(** The value that is found by following the names. *)
Fixpoint lookup (path : list string) (t : pv A) : option (pv A) :=
  match path with
  | [] => Some t
  | p :: path' =>
      match t with
      | PA _ => None
      | PD d | PO d => match dget p d with None => None | Some t' => lookup path' t' end
      end
  end.

(** There is a dictionary or an object at the end of the path, and no name on the way is
    taken for a method of a dictionary. *)
Fixpoint leads (method : string -> bool) (path : list string) (t : pv A) : Prop :=
  match path, t with
  | _, PA _ => False
  | [], _ => True
  | p :: path', PD d =>
      method p = false /\ exists t', dget p d = Some t' /\ leads method path' t'
  | p :: path', PO o => exists t', dget p o = Some t' /\ leads method path' t'
  end.

(** One of the paths is the beginning of the other. *)
Definition related (p q : list string) : Prop := exists r, q = p ++ r \/ p = q ++ r.
End Spec.
