(** What is expected of logging and of agent classes. *)
From Coq Require Import List String Ascii.
From Verif Require Import PyDict.
Import ListNotations.
Local Open Scope string_scope.

(** Words separated by spaces. *)
Fixpoint words (l : list string) : string :=
  match l with
  | [] => ""
  | x :: l' => match l' with [] => x | _ => x ++ String " " (words l') end
  end.
(** A text ends with another. *)
Definition ends_with (s t : string) : Prop := exists p, s = p ++ t.
(** The attributes of a dictionary whose name is among some. *)
Definition restricted {V} (names : list string) (d e : dict string V) : Prop :=
  forall k v, dget k e = Some v <-> dget k d = Some v /\ In k names.
