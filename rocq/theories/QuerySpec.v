(** What a query for agents should return. *)
From Coq Require Import List Bool Arith String.
From Verif Require Import PyDict QueryModel.
Import ListNotations.

Section QuerySpec.
Context {A V C : Type}.
Variable veq : V -> V -> bool.
Variable uid : A -> V.
Variable state_of : A -> V.
Variable attr : A -> string -> V.
Variable isinstance : A -> C -> bool.

(** The values that are accepted for an attribute: a keyword argument goes before the same
    key of [state]. *)
Definition wanted (q : criteria V C) (k : string) : option (list V) :=
  match dget k (q_kwargs q) with
  | Some v => Some (as_list v)
  | None => match q_state q with
            | Some d => option_map as_list (dget k d)
            | None => None
            end
  end.

(** All the ids that are given, or None if no id is. *)
Definition wanted_ids (q : criteria V C) : option (list V) :=
  match q_unique_id q, q_id_args q with
  | None, [] => None
  | None, ids => Some ids
  | Some x, ids => Some (as_list x ++ ids)
  end.

(** [v] is one of the values of a criterion, if it is given. *)
Definition meets (v : V) (c : option (list V)) : Prop :=
  forall l, c = Some l -> exists x, In x l /\ veq v x = true.

Definition matches (q : criteria V C) (a : A) : Prop :=
  meets (uid a) (wanted_ids q) /\
  meets (state_of a) (option_map as_list (q_state_id q)) /\
  (forall cs, q_class q = Some cs -> exists c, In c cs /\ isinstance a c = true) /\
  (forall k, meets (attr a k) (wanted q k)).

(** [l'] is [l] without the elements that do not satisfy [P], cut after [limit]. *)
Inductive selects (P : A -> Prop) : option nat -> list A -> list A -> Prop :=
| Sel_nil n : selects P n [] []
| Sel_stop l : selects P (Some 0) l []
| Sel_skip n a l l' : ~ P a -> selects P n l l' -> selects P n (a :: l) l'
| Sel_all a l l' : P a -> selects P None l l' -> selects P None (a :: l) (a :: l')
| Sel_some n a l l' : P a -> selects P (Some n) l l' -> selects P (Some (S n)) (a :: l) (a :: l').

(** The criteria as the code understands them: an empty list of ids is no criterion, and of
    all the attributes only the last one counts (those of [state] come first, in their
    order, then the other keyword arguments). *)
Definition last_attr (q : criteria V C) : option (string * one_or_many V) :=
  let d := match q_state q with Some d => d | None => [] end in
  let others := filter (fun p => negb (dhas (fst p) d)) (q_kwargs q) in
  match rev others, rev d with
  | p :: _, _ => Some p
  | [], (k, v) :: _ => Some (k, match dget k (q_kwargs q) with Some v' => v' | None => v end)
  | [], [] => None
  end.
Definition understood (q : criteria V C) : criteria V C :=
  Criteria (q_id_args q)
    match q_unique_id q, q_id_args q with
    | Some (Many []), [] => None
    | x, _ => x
    end (q_state_id q) (q_class q) None (q_limit q)
    match last_attr q with Some p => [p] | None => [] end.

(** The arguments that Python can pass: no repeated keys. *)
Definition proper (q : criteria V C) : Prop :=
  dwf (q_kwargs q) /\ (forall d, q_state q = Some d -> dwf d).
End QuerySpec.
