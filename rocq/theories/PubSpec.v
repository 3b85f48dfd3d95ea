(** What is expected of the pubs of the pubcrawl example. *)
From Coq Require Import ZArith List Bool Arith.
From Verif Require Import PyDict PubModel.
Import ListNotations.
Local Open Scope Z_scope.

(** Agent [a] is inside pub [p]. *)
Definition inside (c : city) (a : patron) (p : name) : Prop := c_pub c a = Some (Some p).
(** The number of the agents of a list that are inside a pub. *)
Definition number_inside (c : city) (p : name) (l : list patron) : Z :=
  Z.of_nat (List.length (filter (fun a => match c_pub c a with Some (Some q) => Nat.eqb q p | _ => false end) l)).

(** Calls of [enter] with agents of [all], no one twice, and none inside a pub. *)
Fixpoint orderly (get : option (nat -> patron)) (all : list patron) (l : list call) (c : city) : Prop :=
  match l with
  | [] => True
  | x :: l' =>
      match x with
      | Enter p nodes => NoDup nodes /\ forall a, In a nodes -> In a all /\ forall q, ~ inside c a q
      | Exit _ _ => True
      end /\ orderly get all l' (fst (one_call get x c))
  end.

(** There is room for [k] more in an open pub. *)
Definition accepts (b : pub) (k : Z) : Prop := p_open b = true /\ p_occupancy b + k <= p_capacity b.
