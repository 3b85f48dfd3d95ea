(** Specification for [Lockstepper]. *)
From Coq Require Import ZArith List Bool Arith.
From Verif Require Import Num TimedModel TimedSpec.
Import ListNotations.

Section Arith.
Context {AR : Arith}.

(** The n-th point of the grid. *)
Fixpoint grid (start interval : num) (n : nat) : num :=
  match n with O => start | S n' => n_add (grid start interval n') interval end.

Definition is_step {W} (c : @cmd W) : bool := match c with CStep => true | _ => false end.

(** The number of steps of a history. *)
Definition nsteps {W} (h : list (@cmd W)) : nat := length (filter is_step h).

(** User code that adds no agents. *)
Definition adds_none {W} (u : user W) : Prop :=
  forall s a w, let '(_, ops, _) := u_step u s a w in
                forallb (fun op => match op with SAdd _ _ => false | SRem _ => true end) ops = true.
End Arith.
