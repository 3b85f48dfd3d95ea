(** Specification for TurnProps.v. *)
From Coq Require Import ZArith List Bool.
From Verif Require Import Num TimedModel.
Import ListNotations.

(** No agent raises anything but DeadAgent. *)
Definition never_fails {W} (u : user W) : Prop := forall s a w, snd (u_step u s a w) <> Exc.

(** The agent asks for the same delay [d] each time, explicitly or by leaving it to the default interval [di]. *)
Definition keeps_pace {W} (u : user W) (di : num) (a : aid) (d : Z) : Prop :=
  (0 < d)%Z /\ forall s w, snd (u_step u s a w) = Ret (Some (Fin d)) \/ (di = Fin d /\ snd (u_step u s a w) = Ret None).

(** The instants at which [a] acts in a trace. *)
Definition acts_of (a : aid) (tr : list ev) : list num :=
  flat_map (fun e => match e with EvAct t b _ => if Nat.eqb a b then [t] else [] | EvAdd _ _ => [] end) tr.
