(** Specification of delays: when an agent is woken next. *)
From Coq Require Import List Bool.
From Verif Require Import Num TimedModel.
Import ListNotations.

(** [later] are the observations about agent [a] after an activation, up to the moment in
    which the clock shows [clock]: the next one is the activation of [a] at [t], or there
    is none yet and the clock has not passed [t]. *)
Definition woken_next_at (a : aid) (t clock : num) (later : list ev) : Prop :=
  match later with
  | [] => n_leb clock t = true
  | EvAct t' b _ :: _ => t' = t /\ b = a
  | EvAdd _ _ :: _ => False
  end.
