(** Specification for TurnPqProps.v: the counterparts of TurnSpec.v for the priority queue. *)
From Coq Require Import ZArith List Bool.
From Verif Require Import Num TimedModel PQueueModel.
Import ListNotations.

(** No agent raises anything but DeadAgent. *)
Definition p_never_fails {W} (u : puser W) : Prop := forall s a w, snd (p_step u s a w) <> Exc.

(** The agent asks for the same delay [d] each time, explicitly or by leaving it to the default interval [di]. *)
Definition p_keeps_pace {W} (u : puser W) (di : num) (a : aid) (d : Z) : Prop :=
  (0 < d)%Z /\ forall s w, snd (p_step u s a w) = Ret (Some (Fin d)) \/ (di = Fin d /\ snd (p_step u s a w) = Ret None).
