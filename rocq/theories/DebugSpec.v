(** What C199-C203 speak about. *)
From Coq Require Import List Bool Arith String.
From Verif Require Import PyDict DebugModel.
Import ListNotations.
Local Open Scope string_scope.
Local Open Scope list_scope.

(** A name in a frame, as Python looks it up. *)
Definition lookup (fr : frame) (x : string) : option val :=
  match dget x (fr_locals fr) with Some v => Some v | None => dget x (fr_globals fr) end.
(** Frames of Python: no name is there twice. *)
Definition frame_ok (fr : frame) : Prop := dwf (fr_globals fr) /\ dwf (fr_locals fr).
(** The agent whose code the frame runs. *)
Definition frame_agent (fr : frame) : option nat := match lookup fr "self" with Some (VAgent a) => Some a | _ => None end.
(** The model: [self], the model of [self], or what is called so. *)
Definition frame_model (model_of : nat -> nat) (fr : frame) : option nat :=
  match lookup fr "self" with
  | Some (VModel m) => Some m
  | Some (VAgent a) => Some (model_of a)
  | _ => match lookup fr "model" with Some (VModel m) => Some m | _ => None end
  end.
(** All frames of a session are of Python, and do not call anything [Debug]. *)
Definition session_ok (l : list (frame * cmd)) : Prop := forall fr c, In (fr, c) l -> frame_ok fr /\ lookup fr "Debug" = None.
(** What is shown of an agent: the keys that begin with one of the words. *)
Definition asked_for (words keys : list string) (shown : option (list string)) : Prop :=
  match words with
  | [] => shown = None
  | _ => exists l, shown = Some l /\ forall k, In k l <-> In k keys /\ exists w, In w words /\ exists rest, k = (w ++ rest)%string
  end.
(** A breakpoint at a place. *)
Definition broken (d : dbg) (place : nat) : Prop := exists b, In b (bps d) /\ bp_at b = place.
