(** What is expected of the counters. *)
From Coq Require Import ZArith List Bool Arith.
From Verif Require Import Num TimedModel CounterModel.
Import ListNotations.

(** How often an agent is activated in a trace. *)
Fixpoint activated (a : aid) (tr : list ev) : nat :=
  match tr with
  | [] => 0
  | EvAct _ b _ :: tr' => (if Nat.eq_dec a b then 1 else 0) + activated a tr'
  | _ :: tr' => activated a tr'
  end.

(** The owner of the model steps it, adds agents and removes agents. *)
Definition hands_off {W} (h : list (cmd (W := W))) : Prop := forall f, ~ In (CWorld f) h.

(** [l] are the agents of [m] that are in the list [n], once each. *)
Definition common (n m l : list aid) : Prop := NoDup l /\ forall b, In b l <-> In b n /\ In b m.
