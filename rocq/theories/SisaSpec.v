(** What is expected of the SISa model. *)
From Coq Require Import ZArith List Bool Arith String.
From Verif Require Import Num PyDict TimedModel AgentModel FsmModel SisaModel.
Import ListNotations.

(** How many of some agents are in a state of that name. *)
Fixpoint number_in (name : string) (w : fworld sfun srest) (l : list aid) : nat :=
  match l with
  | [] => 0
  | b :: l' =>
      (match fa_cur (fw_agents w b) with
       | Some st => if string_dec (st_name st) name then 1 else 0
       | None => 0
       end) + number_in name w l'
  end.
(** The first of the draws to come that are below their bounds decides. *)
Fixpoint decide {X} (draws : nat -> num) (n : nat) (l : list (num * X)) (otherwise : X) : X :=
  match l with
  | [] => otherwise
  | (bound, x) :: l' => if n_ltb (draws n) bound then x else decide draws (S n) l' otherwise
  end.
