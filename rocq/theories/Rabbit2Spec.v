(** What is expected of the improved rabbits, and of both kinds when they mate. *)
From Coq Require Import ZArith List Bool Arith String.
From Verif Require Import Num PyDict TimedModel AgentModel FsmModel RabbitModel Rabbit2Model.
Import ListNotations.
Local Open Scope string_scope.

(** A state machine that lives, is in a state and is not suspended. *)
Definition living {W} (w : fworld rfun W) (c : cors (frame rfun)) (a : aid) (st : state rfun) : Prop :=
  (exists states, fa_kind (fw_agents w a) = KFsm states) /\
  fa_alive (fw_agents w a) = true /\ fa_cur (fw_agents w a) = Some st /\ get_co c a = None.

(** Time that has passed since [t]. *)
Definition since {AR : Arith} (t : num) (s : sched) : num := n_add (s_time s) (n_opp t).

(** Activations of an agent, one with each of the schedulers: what they do to the world, the calls on
    the scheduler, and how they end. *)
Fixpoint acts {W} (u : code rfun rfun W) (fs : string -> option num) (a : aid) (l : list sched)
    (wc : fworld rfun W * cors (frame rfun)) : fworld rfun W * cors (frame rfun) * list sop * list outcome :=
  match l with
  | [] => (wc, [], [])
  | s :: l' =>
      let '(wc1, ops, o) := agent_step u fs s a wc in
      let '(wc2, ops2, os) := acts u fs a l' wc1 in
      (wc2, (ops ++ ops2)%list, o :: os)
  end.

(** The females that a male meets: the first fertile females in the schedule. *)
Definition meets {W} (who : aid -> role) (n : nat) (s : sched) (w : fworld rfun W) : list aid :=
  firstn n (filter (fun b =>
    match who b, fa_cur (fw_agents w b) with
    | Female, Some st => String.eqb (st_name st) "fertile"
    | _, _ => false
    end) (s_reg s)).
(** The one that he mates with, and her place: the first whose draw is below the chance. *)
Fixpoint chosen (mating : num) (draws : nat -> num) (i : nat) (l : list aid) : option (nat * aid) :=
  match l with
  | [] => None
  | f :: l' => if n_ltb (draws i) mating then Some (i, f) else chosen mating draws (S i) l'
  end.
