(** What is expected of the news of the tutorial. *)
From Coq Require Import ZArith List Bool Arith String Permutation QArith Qminmax.
From Verif Require Import Num PyDict TimedModel TimedSpec AgentModel FsmModel BroadcastModel.
Import ListNotations.
Local Open Scope string_scope.
Local Open Scope nat_scope.
#[local] Existing Instance exact.

(** A run of a model with the generator [g] and viewers, which are added when the model is created; then
    the owner steps the model and removes agents.  [one] is the unit of time in ticks. *)
Record broadcast_run (one event d : Z) (factor : Q) (g : aid) (tv : aid -> bool) (nbrs : aid -> list aid) (p_tv p : Q)
    (draws : nat -> Q) (s : sched) (w : fworld bfun brest) (tr : list ev) : Prop := {
  br_run : exists shuffle sh l h c, (forall f l, Permutation l (fst (shuffle f l))) /\ NoDup l /\ In g l /\
    Forall (fun c => match c with CStep | CRem _ => True | _ => False end) h /\
    run_hist (broadcast_user one event factor shuffle) (map (fun a => CAdd a None) l ++ h) (timed_init sh (Fin d))
      (studio g tv nbrs p_tv p draws, no_cors) = (s, (w, c), tr);
  br_interval : (0 < d)%Z;
  br_one : (0 < one)%Z;
  br_event : (0 <= event)%Z }.

(** [model.prob_tv_spread], [model.prob_neighbor_spread], [agent.alive], [agent.infected_by_friends] and [agent.state_id]. *)
Definition prob_tv_spread (w : fworld bfun brest) : Q := b_tv_spread (fw_rest w).
Definition prob_neighbor_spread (w : fworld bfun brest) : Q := b_spread (fw_rest w).
Definition b_alive (w : fworld bfun brest) (a : aid) : bool := fa_alive (fw_agents w a).
Definition by_friends (w : fworld bfun brest) (a : aid) : bool := b_hit (fw_rest w) a.
Definition b_state_id (w : fworld bfun brest) (a : aid) : option string := option_map st_name (fa_cur (fw_agents w a)).

(** The probability of the neighbours [k] units of time after the event. *)
Definition faded (p factor : Q) (k : nat) : Q := (Qmin (p * 2) 1 * Qpower factor (Z.of_nat k))%Q.

(** A set of viewers that the news cannot leave: who owns a television is in it, and so are the
    neighbours of who is in it. *)
Definition news_closed (tv : aid -> bool) (nbrs : aid -> list aid) (S : aid -> Prop) : Prop :=
  (forall a, tv a = true -> S a) /\ (forall a b, S a -> In b (nbrs a) -> S b).
