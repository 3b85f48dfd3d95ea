(** Specification for the priority-queue scheduler; the trace specification is that of
    [TimedSpec]. *)
From Coq Require Import ZArith List Bool Arith Permutation.
From Verif Require Import Num TimedModel TimedSpec PQueueModel.
Import ListNotations.

Section Arith.
Context {AR : Arith}.

(** User code that never asks to be woken in the past. *)
Definition p_forward_only {W} (u : puser W) : Prop :=
  forall s a w, match p_step u s a w with
                | (_, _, Ret (Some d)) => nonneg d = true
                | _ => True
                end.

(** User code that adds no agents. *)
Definition p_adds_nobody {W} (u : puser W) : Prop :=
  forall s a w, let '(_, ops, _) := p_step u s a w in
                forallb (fun op => match op with SAdd _ _ => false | SRem _ => true end) ops = true.

(** A history without additions. *)
Definition adds_nobody {W} (h : list (@cmd W)) : Prop :=
  forallb (fun c => match c with CAdd _ _ => false | _ => true end) h = true.

(** Adding a list of agents. *)
Definition add_all {W} (l : list aid) : list (@cmd W) := map (fun a => CAdd a None) l.

(** The pending activations of an agent. *)
Definition pending (a : aid) (h : list entry) : list num :=
  map e_when (filter (fun e => Nat.eqb a (e_agent e)) h).

(** The trace without the failing activations. *)
Definition successes (tr : list ev) : list ev := filter (fun e => negb (is_exc e)) tr.

(** Behaviours that do not look at the scheduler except for the clock, do not call it,
    and for which the order of the agents of one instant does not matter.  [R] is
    equality of worlds up to what the schedulers themselves do to them (drawing random
    numbers). *)
Record order_free {W} (R : W -> W -> Prop) (beh : num -> aid -> W -> W * outcome) : Prop := {
  of_refl : forall w, R w w;
  of_sym : forall w w', R w w' -> R w' w;
  of_trans : forall w1 w2 w3, R w1 w2 -> R w2 w3 -> R w1 w3;
  of_ext : forall t a w w', R w w' ->
    R (fst (beh t a w)) (fst (beh t a w')) /\ snd (beh t a w) = snd (beh t a w');
  of_comm : forall t a b w, a <> b ->
    R (fst (beh t b (fst (beh t a w)))) (fst (beh t a (fst (beh t b w)))) /\
    snd (beh t b (fst (beh t a w))) = snd (beh t b w) }.

(** The same behaviour, under either scheduler. *)
Definition as_user {W} (beh : num -> aid -> W -> W * outcome)
  (shuffle : list aid -> W -> W * list aid) : user W :=
  User W (fun s a w => let '(w', o) := beh (s_time s) a w in (w', [], o)) shuffle.
Definition as_puser {W} (beh : num -> aid -> W -> W * outcome)
  (draw : W -> W * Z) : puser W :=
  PUser W (fun s a w => let '(w', o) := beh (p_time s) a w in (w', [], o)) draw.

(** No failures and no waking in the past. *)
Definition calm {W} (beh : num -> aid -> W -> W * outcome) : Prop :=
  forall t a w, match snd (beh t a w) with
                | Ret (Some d) => nonneg d = true
                | Ret None => True
                | Dead => True
                | Exc => False
                end.

(** The completed activations of a trace with their outcomes. *)
Definition activations (tr : list ev) : list (num * aid * outcome) :=
  flat_map (fun e => match e with EvAct t a o => [(t, a, o)] | EvAdd _ _ => [] end) tr.
End Arith.
