(** Specification of what users expect from a scheduler, in terms of the observable
    trace only (no queue). *)
From Coq Require Import ZArith List Bool Arith Permutation.
From Verif Require Import Num TimedModel.
Import ListNotations.

Section Arith.
Context {AR : Arith}.

(** The instant at which an agent that was activated at [now] with outcome [o] must be
    activated next, if ever: after the returned delay, or after the default interval
    [di] if it returned None or zero; never after an infinite delay, when dead, or
    after a failure. *)
Definition next_due (di now : num) (o : outcome) : option num :=
  match o with
  | Dead | Exc => None
  | Ret r =>
      let d := match r with
               | None => di
               | Some v => if n_eqb v (Fin 0) then di else v
               end in
      let t := n_add now d in
      if n_eqb t PInf then None else Some t
  end.

Definition due_eqb (x y : num * aid) : bool :=
  n_eqb (fst x) (fst y) && Nat.eqb (snd x) (snd y).

Fixpoint remove1 (x : num * aid) (l : list (num * aid)) : list (num * aid) :=
  match l with
  | [] => []
  | y :: l' => if due_eqb x y then l' else y :: remove1 x l'
  end.

Definition opt_due (a : aid) (t : option num) : list (num * aid) :=
  match t with None => [] | Some t => [(t, a)] end.

(** The appointments that are pending after a trace, in the order in which they were
    made. *)
Fixpoint agenda (di : num) (ag : list (num * aid)) (tr : list ev) : list (num * aid) :=
  match tr with
  | [] => ag
  | EvAdd t a :: tr' => agenda di (ag ++ [(t, a)]) tr'
  | EvAct t a o :: tr' =>
      agenda di (remove1 (t, a) ag ++ opt_due a (next_due di t o)) tr'
  end.

(** Every activation has an appointment. *)
Fixpoint punctual (di : num) (ag : list (num * aid)) (tr : list ev) : Prop :=
  match tr with
  | [] => True
  | EvAdd t a :: tr' => punctual di (ag ++ [(t, a)]) tr'
  | EvAct t a o :: tr' =>
      In (t, a) ag /\ punctual di (remove1 (t, a) ag ++ opt_due a (next_due di t o)) tr'
  end.

(** The agents due at [t], in the order of their appointments. *)
Definition due_at (t : num) (ag : list (num * aid)) : list aid :=
  map snd (filter (fun p => n_eqb (fst p) t) ag).

Definition is_act (e : ev) : bool := match e with EvAct _ _ _ => true | _ => false end.
Definition is_exc (e : ev) : bool :=
  match e with EvAct _ _ Exc => true | _ => false end.
Definition is_add_of (a : aid) (e : ev) : bool :=
  match e with EvAdd _ b => Nat.eqb a b | _ => false end.
Definition about (a : aid) (e : ev) : bool :=
  match e with EvAdd _ b => Nat.eqb a b | EvAct _ b _ => Nat.eqb a b end.

(** Nobody raised anything but DeadAgent. *)
Definition no_exc (tr : list ev) : Prop := forallb (fun e => negb (is_exc e)) tr = true.

(** The activations of a trace: instant and agent. *)
Definition acts (tr : list ev) : list (num * aid) :=
  flat_map (fun e => match e with EvAct t a _ => [(t, a)] | EvAdd _ _ => [] end) tr.

(** [timetable di a due tr pend]: [tr] is a correct sequence of activations of [a] when
    its first appointment is at [due], and [pend] is the appointment left at the end. *)
Inductive timetable (di : num) (a : aid) : num -> list ev -> option num -> Prop :=
| tt_waiting due : timetable di a due [] (Some due)
| tt_over due o : next_due di due o = None ->
    timetable di a due [EvAct due a o] None
| tt_next due o due' tr pend : next_due di due o = Some due' ->
    timetable di a due' tr pend ->
    timetable di a due (EvAct due a o :: tr) pend.

(** How often [a] was added. *)
Definition adds_of (a : aid) (tr : list ev) : nat := length (filter (is_add_of a) tr).

(** [t] is the earliest appointment of the agenda. *)
Definition earliest (ag : list (num * aid)) (t : num) : Prop :=
  (exists a, In (t, a) ag) /\ forall t' a, In (t', a) ag -> n_leb t t' = true.

(** User code that never asks to be woken in the past. *)
Definition forward_only {W} (u : user W) : Prop :=
  forall s a w, match u_step u s a w with
                | (_, _, Ret (Some d)) => nonneg d = true
                | _ => True
                end.

(** [random.shuffle] permutes. *)
Definition fair_shuffle {W} (u : user W) : Prop :=
  forall l w, Permutation l (snd (u_shuffle u l w)).
End Arith.
