(** What is expected of the drivers and passengers of the cars example. *)
From Coq Require Import ZArith List Bool Arith String Permutation.
From Verif Require Import Num TimedModel AgentModel FsmModel EventModel CarsModel.
Import ListNotations.

(** Shuffling gives a permutation and uses nothing but the random generator. *)
Definition fair (shuffle : list aid -> cevents -> cevents * list aid) : Prop :=
  forall l e, let '(e', l') := shuffle l e in
  Permutation l l' /\ exists draws, e' = set_rest e (set_draws (e_rest e) draws).

(** A city of that size with so many cars and passengers, as some run reaches it. *)
Definition reached (width height : Z) (n_cars n_passengers : nat) (s : sched) (w : cworld) (c : cors (frame cpoint)) : Prop :=
  exists (AR : Arith) one shuffle ordered di place draws n tr, fair shuffle /\
  (forall a, on_grid width height (place a) = true) /\
  city_run one width height shuffle ordered di n_cars n_passengers place draws n = (s, (w, c), tr).

Definition state_of (w : cworld) : crest := e_rest (fw_rest w).
(** The journey with that number. *)
Definition is_journey (w : cworld) (j : nat) (x : journey) : Prop := nth_error (cr_journeys (state_of w)) j = Some x.
(** The agent has that journey. *)
Definition has_journey (w : cworld) (a : aid) (j : nat) : Prop := cr_journey (state_of w) a = Some j.
Definition alive (w : cworld) (a : aid) : Prop := fa_alive (fw_agents w a) = true.
Definition stands_at (w : cworld) (a : aid) (p : cell) : Prop := cr_pos (state_of w) a = p.

(** The sum of the tips of these journeys, and those of a driver. *)
Definition tip_of (l : list journey) (j : nat) : Z := match nth_error l j with Some x => j_tip x | None => 0%Z end.
Definition tips (l : list journey) (paid : list nat) : Z := fold_right (fun j n => (tip_of l j + n)%Z) 0%Z paid.
Definition driven_by (l : list journey) (d : aid) (j : nat) : bool :=
  match nth_error l j with
  | Some x => match j_driver x with Some b => Nat.eqb b d | None => false end
  | None => false
  end.

(** How many cells lie between two cells. *)
Definition distance (p q : cell) : Z := (Z.abs (fst p - fst q) + Z.abs (snd p - snd q))%Z.
