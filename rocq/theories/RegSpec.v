(** Specification of [schedule.agents], the agents that are registered with a
    scheduler, in terms of the calls of [add] and [remove] only. *)
From Coq Require Import ZArith List Bool Arith.
From Verif Require Import Num TimedModel TimedSpec PQueueModel.
Import ListNotations.

(** Whether an agent is registered after some calls: the last call about it decides. *)
Fixpoint registered (a : aid) (calls : list sop) (before : bool) : bool :=
  match calls with
  | [] => before
  | SAdd b _ :: calls' => registered a calls' (if Nat.eqb a b then true else before)
  | SRem b :: calls' => registered a calls' (if Nat.eqb a b then false else before)
  end.

(** The same user code, writing down in the world the calls that it makes. *)
Definition recording {W} (u : user W) : user (W * list sop) := User (W * list sop)
  (fun s a wc => let '(w1, ops, o) := u_step u s a (fst wc) in ((w1, snd wc ++ ops), ops, o))
  (fun l wc => let '(w1, l1) := u_shuffle u l (fst wc) in ((w1, snd wc), l1)).

(** A history in which the owner of the model writes down its calls, too. *)
Definition noted {W} (h : list (@cmd W)) : list (@cmd (W * list sop)) :=
  flat_map (fun c =>
    match c with
    | CStep => [CStep]
    | CAdd a when => [CAdd a when; CWorld (fun wc => (fst wc, snd wc ++ [SAdd a when]))]
    | CRem a => [CRem a; CWorld (fun wc => (fst wc, snd wc ++ [SRem a]))]
    | CWorld f => [CWorld (fun wc => (f (fst wc), snd wc))]
    end) h.

(** User code that does not look at the registry. *)
Definition ignores_registry {W} (u : user W) : Prop :=
  forall s s' a w, s_time s = s_time s' -> s_steps s = s_steps s' ->
  s_queue s = s_queue s' -> s_shuffle s = s_shuffle s' -> s_di s = s_di s' ->
  u_step u s a w = u_step u s' a w.

(** A history without the removals that its owner asks for. *)
Definition without_removals {W} (h : list (@cmd W)) : list (@cmd W) :=
  filter (fun c => match c with CRem _ => false | _ => true end) h.

(** For the scheduler with a priority queue. *)
Definition p_recording {W} (u : puser W) : puser (W * list sop) := PUser (W * list sop)
  (fun s a wc => let '(w1, ops, o) := p_step u s a (fst wc) in ((w1, snd wc ++ ops), ops, o))
  (fun wc => let '(w1, z) := p_draw u (fst wc) in ((w1, snd wc), z)).

(** A trace in which the last event, and no other, is an activation that failed. *)
Definition fails_last (tr : list ev) : Prop :=
  exists tr0 t a, tr = tr0 ++ [EvAct t a Exc] /\ no_exc tr0.
