(** Theorems about the schedulers that do not shuffle the agents of one instant,
    [OrderedTimedActivation] and [PQueueActivation(shuffle=False)] (soil/time.py):
    properties C251 to C253. *)
From Coq Require Import ZArith List Bool Arith Permutation Sorted Lia.
From Verif Require Import Num TimedModel TimedSpec PQueueModel PQueueSpec TurnSpec OrderSpec OrderProofs AlternateProofs.
Import ListNotations.
#[local] Existing Instance exact | 100.

(** Three agents: 0 asks for delay 1, 1 for delay 2, 2 for delay 2. *)
Definition trio : user unit := User unit
  (fun _ a w => (w, [], Ret (Some (match a with 0 => Fin 1 | _ => Fin 2 end))))
  (fun l w => (w, rev l)).
Example trio_forward : forward_only trio.
Proof. intros s [|a] w; reflexivity. Qed.
Definition trio_trace (sh : bool) : list ev :=
  snd (run_hist trio [CAdd 1 None; CAdd 0 None; CAdd 2 None; CStep; CStep; CStep; CStep]
         (timed_init sh (Fin 1)) tt).

(** C251.  Without shuffling, every activation is for the appointment that was made first
    among those with the earliest instant. *)
Theorem C251_first_come_first_served :
  forall {AR : Arith} W (u : user W) di h w s' w' tr,
  forward_only u -> nonneg di = true ->
  run_hist u h (timed_init false di) w = (s', w', tr) -> no_exc tr ->
  first_come di [] tr.
Proof. exact @ordered_first. Qed.
Print Assumptions C251_first_come_first_served.

(** C251.  Nobody overtakes: when [a] has an appointment for [t] at some moment (after the
    trace [tr1]) and [b] has none for [t] that was made before it, then [b] is activated at
    [t] only after [a] was. *)
Theorem C251_no_overtaking :
  forall {AR : Arith} W (u : user W) di h w s' w' tr1 m o m' t a b p1 p2,
  forward_only u -> nonneg di = true ->
  run_hist u h (timed_init false di) w = (s', w', tr1 ++ m ++ EvAct t b o :: m') ->
  no_exc (tr1 ++ m ++ EvAct t b o :: m') ->
  a <> b -> agenda di [] tr1 = p1 ++ (t, a) :: p2 -> ~ In (t, b) p1 ->
  exists o', In (EvAct t a o') m.
Proof. exact @no_overtaking. Qed.
Print Assumptions C251_no_overtaking.

(** C251.  The same in terms of what agents return: if [a], activated at [t], asks to be
    woken at [t'] at a moment at which [b] has not been promised [t'], then [b] is activated
    at [t'] only after [a] was. *)
Theorem C251_who_asks_first_runs_first :
  forall {AR : Arith} W (u : user W) di h w s' w' tr1 m o m' t oa t' a b,
  forward_only u -> nonneg di = true ->
  run_hist u h (timed_init false di) w
    = (s', w', tr1 ++ EvAct t a oa :: m ++ EvAct t' b o :: m') ->
  no_exc (tr1 ++ EvAct t a oa :: m ++ EvAct t' b o :: m') ->
  a <> b -> next_due di t oa = Some t' -> ~ In (t', b) (agenda di [] tr1) ->
  exists o', In (EvAct t' a o') m.
Proof. exact @keeps_order. Qed.
Print Assumptions C251_who_asks_first_runs_first.

(** At time 0 the order is that of the additions, 1, 0, 2.  At time 2, agents 1 and 2 were
    promised the instant at time 0 and agent 0 at time 1, so the order is 1, 2, 0. *)
Example C251_not_vacuous :
  trio_trace false =
    ([EvAdd (Fin 0) 1; EvAdd (Fin 0) 0; EvAdd (Fin 0) 2] ++
     [EvAct (Fin 0) 1 (Ret (Some (Fin 2))); EvAct (Fin 0) 0 (Ret (Some (Fin 1)));
      EvAct (Fin 0) 2 (Ret (Some (Fin 2)));
      EvAct (Fin 1) 0 (Ret (Some (Fin 1)));
      EvAct (Fin 2) 1 (Ret (Some (Fin 2))); EvAct (Fin 2) 2 (Ret (Some (Fin 2)));
      EvAct (Fin 2) 0 (Ret (Some (Fin 1)));
      EvAct (Fin 3) 0 (Ret (Some (Fin 1)))]).
Proof. vm_compute. reflexivity. Qed.
Example C251_hypotheses_hold :
  no_exc (trio_trace false) /\
  agenda (Fin 1) [] (firstn 4 (trio_trace false)) = [(Fin 0, 0); (Fin 0, 2)] ++ (Fin 2, 1) :: [] /\
  nth_error (trio_trace false) 8 = Some (EvAct (Fin 2) 2 (Ret (Some (Fin 2)))).
Proof. vm_compute. auto. Qed.

(** The default scheduler, which shuffles, does not promise that: here agent 1 asks at time 0
    after agent 2 has asked, and runs before it at time 2. *)
Example C251_not_with_shuffling :
  ~ first_come (Fin 1) [] (trio_trace true).
Proof.
  vm_compute. intros [(l1&l2&E&F1&F2) _].
  destruct l1 as [|p l1]; simpl in E; [discriminate E|].
  injection E as Ep _. specialize (F1 p (or_introl eq_refl)). subst p. discriminate F1.
Qed.

(** C252.  With [PQueueActivation(shuffle=False)] and a fixed population, in which nobody
    asks to be woken again at the same instant, the whole run is sorted by instant and then
    by [unique_id], and so is what is pending. *)
Theorem C252_by_instant_and_id :
  forall {AR : Arith} W (u : puser W) fuel di l h w s' w' tr,
  p_forward_only u -> p_adds_nobody u -> nonneg di = true -> adds_nobody h -> NoDup l ->
  pq_hist u fuel (add_all l ++ h) (pq_init false di) w = Some (s', w', tr) ->
  no_exc tr -> onward tr di ->
  StronglySorted before (acts tr) /\
  forall x y, In x (acts tr) -> In y (agenda di [] tr) -> before x y.
Proof. exact @pq_ordered. Qed.
Print Assumptions C252_by_instant_and_id.

(** The same three agents: at time 2 the order is 0, 1, 2. *)
Definition ptrio : puser unit := PUser unit
  (fun _ a w => (w, [], Ret (Some (match a with 0 => Fin 1 | _ => Fin 2 end))))
  (fun w => (w, 0%Z)).
Definition ptrio_trace : list ev :=
  match pq_hist ptrio 9 (add_all [1; 0; 2] ++ [CStep; CStep; CStep]) (pq_init false (Fin 1)) tt with
  | Some (_, _, tr) => tr
  | None => []
  end.
Example C252_not_vacuous :
  p_forward_only ptrio /\ p_adds_nobody ptrio /\ no_exc ptrio_trace /\ onward ptrio_trace (Fin 1) /\
  acts ptrio_trace = [(Fin 0, 0); (Fin 0, 1); (Fin 0, 2); (Fin 1, 0);
                      (Fin 2, 0); (Fin 2, 1); (Fin 2, 2)].
Proof.
  split; [intros s [|a] w; reflexivity|]. split; [intros s a w; reflexivity|].
  split; [vm_compute; reflexivity|]. split; [vm_compute; repeat constructor|].
  vm_compute. reflexivity.
Qed.
(** So the two schedulers differ in the order within an instant, also without shuffling:
    compare [C251_not_vacuous]. *)
Example C252_the_orders_differ :
  acts (trio_trace false) <> acts ptrio_trace /\
  map snd (filter (fun p => n_eqb (fst p) (Fin 2)) (acts (trio_trace false))) = [1; 2; 0] /\
  map snd (filter (fun p => n_eqb (fst p) (Fin 2)) (acts ptrio_trace)) = [0; 1; 2].
Proof. vm_compute. repeat split; auto. discriminate. Qed.

(** C253.  Without shuffling, agents with the same period take turns, also if they started at different times: between two
    activations of [a] in a row that are [d] apart there is exactly one of [b], which is already there and always asks
    to be woken after [d]. *)
Theorem C253_take_turns :
  forall W (u : user W) di h w s' w' tr1 m m' z d a b oa oa',
  forward_only u -> nonneg di = true -> (0 < d)%Z ->
  run_hist u h (timed_init false di) w
    = (s', w', tr1 ++ EvAct (Fin z) a oa :: m ++ EvAct (Fin (z + d)) a oa' :: m') ->
  no_exc (tr1 ++ EvAct (Fin z) a oa :: m ++ EvAct (Fin (z + d)) a oa' :: m') ->
  a <> b -> adds_of a tr1 = 1 -> adds_of b tr1 = 1 -> adds_of b m = 0 ->
  next_due di (Fin z) oa = Some (Fin (z + d)) -> paced di d b (tr1 ++ m) ->
  acts_of a m = [] -> exists x, acts_of b m = [x].
Proof. exact take_turns. Qed.
Print Assumptions C253_take_turns.

(** C253.  With any shuffle it is at most two. *)
Theorem C253_at_most_two :
  forall W (u : user W) sh di h w s' w' tr1 m m' z d a b oa oa',
  forward_only u -> (sh = true -> fair_shuffle u) -> nonneg di = true -> (0 < d)%Z ->
  run_hist u h (timed_init sh di) w
    = (s', w', tr1 ++ EvAct (Fin z) a oa :: m ++ EvAct (Fin (z + d)) a oa' :: m') ->
  no_exc (tr1 ++ EvAct (Fin z) a oa :: m ++ EvAct (Fin (z + d)) a oa' :: m') ->
  a <> b -> adds_of b tr1 = 1 -> adds_of b m = 0 -> paced di d b (tr1 ++ m) ->
  List.length (acts_of b m) <= 2.
Proof. exact turns_shuffled. Qed.
Print Assumptions C253_at_most_two.

(** Agents 0 and 2, with period 2, start at 0; agent 3 has period 1; agent 1, with period 2, is added at 1. *)
Definition beat (shuffle : nat -> list aid -> list aid) : user nat := User nat
  (fun _ a w => (w, [], Ret (Some (if Nat.eqb a 3 then Fin 1 else Fin 2))))
  (fun l w => (S w, shuffle w l)).
Definition beat_trace sh shuffle : list ev :=
  snd (run_hist (beat shuffle) [CAdd 0 None; CAdd 2 None; CAdd 3 None; CStep; CAdd 1 None; CStep; CStep; CStep; CStep]
         (timed_init sh (Fin 1)) 0).
Example beat_forward shuffle : forward_only (beat shuffle).
Proof. intros s a w. cbn. destruct (Nat.eqb a 3); reflexivity. Qed.
(** Between the activations of 0 at 2 and at 4 there is one of 1 and one of 2, and there are two of 3. *)
Example C253_not_vacuous :
  let act t a := EvAct (Fin t) a (Ret (Some (if Nat.eqb a 3 then Fin 1 else Fin 2))) in
  beat_trace false (fun _ l => l) =
    [EvAdd (Fin 0) 0; EvAdd (Fin 0) 2; EvAdd (Fin 0) 3; act 0%Z 0; act 0%Z 2; act 0%Z 3; EvAdd (Fin 1) 1; act 1%Z 3; act 1%Z 1] ++
    act 2%Z 0 :: [act 2%Z 2; act 2%Z 3; act 3%Z 1; act 3%Z 3] ++ act 4%Z 0 :: [act 4%Z 2; act 4%Z 3] /\
  paced (Fin 1) 2 1 (beat_trace false (fun _ l => l)) /\ paced (Fin 1) 2 2 (beat_trace false (fun _ l => l)).
Proof.
  cbn zeta. split; [vm_compute; reflexivity|].
  split; intros t o I; vm_compute in I; repeat (destruct I as [I|I]; [try discriminate I; injection I as <- <-; reflexivity|]); contradiction.
Qed.
(** If the agents are reversed at 4 only, then 2 runs twice between the activations of 0 at 2 and at 4, and 0 does
    not run between those of 2. *)
Example C253_not_with_shuffling :
  let act t a := EvAct (Fin t) a (Ret (Some (if Nat.eqb a 3 then Fin 1 else Fin 2))) in
  exists shuffle, (forall k l, Permutation l (shuffle k l)) /\
  beat_trace true shuffle =
    [EvAdd (Fin 0) 0; EvAdd (Fin 0) 2; EvAdd (Fin 0) 3; act 0%Z 0; act 0%Z 2; act 0%Z 3; EvAdd (Fin 1) 1; act 1%Z 3; act 1%Z 1] ++
    act 2%Z 0 :: [act 2%Z 2; act 2%Z 3; act 3%Z 1; act 3%Z 3; act 4%Z 3; act 4%Z 2] ++ [act 4%Z 0].
Proof.
  exists (fun k l => match k with 4 => rev l | _ => l end).
  split; [intros k l; do 5 (destruct k as [|k]; [apply Permutation_refl || apply Permutation_rev|]); apply Permutation_refl|]. vm_compute. reflexivity.
Qed.
