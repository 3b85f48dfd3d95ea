(** Theorems about [PQueueActivation] (soil/time.py:43-118): properties C08-C11, and the
    counterparts of C02, C05, C06 and C07 for this scheduler. *)
From Coq Require Import ZArith List Bool Arith Permutation Lia.
From Verif Require Import Num TimedModel TimedSpec PQueueModel PQueueSpec PQueueProofs
  PQueueProofs2 SchedEquivProofs.
Import ListNotations.
#[local] Existing Instance exact | 100.
#[local] Existing Instance exact_precise.

(** A concrete population: agent 0 asks for delay 2, agent 1 returns None, agent 2 asks
    for an infinite delay, agent 3 is dead.  The world is a random stream. *)
Definition pdemo : puser Z := PUser Z
  (fun _ a w => (w, [], match a with
                        | 0 => Ret (Some (Fin 2)) | 1 => Ret None
                        | 2 => Ret (Some PInf) | _ => Dead
                        end))
  (fun w => ((w * 5 + 3) mod 17, w)%Z).

Example pdemo_forward : p_forward_only pdemo.
Proof. intros s [|[|[|a]]] w; reflexivity. Qed.
Example pdemo_nobody : p_adds_nobody pdemo.
Proof. intros s a w; reflexivity. Qed.

Definition pdemo_run :=
  pq_hist pdemo 10 (add_all [0; 1; 2; 3] ++ [CStep; CStep; CRem 1; CStep]) (pq_init true (Fin 1)) 8%Z.

Example pdemo_trace : option_map snd pdemo_run = Some
  (map (EvAdd (Fin 0)) [0; 1; 2; 3] ++
   [EvAct (Fin 0) 3 Dead; EvAct (Fin 0) 0 (Ret (Some (Fin 2)));
    EvAct (Fin 0) 1 (Ret None); EvAct (Fin 0) 2 (Ret (Some PInf));
    EvAct (Fin 1) 1 (Ret None);
    EvAct (Fin 2) 1 (Ret None); EvAct (Fin 2) 0 (Ret (Some (Fin 2)))]).
Proof. vm_compute. reflexivity. Qed.

(** C08.  Every activation has an appointment and the clock never passes one. *)
Theorem C08_every_activation_has_an_appointment :
  forall {AR : Arith} W (u : puser W) fuel sh di l h w s' w' tr,
  p_forward_only u -> p_adds_nobody u -> nonneg di = true -> adds_nobody h ->
  pq_hist u fuel (add_all l ++ h) (pq_init sh di) w = Some (s', w', tr) -> no_exc tr ->
  punctual di [] tr /\
  forall t a, In (t, a) (agenda di [] tr) -> n_leb (p_time s') t = true.
Proof. exact @pq_agenda. Qed.
Print Assumptions C08_every_activation_has_an_appointment.

(** C08, per agent: its life is a timetable that starts at time 0. *)
Theorem C08_exact_wakeup :
  forall {AR : Arith} W (u : puser W) fuel sh di l h w s' w' tr a,
  p_forward_only u -> p_adds_nobody u -> nonneg di = true -> adds_nobody h ->
  NoDup l -> In a l ->
  pq_hist u fuel (add_all l ++ h) (pq_init sh di) w = Some (s', w', tr) -> no_exc tr ->
  exists rest pend,
    filter (about a) tr = EvAdd (Fin 0) a :: rest /\
    timetable di a (Fin 0) rest pend /\
    match pend with Some t => n_leb (p_time s') t = true | None => True end.
Proof. exact @pq_timetable. Qed.
Print Assumptions C08_exact_wakeup.

(** C08 and C02 for this scheduler.  The clock never goes back, for all user code
    whatsoever (negative delays, additions and failures included), as long as the steps
    return. *)
Theorem C08_clock_never_goes_back :
  forall {AR : Arith} W (u : puser W) fuel sh di h1 h2 w s1 w1 tr1 s2 w2 tr2,
  pq_hist u fuel h1 (pq_init sh di) w = Some (s1, w1, tr1) ->
  pq_hist u fuel (h1 ++ h2) (pq_init sh di) w = Some (s2, w2, tr2) ->
  n_leb (p_time s1) (p_time s2) = true.
Proof. exact @pq_clock_monotone. Qed.
Print Assumptions C08_clock_never_goes_back.

Theorem C02_pqueue_clock_never_goes_back_partial :
  forall {AR : Arith} W (u : puser W) fuel sh di h1 h2 w s1 w1 tr1 s2 w2 tr2,
  pq_hist u fuel h1 (pq_init sh di) w = Some (s1, w1, tr1) ->
  pq_hist u fuel (h1 ++ h2) (pq_init sh di) w = Some (s2, w2, tr2) ->
  n_leb (p_time s1) (p_time s2) = true.
Proof. exact @pq_clock_monotone. Qed.
Print Assumptions C02_pqueue_clock_never_goes_back_partial.

Example C08_not_vacuous :
  match pdemo_run with
  | Some (s, _, tr) => no_exc tr /\ p_time s = Fin 3 /\
                       agenda (Fin 1) [] tr = [(Fin 3, 1); (Fin 4, 0)]
  | None => False
  end.
Proof. vm_compute. auto. Qed.

(** C09 is false: at any instant but 0, an addition throws away the first pending
    activation.  Agent 0, which would act at every instant for ever, never acts again
    after agent 5 has been added at time 1. *)
Definition everyone_waits : puser unit := PUser unit
  (fun _ a w => (w, [], if Nat.eqb a 5 then Ret (Some PInf) else Ret None))
  (fun w => (w, 0%Z)).

Theorem C09_addition_cancels_another_agent_refuted :
  exists W (u : puser W) di h w s w1 tr s2 w2,
  p_forward_only u /\ p_adds_nobody u /\ n_ltb (Fin 0) di = true /\
  pq_hist u 5 h (pq_init false di) w = Some (s, w1, tr) /\
  pending 0 (p_heap s) = [Fin 1] /\
  pq_add u s w1 5 None = (s2, w2, false) /\
  pending 0 (p_heap s2) = [] /\
  forall n, exists s3 w3 tr3,
    pq_hist u 5 (repeat CStep n) s2 w2 = Some (s3, w3, tr3) /\
    forall t, ~ In (t, 0) (acts tr3).
Proof.
  exists unit, everyone_waits, (Fin 1), (add_all [0] ++ [CStep]), tt.
  do 3 eexists. exists (PQ (Fin 1) 1 [(Fin 1, 5%Z, 5)] [0; 5] false (Fin 1) true), tt.
  split; [intros s a w; simpl; destruct (Nat.eqb a 5); reflexivity|].
  split; [intros s a w; reflexivity|].
  split; [reflexivity|]. split; [vm_compute; reflexivity|].
  split; [reflexivity|]. split; [vm_compute; reflexivity|]. split; [reflexivity|].
  intros [|n].
  - do 3 eexists. split; [reflexivity|]. simpl. auto.
  - cbn [repeat pq_hist].
    replace (pq_cmd everyone_waits 5 (PQ (Fin 1) 1 [(Fin 1, 5%Z, 5)] [0; 5] false (Fin 1) true) tt CStep)
      with (Some (PQ PInf 2 [] [0; 5] false (Fin 1) false, tt, [EvAct (Fin 1) 5 (Ret (Some PInf))]))
      by (vm_compute; reflexivity).
    rewrite (pq_exhausted unit everyone_waits 5 (PQ PInf 2 [] [0; 5] false (Fin 1) false) tt eq_refl n).
    do 3 eexists. split; [reflexivity|]. simpl. intros t [E|[]]. discriminate.
Qed.
Print Assumptions C09_addition_cancels_another_agent_refuted.

(** C09, exactly what an addition does: with a non-zero [when] (or clock, when there is
    no [when]) the first entry of the heap is lost, or IndexError is raised when there is
    none; otherwise nothing is lost. *)
Theorem C09_effect_of_an_addition_partial :
  forall W (u : puser W) s w a when s' w' x,
  pq_add u s w a when = (s', w', x) ->
  exists tie,
  let new := (p_time s, tie, a) in
  if n_truthy (match when with None => p_time s | Some t => t end) then
    match p_heap s with
    | [] => x = true /\ s' = s
    | _ :: rest => x = false /\ Permutation (p_heap s') (new :: rest)
    end
  else x = false /\ Permutation (p_heap s') (new :: p_heap s).
Proof. exact @pq_add_heap. Qed.
Print Assumptions C09_effect_of_an_addition_partial.

(** C09 holds while the clock is 0. *)
Theorem C09_additions_at_zero_keep_the_others_partial :
  forall W (u : puser W) s w a s' w' x b,
  p_time s = Fin 0 -> pq_add u s w a None = (s', w', x) -> a <> b ->
  x = false /\ Permutation (pending b (p_heap s')) (pending b (p_heap s)).
Proof. exact @pq_add_zero_keeps. Qed.
Print Assumptions C09_additions_at_zero_keep_the_others_partial.

(** C05 is false for this scheduler too: the start time is ignored, and it can even
    make the addition fail. *)
Theorem C05_pqueue_start_time_refuted :
  (exists W (u : puser W) di h w s w1 tr a t,
     pq_hist u 5 h (pq_init false di) w = Some (s, w1, tr) /\
     p_time s = Fin 0 /\ n_ltb (Fin 0) t = true /\
     pending a (p_heap (fst (fst (pq_add u s w1 a (Some t))))) = [Fin 0]) /\
  (exists W (u : puser W) di w a t,
     n_ltb (Fin 0) t = true /\ snd (pq_add u (pq_init false di) w a (Some t)) = true).
Proof.
  split.
  - exists Z, pdemo, (Fin 1), (add_all [0]), 0%Z. do 3 eexists. exists 1, (Fin 5).
    split; [vm_compute; reflexivity|]. vm_compute. auto.
  - exists Z, pdemo, (Fin 1), 0%Z, 1, (Fin 5). vm_compute. auto.
Qed.
Print Assumptions C05_pqueue_start_time_refuted.

(** C06 for this scheduler. *)
Theorem C06_pqueue_exhausted_schedule_is_inert :
  forall {AR : Arith} W (u : puser W) fuel sh di l h w s' w' tr,
  p_forward_only u -> p_adds_nobody u -> nonneg di = true -> adds_nobody h ->
  pq_hist u fuel (add_all l ++ h) (pq_init sh di) w = Some (s', w', tr) -> no_exc tr ->
  agenda di [] tr = [] ->
  forall s2 w2 tr2 x, pq_step u fuel s' w' = Some (s2, w2, tr2, x) ->
  p_time s2 = PInf /\ tr2 = [] /\
  forall n, pq_hist u fuel (repeat CStep n) s2 w2 = Some (s2, w2, []).
Proof. exact @pq_exhausted_hist. Qed.
Print Assumptions C06_pqueue_exhausted_schedule_is_inert.

Example C06_pqueue_not_vacuous :
  match pq_hist pdemo 10 (add_all [2; 3] ++ [CStep]) (pq_init true (Fin 1)) 1%Z with
  | Some (s, w, tr) => no_exc tr /\ length (acts tr) = 2 /\ agenda (Fin 1) [] tr = []
                       /\ pq_step pdemo 10 s w <> None
  | None => False
  end.
Proof. vm_compute. repeat split; auto. discriminate. Qed.

(** C07 for this scheduler: a failing agent keeps its place at the head of the queue, so
    one that always fails blocks all the others for ever. *)
Definition agent0_fails : puser unit := PUser unit
  (fun _ a w => (w, [], match a with 0 => Exc | _ => Ret None end)) (fun w => (w, 0%Z)).

Theorem C07_pqueue_failing_agent_blocks_the_others_refuted :
  exists W (u : puser W) di w,
  p_forward_only u /\ p_adds_nobody u /\ n_ltb (Fin 0) di = true /\
  forall n, exists s w' tr,
    pq_hist u 5 (add_all [0; 1] ++ repeat CStep n) (pq_init false di) w = Some (s, w', tr) /\
    p_time s = Fin 0 /\ pending 1 (p_heap s) = [Fin 0] /\ forall t, ~ In (t, 1) (acts tr).
Proof.
  exists unit, agent0_fails, (Fin 1), tt.
  split; [intros s [|a] w; reflexivity|]. split; [intros s a w; reflexivity|].
  split; [reflexivity|]. intros n. rewrite pq_hist_app.
  set (s0 := PQ (Fin 0) 0 [(Fin 0, 0%Z, 0); (Fin 0, 1%Z, 1)] [0; 1] false (Fin 1) true).
  replace (pq_hist agent0_fails 5 (add_all [0; 1]) (pq_init false (Fin 1)) tt)
    with (Some (s0, tt, [EvAdd (Fin 0) 0; EvAdd (Fin 0) 1])) by (vm_compute; reflexivity).
  assert (exists tr, pq_hist agent0_fails 5 (repeat CStep n) s0 tt = Some (s0, tt, tr) /\
          forall t, ~ In (t, 1) (acts tr)) as (tr&E&NI).
  { induction n as [|n (tr&E&NI)].
    - exists []. auto.
    - cbn [repeat pq_hist].
      replace (pq_cmd agent0_fails 5 s0 tt CStep) with (Some (s0, tt, [EvAct (Fin 0) 0 Exc]))
        by (vm_compute; reflexivity).
      rewrite E. eexists. split; [reflexivity|]. intros t [I|I]; [discriminate|].
      apply (NI t I). }
  rewrite E. do 3 eexists. split; [reflexivity|]. split; [reflexivity|]. split; [reflexivity|].
  intros t I. apply (NI t). unfold acts in *. rewrite flat_map_app in I. exact I.
Qed.
Print Assumptions C07_pqueue_failing_agent_blocks_the_others_refuted.

(** C07, what holds: whatever fails, no appointment is lost (an activation that failed
    stays due), and successful activations respect the appointments. *)
Theorem C07_pqueue_no_appointment_is_lost_partial :
  forall {AR : Arith} W (u : puser W) fuel sh di l h w s' w' tr,
  p_forward_only u -> p_adds_nobody u -> nonneg di = true -> adds_nobody h ->
  pq_hist u fuel (add_all l ++ h) (pq_init sh di) w = Some (s', w', tr) ->
  punctual di [] (successes tr) /\
  forall t a, In (t, a) (agenda di [] (successes tr)) ->
    n_leb (p_time s') t = true /\ In t (pending a (p_heap s')).
Proof. exact @pq_crash_agenda. Qed.
Print Assumptions C07_pqueue_no_appointment_is_lost_partial.

(** C10 is false: an agent that asks for a negative delay makes the step loop for ever,
    for every number of iterations. *)
Definition negative : puser unit := PUser unit
  (fun _ a w => (w, [], Ret (Some (Fin (-1))))) (fun w => (w, 0%Z)).

Theorem C10_step_does_not_terminate_refuted :
  exists W (u : puser W) di h w s w1 tr,
  p_adds_nobody u /\ n_ltb (Fin 0) di = true /\
  pq_hist u 5 h (pq_init false di) w = Some (s, w1, tr) /\
  forall fuel, pq_step u fuel s w1 = None.
Proof.
  exists unit, negative, (Fin 1), (add_all [0]), tt. do 3 eexists.
  split; [intros s a w; reflexivity|]. split; [reflexivity|].
  split; [vm_compute; reflexivity|].
  assert (forall fuel, pq_loop negative fuel (Fin 0)
            (PQ (Fin 0) 0 [(Fin (-1), 0%Z, 0)] [0] false (Fin 1) true) tt = PFuel) as K.
  { induction fuel as [|fuel IH]; [reflexivity|].
    change (pres_pre [EvAct (Fin 0) 0 (Ret (Some (Fin (-1))))]
              (pq_loop negative fuel (Fin 0)
                 (PQ (Fin 0) 0 [(Fin (-1), 0%Z, 0)] [0] false (Fin 1) true) tt) = PFuel).
    rewrite IH. reflexivity. }
  intros [|fuel]; [reflexivity|].
  unfold pq_step. cbn [p_time n_eqb].
  change (match pres_pre [EvAct (Fin 0) 0 (Ret (Some (Fin (-1))))]
              (pq_loop negative fuel (Fin 0)
                 (PQ (Fin 0) 0 [(Fin (-1), 0%Z, 0)] [0] false (Fin 1) true) tt) with
    | PFuel => None
    | PRaised s1 w1 tr => Some (s1, w1, tr, true)
    | PDone s1 w1 tr next =>
        Some (PQ next (S (p_steps s1)) (p_heap s1) (p_reg s1) (p_shuffle s1) (p_di s1)
                 (if n_eqb next PInf then false else p_running s1),
              w1, tr, false)
    end = None).
  rewrite K. reflexivity.
Qed.
Print Assumptions C10_step_does_not_terminate_refuted.

(** C10, what holds: with non-negative delays and a positive default interval the loop
    ends after at most one iteration per pending activation, plus one. *)
Theorem C10_step_terminates_partial :
  forall {AR : Arith} {HP : Precise AR} W (u : puser W), p_forward_only u -> p_adds_nobody u ->
  forall fuel s w, is_time (p_time s) = true -> n_ltb (Fin 0) (p_di s) = true ->
  length (p_heap s) < fuel -> pq_step u fuel s w <> None.
Proof. intros AR HP. exact (@pq_step_terminates AR HP). Qed.
Print Assumptions C10_step_terminates_partial.

Example C10_not_vacuous :
  match pdemo_run with
  | Some (s, w, _) => is_time (p_time s) = true /\ n_ltb (Fin 0) (p_di s) = true /\
                      length (p_heap s) = 2
  | None => False
  end.
Proof. vm_compute. auto. Qed.

(** C11.  For order-free behaviours both schedulers activate, in each of the first n
    steps, the same agents at the same instants with the same outcomes, and their
    clocks and step counters agree. *)
Theorem C11_schedulers_agree :
  forall {AR : Arith} {HP : Precise AR} W (R : W -> W -> Prop) (beh : num -> aid -> W -> W * outcome),
  order_free R beh -> calm beh ->
  forall (shuffle : list aid -> W -> W * list aid) (draw : W -> W * Z),
  (forall l w, Permutation l (snd (shuffle l w))) ->
  (forall l w, R (fst (shuffle l w)) w) ->
  (forall w, R (fst (draw w)) w) ->
  forall shT shP di l n fuel w s wT trT,
  n_ltb (Fin 0) di = true -> l <> [] -> NoDup l -> length l < fuel ->
  run_hist (as_user beh shuffle) (add_all l ++ repeat CStep n) (timed_init shT di) w
    = (s, wT, trT) ->
  exists p wP trP,
    pq_hist (as_puser beh draw) fuel (add_all l ++ repeat CStep n) (pq_init shP di) w
      = Some (p, wP, trP) /\
    s_time s = p_time p /\ s_steps s = p_steps p /\
    Permutation (activations trT) (activations trP) /\ R wT wP.
Proof. intros AR HP. exact (@schedulers_agree AR HP). Qed.
Print Assumptions C11_schedulers_agree.

(** A concrete order-free behaviour: every agent counts its own activations and asks for
    a delay that depends on the count; agent 2 dies at its third activation. *)
Definition count_beh (t : num) (a : aid) (w : (nat -> nat) * Z) : (nat -> nat) * Z * outcome :=
  (fun b => if Nat.eqb a b then S (fst w b) else fst w b, snd w,
   if Nat.eqb a 2 && Nat.leb 2 (fst w a) then Dead
   else if Nat.eqb (fst w a) 3 then Ret None
   else Ret (Some (Fin (Z.of_nat (1 + a + Nat.modulo (fst w a) 2))))).

Definition count_eq (w w' : (nat -> nat) * Z) : Prop := forall a, fst w a = fst w' a.

Example count_order_free : order_free count_eq count_beh.
Proof.
  constructor; unfold count_eq; cbn.
  - auto.
  - intros w w' H a. symmetry. auto.
  - intros w1 w2 w3 H1 H2 a. rewrite H1. auto.
  - intros t a w w' H. rewrite !H. split; auto. intros b. rewrite H. reflexivity.
  - intros t a b w NE. split.
    + intros c. destruct (Nat.eqb b c), (Nat.eqb a c); reflexivity.
    + apply Nat.eqb_neq in NE. rewrite NE. reflexivity.
Qed.

Example count_calm : calm count_beh.
Proof.
  intros t a w. unfold count_beh. cbn [snd].
  destruct (Nat.eqb a 2 && Nat.leb 2 (fst w a)); auto.
  destruct (Nat.eqb (fst w a) 3); [exact I|].
  unfold nonneg, n_leb. cbn [n_ltb n_eqb]. apply orb_true_iff. left. apply Z.ltb_lt. lia.
Qed.

Example C11_not_vacuous :
  map fst (activations (snd (run_hist (as_user count_beh (fun l w => (w, rev l)))
    (add_all [0; 1; 2] ++ repeat CStep 5) (timed_init true (Fin 1)) (fun _ => 0, 0%Z)))) =
  [(Fin 0, 2); (Fin 0, 1); (Fin 0, 0); (Fin 1, 0); (Fin 2, 1); (Fin 3, 0); (Fin 3, 2);
   (Fin 4, 0)] /\
  option_map (fun r => map fst (activations (snd r)))
    (pq_hist (as_puser count_beh (fun w => (fst w, Z.succ (snd w), snd w))) 4
       (add_all [0; 1; 2] ++ repeat CStep 5) (pq_init true (Fin 1)) (fun _ => 0, 0%Z)) =
  Some [(Fin 0, 0); (Fin 0, 1); (Fin 0, 2); (Fin 1, 0); (Fin 2, 1); (Fin 3, 2); (Fin 3, 0);
   (Fin 4, 0)].
Proof. vm_compute. auto. Qed.
