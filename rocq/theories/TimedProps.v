(** Theorems about [TimedActivation] (soil/time.py:121-203): properties C01-C07. *)
From Coq Require Import ZArith List Bool Arith Permutation.
From Verif Require Import Num TimedModel TimedSpec TimedProofs.
Import ListNotations.
#[local] Existing Instance exact | 100.

(** A concrete population: agent 0 asks for delay 2, agent 1 returns None, agent 2 adds
    agent 3 the first time it runs (the world says whether it did) and then asks for an
    infinite delay, agent 3 is dead.  [random.shuffle] reverses. *)
Definition demo : user bool := User bool
  (fun _ a w =>
     match a with
     | 0 => (w, [], Ret (Some (Fin 2)))
     | 1 => (w, [], Ret None)
     | 2 => (true, if w then [] else [SAdd 3 (Some (Fin 7))], Ret (Some PInf))
     | _ => (w, [], Dead)
     end)
  (fun l w => (w, rev l)).

Example demo_forward : forward_only demo.
Proof. intros s [|[|[|a]]] w; simpl; auto; destruct w; reflexivity. Qed.

Example demo_fair : fair_shuffle demo.
Proof. intros l w. apply Permutation_rev. Qed.

Definition demo_hist : list (@cmd bool) :=
  [CAdd 0 None; CAdd 1 None; CAdd 2 None; CStep; CStep; CRem 1; CStep; CStep; CStep].

Definition demo_run := run_hist demo demo_hist (timed_init true (Fin 1)) false.

Example demo_trace : demo_run =
  (Sched (Fin 4) 5 [(Fin 4, [0; 1])] [0; 2; 3] true (Fin 1), true,
   [EvAdd (Fin 0) 0; EvAdd (Fin 0) 1; EvAdd (Fin 0) 2;
    EvAdd (Fin 0) 3; EvAct (Fin 0) 2 (Ret (Some PInf)); EvAct (Fin 0) 1 (Ret None);
    EvAct (Fin 0) 0 (Ret (Some (Fin 2)));
    EvAct (Fin 0) 3 Dead;
    EvAct (Fin 1) 1 (Ret None);
    EvAct (Fin 2) 1 (Ret None); EvAct (Fin 2) 0 (Ret (Some (Fin 2)));
    EvAct (Fin 3) 1 (Ret None)]).
Proof. vm_compute. reflexivity. Qed.

(** C01.  The clock never goes backwards when nobody asks to be woken in the past, over
    all histories, including those in which agents raise exceptions. *)
Theorem C01_clock_never_goes_back :
  forall {AR : Arith} W (u : user W) sh di (h1 h2 : list cmd) w,
  forward_only u -> nonneg di = true ->
  n_leb (s_time (fst (fst (run_hist u h1 (timed_init sh di) w))))
        (s_time (fst (fst (run_hist u (h1 ++ h2) (timed_init sh di) w)))) = true.
Proof. exact @clock_monotone. Qed.
Print Assumptions C01_clock_never_goes_back.

(** C02 is false: agent 0 returns delay 2 and then delay -1. *)
Definition time_traveller : user unit := User unit
  (fun s _ w => (w, [], Ret (Some (if n_eqb (s_time s) (Fin 2) then Fin (-1) else Fin 2))))
  (fun l w => (w, l)).

Theorem C02_past_request_moves_clock_back_refuted :
  exists W (u : user W) di (h1 h2 : list cmd) w,
  nonneg di = true /\
  n_ltb (s_time (fst (fst (run_hist u (h1 ++ h2) (timed_init false di) w))))
        (s_time (fst (fst (run_hist u h1 (timed_init false di) w)))) = true.
Proof.
  exists unit, time_traveller, (Fin 1), [CAdd 0 None; CStep], [CStep], tt.
  split; vm_compute; reflexivity.
Qed.
Print Assumptions C02_past_request_moves_clock_back_refuted.

(** C03.  Every activation happens at an appointment made by an addition or by the
    previous activation, appointments are consumed by activations, and the clock never
    passes a pending appointment. *)
Theorem C03_every_activation_has_an_appointment :
  forall {AR : Arith} W (u : user W) sh di h w s' w' tr,
  forward_only u -> (sh = true -> fair_shuffle u) -> nonneg di = true ->
  run_hist u h (timed_init sh di) w = (s', w', tr) -> no_exc tr ->
  punctual di [] tr /\
  forall t a, In (t, a) (agenda di [] tr) -> n_leb (s_time s') t = true.
Proof. exact @agenda_punctual. Qed.
Print Assumptions C03_every_activation_has_an_appointment.

(** C03, for one agent that is added once: its life is a timetable. *)
Theorem C03_exact_wakeup :
  forall {AR : Arith} W (u : user W) sh di h w s' w' tr a,
  forward_only u -> (sh = true -> fair_shuffle u) -> nonneg di = true ->
  run_hist u h (timed_init sh di) w = (s', w', tr) -> no_exc tr ->
  adds_of a tr = 1 ->
  exists t0 rest pend,
    filter (about a) tr = EvAdd t0 a :: rest /\
    timetable di a t0 rest pend /\
    match pend with Some t => n_leb (s_time s') t = true | None => True end.
Proof. exact @exact_wakeup. Qed.
Print Assumptions C03_exact_wakeup.

Example C03_not_vacuous :
  let tr := snd demo_run in
  no_exc tr /\ adds_of 0 tr = 1 /\ adds_of 3 tr = 1 /\
  agenda (Fin 1) [] tr = [(Fin 4, 0); (Fin 4, 1)].
Proof. vm_compute. auto. Qed.

(** C04.  What one step does, in terms of the appointments pending before it. *)
Theorem C04_step_runs_exactly_the_due_agents :
  forall {AR : Arith} W (u : user W) sh di h w s w1 tr s' w2 tr2 x,
  forward_only u -> (sh = true -> fair_shuffle u) -> nonneg di = true ->
  run_hist u h (timed_init sh di) w = (s, w1, tr) -> no_exc tr ->
  timed_step u s w1 = (s', w2, tr2, x) -> no_exc tr2 ->
  let ag := agenda di [] tr in
  (ag = [] /\ s' = s /\ w2 = w1 /\ tr2 = []) \/
  (due_at (s_time s) ag = [] /\ earliest ag (s_time s') /\
   n_ltb (s_time s) (s_time s') = true /\
   s_steps s' = s_steps s /\ w2 = w1 /\ tr2 = []) \/
  (due_at (s_time s) ag <> [] /\
   (exists order, acts tr2 = map (pair (s_time s)) order /\
      if sh then Permutation (due_at (s_time s) ag) order
      else order = due_at (s_time s) ag) /\
   s_steps s' = S (s_steps s) /\
   (agenda di ag tr2 = [] /\ s_time s' = PInf \/
    earliest (agenda di ag tr2) (s_time s'))).
Proof. exact @step_effect_hist. Qed.
Print Assumptions C04_step_runs_exactly_the_due_agents.

(** A step of the demo population: agents 0, 1, 2 are due, in that order. *)
Example C04_not_vacuous :
  due_at (Fin 0) (agenda (Fin 1) []
    (snd (run_hist demo (firstn 3 demo_hist) (timed_init true (Fin 1)) false))) = [0; 1; 2].
Proof. vm_compute. reflexivity. Qed.

(** C05 is false: the requested instant is ignored. *)
Theorem C05_start_time_is_ignored_refuted :
  exists W (u : user W) di h w a t,
  forward_only u /\ nonneg di = true /\ In (CAdd a (Some t)) h /\
  let tr := snd (run_hist u h (timed_init false di) w) in
  adds_of a tr = 1 /\ n_ltb (Fin 0) t = true /\ acts tr = [(Fin 0, a)].
Proof.
  exists bool, demo, (Fin 1), [CAdd 0 (Some (Fin 5)); CStep], false, 0, (Fin 5).
  split; [exact demo_forward|]. vm_compute. auto 10.
Qed.
Print Assumptions C05_start_time_is_ignored_refuted.

(** C05, what holds instead: [when] has no effect whatsoever; every addition is for the
    current instant (see [EvAdd] in C03). *)
Theorem C05_start_time_has_no_effect_partial :
  forall {AR : Arith} W (u : user W) h1 h2 a when s w,
  run_hist u (h1 ++ CAdd a when :: h2) s w = run_hist u (h1 ++ CAdd a None :: h2) s w.
Proof. exact @when_ignored. Qed.
Print Assumptions C05_start_time_has_no_effect_partial.

(** C06.  Once somebody has run and nobody is pending, the clock is infinite and further
    steps do nothing at all. *)
Theorem C06_exhausted_schedule_is_inert :
  forall {AR : Arith} W (u : user W) sh di h w s w1 tr,
  forward_only u -> (sh = true -> fair_shuffle u) -> nonneg di = true ->
  run_hist u h (timed_init sh di) w = (s, w1, tr) -> no_exc tr ->
  acts tr <> [] -> agenda di [] tr = [] ->
  s_time s = PInf /\
  forall n, run_hist u (repeat CStep n) s w1 = (s, w1, []).
Proof. exact @exhausted. Qed.
Print Assumptions C06_exhausted_schedule_is_inert.

Example C06_not_vacuous :
  let r := run_hist demo [CAdd 2 None; CStep; CStep] (timed_init true (Fin 1)) false in
  no_exc (snd r) /\ acts (snd r) = [(Fin 0, 2); (Fin 0, 3)] /\ agenda (Fin 1) [] (snd r) = [] /\
  s_time (fst (fst r)) = PInf.
Proof. vm_compute. auto. Qed.

(** C07 is false: agent 0 fails once; agent 1, due at the same instant, is never
    activated, however long the model is stepped afterwards. *)
Definition fails_once : user bool := User bool
  (fun _ a w => match a with
                | 0 => if w then (w, [], Ret None) else (true, [], Exc)
                | _ => (w, [], Ret None)
                end)
  (fun l w => (w, l)).

Theorem C07_failure_makes_others_miss_their_turn_refuted :
  exists W (u : user W) di h w,
  forward_only u /\ nonneg di = true /\
  due_at (Fin 0) (agenda di [] (snd (run_hist u h (timed_init false di) w))) = [0; 1] /\
  forall n, acts (snd (run_hist u (h ++ repeat CStep (S n)) (timed_init false di) w))
            = [(Fin 0, 0)].
Proof.
  exists bool, fails_once, (Fin 1), [CAdd 0 None; CAdd 1 None], false.
  split; [intros s [|a] w; simpl; auto; destruct w; reflexivity|].
  split; [reflexivity|]. split; [vm_compute; reflexivity|].
  intros n. change (repeat CStep (S n)) with ([@CStep bool] ++ repeat CStep n).
  rewrite app_assoc, run_hist_app.
  change ([CAdd 0 None; CAdd 1 None] ++ [@CStep bool])
    with [CAdd 0 None; CAdd 1 None; @CStep bool].
  destruct (run_hist fails_once [CAdd 0 None; CAdd 1 None; CStep] (timed_init false (Fin 1)) false)
    as [[s1 w1] t1] eqn:E.
  vm_compute in E. injection E as <- <- <-. rewrite steps_empty; reflexivity.
Qed.
Print Assumptions C07_failure_makes_others_miss_their_turn_refuted.

(** C07, what holds: the appointments for other instants survive the failure, and the
    scheduler goes on respecting them. *)
Theorem C07_later_appointments_survive_partial :
  forall {AR : Arith} W (u : user W) sh di h w s w1 tr s' w2 tr2,
  forward_only u -> (sh = true -> fair_shuffle u) -> nonneg di = true ->
  run_hist u h (timed_init sh di) w = (s, w1, tr) -> no_exc tr ->
  timed_step u s w1 = (s', w2, tr2, true) ->
  exists ag',
    (forall k, is_time k = true -> n_eqb k (s_time s) = false ->
      due_at k ag' = due_at k (agenda di [] (tr ++ tr2))) /\
    forall h3 s3 w3 tr3, run_hist u h3 s' w2 = (s3, w3, tr3) -> no_exc tr3 ->
      punctual di ag' tr3 /\
      forall t a, In (t, a) (agenda di ag' tr3) -> n_leb (s_time s3) t = true.
Proof. exact @crash_hist. Qed.
Print Assumptions C07_later_appointments_survive_partial.

Example C07_not_vacuous :
  let r := run_hist fails_once [CAdd 0 None; CAdd 1 None] (timed_init false (Fin 1)) true in
  let '(s1, _, tr1) := r in
  let r2 := timed_step fails_once s1 false in
  no_exc tr1 /\ snd r2 = true /\
  (* an agent that ran before the failing one keeps its next appointment *)
  let r3 := run_hist fails_once [CAdd 1 None; CAdd 0 None] (timed_init false (Fin 1)) false in
  let r4 := timed_step fails_once (fst (fst r3)) false in
  snd r4 = true /\ s_queue (fst (fst (fst r4))) = [(Fin 1, [1])].
Proof. vm_compute. auto. Qed.
