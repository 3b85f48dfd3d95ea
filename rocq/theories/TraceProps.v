(** C01 to C04 and C06 for one run, with conditions on what happened in it instead of all that user code might do. *)
From Coq Require Import ZArith List Bool Arith Permutation.
From Verif Require Import Num TimedModel TimedSpec TimedProofs TraceProofs.
Import ListNotations.

(** C01: if nobody asks to be woken in the past after the first part of a history or in it, the clock does not go back in the second part. *)
Theorem C01_clock_of_a_run :
  forall {AR : Arith} W (u : user W) sh di (h1 h2 : list cmd) w s1 w1 tr1 s2 w2 tr2,
  nonneg di = true -> run_hist u h1 (timed_init sh di) w = (s1, w1, tr1) -> run_hist u h2 s1 w1 = (s2, w2, tr2) ->
  forward_trace (tr1 ++ tr2) -> n_leb (s_time s1) (s_time s2) = true.
Proof. exact @trace_clock. Qed.
Print Assumptions C01_clock_of_a_run.

(** C02: only a delay that is negative or NaN moves the clock back. *)
Theorem C02_who_moves_the_clock_back_partial :
  forall {AR : Arith} W (u : user W) sh di (h1 h2 : list cmd) w s1 w1 tr1 s2 w2 tr2,
  nonneg di = true -> run_hist u h1 (timed_init sh di) w = (s1, w1, tr1) -> run_hist u h2 s1 w1 = (s2, w2, tr2) ->
  n_leb (s_time s1) (s_time s2) = false ->
  exists t a d, In (EvAct t a (Ret (Some d))) (tr1 ++ tr2) /\ nonneg d = false.
Proof. exact @trace_back. Qed.
Print Assumptions C02_who_moves_the_clock_back_partial.

(** C03: every activation has an appointment, and the clock does not pass a pending one. *)
Theorem C03_appointments_of_a_run :
  forall {AR : Arith} W (u : user W) sh di h w s' w' tr,
  (sh = true -> fair_shuffle u) -> nonneg di = true ->
  run_hist u h (timed_init sh di) w = (s', w', tr) -> no_exc tr -> forward_trace tr ->
  punctual di [] tr /\ forall t a, In (t, a) (agenda di [] tr) -> n_leb (s_time s') t = true.
Proof. exact @trace_punctual. Qed.
Print Assumptions C03_appointments_of_a_run.
(** C03, for one agent that is added once. *)
Theorem C03_wakeup_in_a_run :
  forall {AR : Arith} W (u : user W) sh di h w s' w' tr a,
  (sh = true -> fair_shuffle u) -> nonneg di = true ->
  run_hist u h (timed_init sh di) w = (s', w', tr) -> no_exc tr -> forward_trace tr -> adds_of a tr = 1 ->
  exists t0 rest pend,
    filter (about a) tr = EvAdd t0 a :: rest /\ timetable di a t0 rest pend /\
    match pend with Some t => n_leb (s_time s') t = true | None => True end.
Proof. exact @trace_wakeup. Qed.
Print Assumptions C03_wakeup_in_a_run.

(** C04: what one step does. *)
Theorem C04_step_of_a_run :
  forall {AR : Arith} W (u : user W) sh di h w s w1 tr s' w2 tr2 x,
  (sh = true -> fair_shuffle u) -> nonneg di = true ->
  run_hist u h (timed_init sh di) w = (s, w1, tr) -> no_exc tr -> forward_trace tr ->
  timed_step u s w1 = (s', w2, tr2, x) -> no_exc tr2 -> forward_trace tr2 ->
  let ag := agenda di [] tr in
  (ag = [] /\ s' = s /\ w2 = w1 /\ tr2 = []) \/
  (due_at (s_time s) ag = [] /\ earliest ag (s_time s') /\
   n_ltb (s_time s) (s_time s') = true /\
   s_steps s' = s_steps s /\ w2 = w1 /\ tr2 = []) \/
  (due_at (s_time s) ag <> [] /\
   (exists order, acts tr2 = map (pair (s_time s)) order /\
      if sh then Permutation (due_at (s_time s) ag) order
      else order = due_at (s_time s) ag) /\
   s_steps s' = S (s_steps s) /\
   (agenda di ag tr2 = [] /\ s_time s' = PInf \/
    earliest (agenda di ag tr2) (s_time s'))).
Proof. exact @trace_step. Qed.
Print Assumptions C04_step_of_a_run.

(** C06: once somebody has run and nobody is pending, the clock is infinite, and further steps do nothing. *)
Theorem C06_exhausted_run :
  forall {AR : Arith} W (u : user W) sh di h w s w1 tr,
  (sh = true -> fair_shuffle u) -> nonneg di = true ->
  run_hist u h (timed_init sh di) w = (s, w1, tr) -> no_exc tr -> forward_trace tr ->
  acts tr <> [] -> agenda di [] tr = [] ->
  s_time s = PInf /\ forall n, run_hist u (repeat CStep n) s w1 = (s, w1, []).
Proof. exact @trace_exhausted. Qed.
Print Assumptions C06_exhausted_run.

(** An agent that asks for -1 at instant 5, and only then: the theorems apply to the runs that do not come so far, and the clock goes back in those
    that do. *)
Section Cases.
#[local] Existing Instance exact.
Let rash : user unit := User unit
  (fun s a w => (w, [], Ret (match a with 0 => Some (Fin 2) | _ => if n_eqb (s_time s) (Fin 5) then Some (Fin (-1)) else None end)))
  (fun l w => (w, l)).
Let after n := run_hist rash (CAdd 0 None :: CAdd 1 None :: repeat CStep n) (timed_init false (Fin 1)) tt.
Example C01_to_C06_case :
  (~ forward_only rash) /\ forward_trace (snd (after 5)) /\ no_exc (snd (after 5)) /\ adds_of 1 (snd (after 5)) = 1 /\
  s_time (fst (fst (after 5))) = Fin 5 /\ agenda (Fin 1) [] (snd (after 5)) = [(Fin 6, 0); (Fin 5, 1)] /\
  map (fun n => s_time (fst (fst (after n)))) [5; 6] = [Fin 5; Fin 4] /\
  (exists t a, In (EvAct t a (Ret (Some (Fin (-1))))) (snd (after 6))).
Proof.
  split; [intros F; specialize (F (Sched (Fin 5) 0 [] [] false (Fin 1)) 1 tt); discriminate F|].
  split; [vm_compute; repeat (apply Forall_cons; [first [reflexivity|exact Logic.I]|]); apply Forall_nil|].
  repeat (split; [vm_compute; reflexivity|]).
  exists (Fin 5), 1. vm_compute. tauto.
Qed.
End Cases.
