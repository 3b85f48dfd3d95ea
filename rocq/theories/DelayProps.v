(** Theorems about the meaning of delays (C14) and about floating-point clocks (C15, and
    what it means for C10). *)
From Coq Require Import ZArith List Bool Arith Lia SpecFloat.
From Verif Require Import Num TimedModel TimedSpec TimedProofs DelayModel DelaySpec DelayProofs
  Binary64Model Binary64Proofs Binary64Spec PQueueModel PQueueSpec.
Import ListNotations.

(** ** C14 *)

(** C14 is false for a delay of zero: an agent that returns [self.delay(0)] at 0 is woken
    after the default interval, with exact arithmetic and with floats. *)
Definition no_delay : user unit := User unit
  (fun _ _ w => (w, [], return_delay (Fin 0))) (fun l w => (w, l)).

Theorem C14_delay_of_zero_refuted :
  forall (AR : Arith), AR = exact \/ AR = binary64 -> exists di h,
  nonneg di = true /\
  snd (run_hist no_delay h (timed_init false di) tt)
  = [EvAdd (Fin 0) 7; EvAct (Fin 0) 7 (return_delay (Fin 0));
     EvAct (Fin 1) 7 (return_delay (Fin 0))].
Proof.
  intros AR [-> | ->]; exists (Fin 1), [CAdd 7 None; CStep; CStep];
    split; try reflexivity; vm_compute; reflexivity.
Qed.
Print Assumptions C14_delay_of_zero_refuted.

(** It is false for [self.at(self.now)]. *)
Definition at_once {AR : Arith} : user unit := User unit
  (fun s _ w => (w, [], return_at (s_time s) (s_time s))) (fun l w => (w, l)).

Theorem C14_at_now_refuted :
  forall (AR : Arith), AR = exact \/ AR = binary64 -> exists di h,
  nonneg di = true /\
  snd (run_hist at_once h (timed_init false di) tt)
  = [EvAdd (Fin 0) 7; EvAct (Fin 0) 7 (return_at (Fin 0) (Fin 0));
     EvAct (Fin 1) 7 (return_at (Fin 1) (Fin 1))].
Proof.
  intros AR [-> | ->]; exists (Fin 1), [CAdd 7 None; CStep; CStep];
    split; try reflexivity; vm_compute; reflexivity.
Qed.
Print Assumptions C14_at_now_refuted.

(** With floats it is also false for later instants: at time 0.2 an agent returns
    [self.at(0.9)], and it is woken at 0.8999999999999999, before the requested time. *)
Definition f0_2 : num := Fin (3602879701896397 * 2 ^ (1074 - 54)).
Definition f0_9 : num := Fin (8106479329266893 * 2 ^ (1074 - 53)).

Definition at_0_9 : user unit := User unit
  (fun s _ w => (w, [], if n_eqb (s_time s) (Fin 0) then return_delay f0_2
                        else @return_at binary64 (s_time s) f0_9))
  (fun l w => (w, l)).

Theorem C14_at_rounding_refuted :
  exists u di h t,
  nonneg di = true /\
  snd (@run_hist binary64 unit u h (timed_init false di) tt)
  = [EvAdd (Fin 0) 0; EvAct (Fin 0) 0 (return_delay f0_2);
     EvAct f0_2 0 (@return_at binary64 f0_2 f0_9);
     EvAct t 0 (@return_at binary64 t f0_9)] /\
  n_ltb f0_2 t = true /\ n_ltb t f0_9 = true.
Proof.
  exists at_0_9, (Fin (2 ^ 1074)), [CAdd 0 None; CStep; CStep; CStep],
    (Fin (8106479329266892 * 2 ^ (1074 - 53))).
  split; [reflexivity|]. split; [vm_compute; reflexivity|].
  split; vm_compute; reflexivity.
Qed.
Print Assumptions C14_at_rounding_refuted.

(** C14, what holds for [delay]: a positive delay [d] returned at [now] leads to an
    activation at [now + d] (computed with the arithmetic in use), if that is finite. *)
Theorem C14_positive_delay_partial :
  forall {AR : Arith} W (u : user W) sh di h w s' w' tr a pre now d later,
  forward_only u -> (sh = true -> fair_shuffle u) -> nonneg di = true ->
  run_hist u h (timed_init sh di) w = (s', w', tr) -> no_exc tr -> adds_of a tr = 1 ->
  filter (about a) tr = pre ++ EvAct now a (return_delay d) :: later ->
  n_ltb (Fin 0) d = true -> n_eqb (n_add now d) PInf = false ->
  woken_next_at a (n_add now d) (s_time s') later.
Proof.
  intros AR W u sh di h w s' w' tr a pre now d later HF FS D E NE AD F P NI.
  eapply (wakeup_after W u sh di h w s' w' tr a pre now _ later); eauto.
  apply next_due_delay; auto.
Qed.
Print Assumptions C14_positive_delay_partial.

(** C14, what holds for [at] without rounding: later instants are met exactly. *)
Theorem C14_at_later_exact_partial :
  forall W (u : user W) sh di h w s' w' tr a pre (now t : Z) later,
  forward_only u -> (sh = true -> fair_shuffle u) -> nonneg di = true ->
  @run_hist exact W u h (timed_init sh di) w = (s', w', tr) -> no_exc tr -> adds_of a tr = 1 ->
  filter (about a) tr = pre ++ EvAct (Fin now) a (@return_at exact (Fin now) (Fin t)) :: later ->
  (now < t)%Z ->
  woken_next_at a (Fin t) (s_time s') later.
Proof.
  intros W u sh di h w s' w' tr a pre now t later HF FS D E NE AD F L.
  eapply (@wakeup_after exact W u sh di h w s' w' tr a pre (Fin now) _ later); eauto.
  apply next_due_at_exact; auto.
Qed.
Print Assumptions C14_at_later_exact_partial.

(** C14, what holds for [at] with floats: instants between the current one and its double
    are met exactly. *)
Theorem C14_at_later_binary64_partial :
  forall W (u : user W) sh di h w s' w' tr a pre (now t : Z) later,
  forward_only u -> (sh = true -> fair_shuffle u) -> nonneg di = true ->
  @run_hist binary64 W u h (timed_init sh di) w = (s', w', tr) -> no_exc tr -> adds_of a tr = 1 ->
  filter (about a) tr = pre ++ EvAct (Fin now) a (@return_at binary64 (Fin now) (Fin t)) :: later ->
  is_float now = true -> is_float t = true -> (0 <= now < t)%Z -> (t <= 2 * now)%Z ->
  woken_next_at a (Fin t) (s_time s') later.
Proof.
  intros W u sh di h w s' w' tr a pre now t later HF FS D E NE AD F FN FT L U.
  eapply (@wakeup_after binary64 W u sh di h w s' w' tr a pre (Fin now) _ later); eauto.
  apply next_due_at_float; auto.
Qed.
Print Assumptions C14_at_later_binary64_partial.

(** An agent that waits for 0.9, and then returns [self.at(1.2)]; both steps are covered
    by the partial theorems. *)
Definition f1_2 : num := Fin (5404319552844595 * 2 ^ (1074 - 52)).
Definition patient : user unit := User unit
  (fun s _ w => (w, [], if n_eqb (s_time s) (Fin 0) then return_delay f0_9
                        else if n_eqb (s_time s) f0_9 then @return_at binary64 (s_time s) f1_2
                        else Dead))
  (fun l w => (w, l)).

Lemma add_float_sub_nonneg : n_ltb (Fin 0) (add_float f1_2 (n_opp f0_9)) = true.
Proof. vm_compute. reflexivity. Qed.

Example C14_example :
  forward_only patient /\
  snd (@run_hist binary64 unit patient [CAdd 0 None; CStep; CStep; CStep]
         (timed_init false (Fin (2 ^ 1074))) tt)
  = [EvAdd (Fin 0) 0; EvAct (Fin 0) 0 (return_delay f0_9);
     EvAct f0_9 0 (@return_at binary64 f0_9 f1_2); EvAct f1_2 0 Dead] /\
  match f0_9, f1_2 with
  | Fin now, Fin t => is_float now = true /\ is_float t = true /\ (0 <= now < t)%Z /\ (t <= 2 * now)%Z
  | _, _ => False
  end.
Proof.
  split; [|split].
  - intros s a w. unfold patient. cbn [u_step].
    destruct (n_eqb (s_time s) (Fin 0)); [vm_compute; reflexivity|].
    destruct (n_eqb (s_time s) f0_9) eqn:E; [|exact I].
    apply n_eqb_eq in E. rewrite E. vm_compute. reflexivity.
  - vm_compute. reflexivity.
  - vm_compute. repeat split; discriminate.
Qed.

(** ** C15 *)

(** C15, the arithmetic, in terms of the standard library's specification of IEEE 754
    (precision 53, exponents below 1024): adding a float that is not negative to a float
    that is neither NaN nor minus infinity never gives a smaller one. *)
Theorem C15_float_addition_never_goes_back :
  forall x d : spec_float,
  valid_binary 53 1024 x = true -> valid_binary 53 1024 d = true ->
  x <> S754_nan -> x <> S754_infinity true -> SFleb (S754_zero false) d = true ->
  SFleb x (SFadd 53 1024 x d) = true.
Proof. exact SFadd_monotone. Qed.
Print Assumptions C15_float_addition_never_goes_back.

(** The arithmetic of the model is that one. *)
Theorem C15_model_addition_is_ieee :
  forall x y : spec_float,
  valid_binary 53 1024 x = true -> valid_binary 53 1024 y = true ->
  ticks (SFadd 53 1024 x y) = @n_add binary64 (ticks x) (ticks y) /\
  SFleb x y = n_leb (ticks x) (ticks y).
Proof. intros x y VX VY. split; [apply SFadd_ticks|apply SFleb_ticks]; auto. Qed.
Print Assumptions C15_model_addition_is_ieee.

(** C15, the scheduler: with floats too the clock never goes back. *)
Theorem C15_clock_never_goes_back_binary64 :
  forall W (u : user W) sh di (h1 h2 : list cmd) w,
  forward_only u -> nonneg di = true ->
  n_leb (s_time (fst (fst (@run_hist binary64 W u h1 (timed_init sh di) w))))
        (s_time (fst (fst (@run_hist binary64 W u (h1 ++ h2) (timed_init sh di) w)))) = true.
Proof. exact (@clock_monotone binary64). Qed.
Print Assumptions C15_clock_never_goes_back_binary64.

Example C15_example :
  valid_binary 53 1024 (S754_finite false 8106479329266893 (-53)) = true /\
  valid_binary 53 1024 (S754_finite false 7205759403792794 (-55)) = true /\
  ticks (S754_finite false 8106479329266893 (-53)) = f0_9 /\
  ticks (S754_finite false 7205759403792794 (-55)) = f0_2 /\
  SFadd 53 1024 (S754_finite false 8106479329266893 (-53)) (S754_finite false 7205759403792794 (-55))
  = S754_finite false 4953959590107546 (-52).
Proof. vm_compute. auto 10. Qed.

(** C15, the limit: from the clock 2^53, a delay of one does not move the clock, and the
    agent is activated again and again at the same instant, once per step. *)
Definition one : num := Fin (2 ^ 1074).
Definition big : num := Fin (2 ^ (1074 + 53)).
Definition slow : user unit := User unit
  (fun s _ w => (w, [], if n_eqb (s_time s) (Fin 0) then return_delay big else return_delay one))
  (fun l w => (w, l)).

Lemma slow_step n : n <> 0 ->
  @timed_step binary64 unit slow (Sched big n [(big, [0])] [0] false one) tt
  = (Sched big (S n) [(big, [0])] [0] false one, tt, [EvAct big 0 (return_delay one)], false).
Proof. intros _. vm_compute. reflexivity. Qed.

Theorem C15_positive_delays_need_not_move_the_clock :
  exists (u : user unit) di h,
  (forall s a w, match snd (u_step u s a w) with
                 | Ret (Some d) => n_ltb (Fin 0) d = true | _ => False end) /\
  n_ltb (Fin 0) di = true /\
  forall n,
  let r := @run_hist binary64 unit u (h ++ repeat CStep n) (timed_init false di) tt in
  s_time (fst (fst r)) = big /\ s_steps (fst (fst r)) = 1 + n.
Proof.
  exists slow, one, [CAdd 0 None; CStep].
  split; [|split; [reflexivity|]].
  { intros s a w. simpl. destruct (n_eqb (s_time s) (Fin 0)); vm_compute; reflexivity. }
  assert (forall n k, k <> 0 ->
    @run_hist binary64 unit slow (repeat CStep n) (Sched big k [(big, [0])] [0] false one) tt
    = (Sched big (n + k) [(big, [0])] [0] false one, tt, repeat (EvAct big 0 (return_delay one)) n)) as K.
  { induction n as [|n IH]; intros k NK; [reflexivity|].
    cbn [repeat run_hist run_cmd]. rewrite slow_step by auto. rewrite IH by lia.
    cbn [app]. rewrite <- plus_n_Sm. reflexivity. }
  intros n. rewrite run_hist_app.
  destruct (@run_hist binary64 unit slow [CAdd 0 None; CStep] (timed_init false one) tt) as [[s1 w1] t1] eqn:E.
  assert (s1 = Sched big 1 [(big, [0])] [0] false one) as ->.
  { vm_compute in E. injection E as <- _ _. vm_compute. reflexivity. }
  destruct w1. rewrite K by lia. simpl. split; [reflexivity|lia].
Qed.
Print Assumptions C15_positive_delays_need_not_move_the_clock.

(** So a step of [PQueueActivation] need not return even if all delays are positive: the
    agent is activated for ever within one call. *)
Definition pslow : puser unit := PUser unit
  (fun s _ w => (w, [], if n_eqb (p_time s) (Fin 0) then return_delay big else return_delay one))
  (fun w => (w, 0%Z)).

Theorem C10_step_does_not_terminate_with_floats_refuted :
  exists (u : puser unit) di h s tr,
  p_adds_nobody u /\
  (forall t a w, match snd (p_step u t a w) with
                 | Ret (Some d) => n_ltb (Fin 0) d = true | _ => False end) /\
  n_ltb (Fin 0) di = true /\
  @pq_hist binary64 unit u 5 h (pq_init false di) tt = Some (s, tt, tr) /\
  forall fuel, @pq_step binary64 unit u fuel s tt = None.
Proof.
  exists pslow, one, [CAdd 0 None; CStep], (PQ big 1 [(big, 0%Z, 0)] [0] false one true). eexists.
  split; [intros s a w; reflexivity|].
  split; [intros s a w; simpl; destruct (n_eqb (p_time s) (Fin 0)); vm_compute; reflexivity|].
  split; [reflexivity|]. split; [vm_compute; reflexivity|].
  assert (n_ltb big big = false) as E1 by (vm_compute; reflexivity).
  assert (n_eqb big (Fin 0) = false) as E2 by (vm_compute; reflexivity).
  assert (or_num (Some one) one = one) as E3 by (vm_compute; reflexivity).
  assert (@n_add binary64 one big = big) as E4 by (vm_compute; reflexivity).
  assert (n_eqb big PInf = false) as E5 by (vm_compute; reflexivity).
  assert (forall fuel, @pq_loop binary64 unit pslow fuel big
            (PQ big 1 [(big, 0%Z, 0)] [0] false one true) tt = PFuel) as K.
  { induction fuel as [|fuel IH]; [reflexivity|].
    assert (@pq_loop binary64 unit pslow (S fuel) big (PQ big 1 [(big, 0%Z, 0)] [0] false one true) tt
      = pres_pre [EvAct big 0 (return_delay one)]
          (@pq_loop binary64 unit pslow fuel big (PQ big 1 [(big, 0%Z, 0)] [0] false one true) tt)) as ->.
    { cbn [pq_loop p_heap e_when e_agent fst snd pslow p_step p_time]. rewrite E1, E2.
      cbn [pq_run_ops p_heap p_di return_delay app]. rewrite E3, E4, E5. reflexivity. }
    rewrite IH. reflexivity. }
  intros fuel. unfold pq_step. 
  replace (n_eqb (p_time (PQ big 1 [(big, 0%Z, 0)] [0] false one true)) PInf) with false by reflexivity.
  cbn [p_time]. rewrite K. reflexivity.
Qed.
Print Assumptions C10_step_does_not_terminate_with_floats_refuted.
