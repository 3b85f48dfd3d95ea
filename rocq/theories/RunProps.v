(** Theorems about the run of an iteration (soil/simulation.py:236-280,
    soil/environment.py:189-202): properties C16-C19. *)
From Coq Require Import ZArith List Bool Arith String Lia.
From Verif Require Import Num PyDict TimedModel TimedSpec TimedProofs LockstepSpec LockstepProofs
  RunModel RunSpec RunProofs.
Import ListNotations.
#[local] Existing Instance exact | 100.
#[local] Existing Instance exact_precise.

(** The example: agent 1 acts every 2 ticks and adds agent 7 the first time; agent 2 acts
    every 3 ticks and stops the model when the world counter has reached the limit. *)
Definition crowd : user nat := User nat
  (fun _ a w =>
     match a with
     | 1 => (S w, if Nat.eqb w 0 then [SAdd 7 None] else [], Ret (Some (Fin 2)))
     | 2 => (S w, [], Ret (Some (Fin 3)))
     | _ => (S w, [], Dead)
     end)
  (fun l w => (w, l)).
Definition crowd_hist : list (@cmd nat) := [CAdd 1 None; CAdd 2 None].
Definition crowd_env : @env nat nat :=
  let '(s, w, _) := run_hist crowd crowd_hist (timed_init false (Fin 1)) 0 in
  make_env [("n"%string, fun _ w => CUser w)] [] s w.

(** C16, first half.  Whatever the model does, with [max_time = T] no agent is activated
    at an instant [t] with [T <= t], also in runs that end with an exception. *)
Theorem C16_nobody_acts_at_or_after_max_time :
  forall {AR : Arith} W V (u : user W) running fuel l T (e e' : @env W V) tr,
  max_time l = Some T ->
  run_model u running fuel l e = RReturned e' tr \/ run_model u running fuel l e = RRaised e' tr ->
  forall t a, In (t, a) (acts tr) -> n_leb T t = false.
Proof. exact @no_late_activation. Qed.

(** C16, second half.  If the run returned, did not reach [max_steps] and the model did not
    stop itself, every appointment that is still pending is at [T] or later. *)
Theorem C16_everything_before_max_time_was_done :
  forall {AR : Arith} W V (u : user W) running fuel l T h sh di w0 s w tr0 mr more (e' : @env W V) tr,
  forward_only u -> (sh = true -> fair_shuffle u) -> nonneg di = true ->
  run_hist u h (timed_init sh di) w0 = (s, w, tr0) -> no_exc tr0 ->
  max_time l = Some T ->
  run_model u running fuel l (make_env mr more s w) = RReturned e' tr ->
  ~ stopped_itself running e' -> ~ steps_reached l e' ->
  forall t a, In (t, a) (agenda di [] (tr0 ++ tr)) -> n_leb T t = true.
Proof. exact @pending_after_run. Qed.

Example C16_example :
  match run_model crowd (fun _ => true) 20 (Limits (Some (Fin 6)) None) crowd_env with
  | RReturned e tr =>
      acts tr = [(Fin 0, 1); (Fin 0, 2); (Fin 0, 7); (Fin 2, 1); (Fin 3, 2); (Fin 4, 1)] /\
      s_time (e_sched e) = Fin 6 /\
      agenda (Fin 1) [] ([EvAdd (Fin 0) 1; EvAdd (Fin 0) 2] ++ tr) = [(Fin 6, 2); (Fin 6, 1)]
  | _ => False
  end.
Proof. vm_compute. repeat split. Qed.

(** C17.  A run returns in the first state reached by calls to [model.step()] in which
    there is a reason to stop (the model stopped itself, [max_time] or [max_steps] is
    reached), and the step counter never passes [max_steps] if it starts below it. *)
Theorem C17_runs_stop_for_a_reason :
  forall {AR : Arith} W V (u : user W) running fuel l (e e' : @env W V) tr,
  run_model u running fuel l e = RReturned e' tr ->
  (exists n, stepped u n e e' tr /\ reason running l e' /\
    forall m em trm, m < n -> stepped u m e em trm -> ~ reason running l em) /\
  (forall m, max_steps l = Some m -> (Z.of_nat (s_steps (e_sched e)) <= m)%Z ->
     (Z.of_nat (s_steps (e_sched e')) <= m)%Z).
Proof. exact @run_stops. Qed.

(** Conversely, a model with agents is run to the first such state if there is one. *)
Theorem C17_runs_stop_as_soon_as_there_is_a_reason :
  forall {AR : Arith} W V (u : user W) running n l (e e' : @env W V) tr,
  s_reg (e_sched e) <> [] ->
  stepped u n e e' tr -> reason running l e' ->
  (forall m em trm, m < n -> stepped u m e em trm -> ~ reason running l em) ->
  run_model u running (S n) l e = RReturned e' tr.
Proof. exact @run_returns. Qed.

Example C17_example :
  match run_model crowd (fun w => Nat.ltb w 6) 20 (Limits (Some (Fin 100)) (Some 50%Z)) crowd_env,
        run_model crowd (fun _ => true) 20 (Limits (Some (Fin 100)) (Some 4%Z)) crowd_env with
  | RReturned e1 _, RReturned e2 _ =>
      e_world e1 = 6 /\ s_steps (e_sched e1) = 5 /\ s_time (e_sched e1) = Fin 6 /\
      e_world e2 = 5 /\ s_steps (e_sched e2) = 4
  | _, _ => False
  end.
Proof. vm_compute. repeat split. Qed.

(** C18, refuted twice.  A model whose only agent dies runs for ever if only [max_steps]
    is given, because the step counter stops counting; and agents that keep adding agents
    for the current instant keep the clock below [max_time] for ever. *)
Definition mayfly : user unit := User unit (fun _ _ w => (w, [], Dead)) (fun l w => (w, l)).
Definition mayfly_env : @env unit unit :=
  let '(s, w, _) := run_hist mayfly [CAdd 0 None] (timed_init false (Fin 1)) tt in
  make_env [] [] s w.

Theorem C18_max_steps_does_not_bound_a_run_refuted :
  exists (u : user unit) (e : @env unit unit),
    s_reg (e_sched e) <> [] /\
    forall fuel, run_model u (fun _ => true) fuel (Limits None (Some 10%Z)) e = RFuel.
Proof.
  exists mayfly, mayfly_env. split; [discriminate|].
  assert (forall fuel (e : @env unit unit), s_queue (e_sched e) = [] -> s_steps (e_sched e) = 1 ->
    run_loop mayfly (fun _ => true) fuel (Limits None (Some 10%Z)) e = RFuel) as K.
  { induction fuel as [|fuel IH]; intros e Q S1; [reflexivity|]. cbn [run_loop].
    unfold is_done. cbn [max_time max_steps]. rewrite S1. cbn [negb orb].
    change (10 <=? Z.of_nat 1)%Z with false. cbn iota.
    destruct (env_step mayfly e) as [[e1 tr] x] eqn:ES. unfold env_step in ES.
    rewrite step_empty in ES by auto. injection ES as <- <- <-. rewrite IH; auto. }
  intros [|fuel]; [reflexivity|].
  change (after [EvAct (Fin 0) 0 Dead]
    (run_loop mayfly (fun _ => true) fuel (Limits None (Some 10%Z))
       (fst (fst (env_step mayfly mayfly_env)))) = RFuel).
  rewrite K; reflexivity.
Qed.

Definition spawner : user unit := User unit
  (fun _ a w => (w, [SAdd (S a) None], Dead)) (fun l w => (w, l)).
Definition spawner_env : @env unit unit :=
  let '(s, w, _) := run_hist spawner [CAdd 0 None] (timed_init false (Fin 1)) tt in
  make_env [] [] s w.

Theorem C18_max_time_does_not_bound_a_run_refuted :
  exists (u : user unit) (e : @env unit unit),
    s_reg (e_sched e) <> [] /\
    forall fuel, run_model u (fun _ => true) fuel (Limits (Some (Fin 1)) None) e = RFuel.
Proof.
  exists spawner, spawner_env. split; [discriminate|].
  assert (forall fuel (e : @env unit unit) a, s_queue (e_sched e) = [(Fin 0, [a])] ->
    s_time (e_sched e) = Fin 0 -> s_shuffle (e_sched e) = false ->
    run_loop spawner (fun _ => true) fuel (Limits (Some (Fin 1)) None) e = RFuel) as K.
  { induction fuel as [|fuel IH]; intros e a Q S1 SH; [reflexivity|]. cbn [run_loop].
    unfold is_done. cbn [max_time max_steps]. rewrite S1. cbn [negb orb].
    change (n_leb (Fin 1) (Fin 0) || false) with false. cbn iota.
    destruct (env_step spawner e) as [[e1 tr] x] eqn:ES.
    unfold env_step, timed_step in ES. rewrite Q, S1, SH in ES.
    change (n_ltb (Fin 0) (Fin 0)) with false in ES. cbn iota in ES.
    cbn -[reg_add collect] in ES. unfold timed_add, reg_add, timed_schedule in ES.
    cbn -[collect] in ES. rewrite S1 in ES.
    match type of ES with context [existsb ?f ?l] => destruct (existsb f l) end; cbn -[collect] in ES;
      injection ES as <- <- <-;
      match goal with |- after _ (run_loop _ _ _ _ ?e2) = _ => rewrite (IH e2 (S a)) end;
      cbn -[collect]; auto. }
  intros fuel. apply (K fuel spawner_env 0); reflexivity.
Qed.

(** C18, partial.  A model that is set up by additions, removals and other changes, and
    then run with a finite [max_time], returns (or raises) if the delays are not negative,
    the default interval is positive and agents add no agents while they act.  Missing:
    agents that add agents, for which it is false in general. *)
Theorem C18_finishes_with_max_time_partial :
  forall {AR : Arith} {HP : Precise AR} W V (u : user W) running l T h sh di w0 s w tr0 mr more,
  forward_only u -> adds_none u -> n_ltb (Fin 0) di = true ->
  run_hist u h (timed_init sh di) w0 = (s, w, tr0) -> setup h = true ->
  max_time l = Some (Fin T) ->
  exists fuel, run_model u running fuel l (@make_env W V mr more s w) <> RFuel.
Proof. intros AR HP W V u running. exact (@finishes_by_time AR W V u running HP). Qed.

(** With [max_steps] it returns if no agent ever dies, fails or sleeps for ever; here agents
    may add agents.  Missing: mortal agents, for which it is false in general. *)
Theorem C18_finishes_with_max_steps_partial :
  forall {AR : Arith} {HP : Precise AR} W V (u : user W) running l m h sh di w0 s w tr0 mr more,
  forward_only u -> immortal u -> (sh = true -> fair_shuffle u) -> (0 <= di)%Z ->
  run_hist u h (timed_init sh (Fin di)) w0 = (s, w, tr0) -> setup h = true ->
  max_steps l = Some m ->
  exists fuel, run_model u running fuel l (@make_env W V mr more s w) <> RFuel.
Proof. intros AR HP W V u running. exact (@finishes_by_steps AR W V u running HP). Qed.

Definition walkers : user nat := User nat
  (fun _ a w => (S w, [], Ret (if Nat.eqb a 0 then None else Some (Fin (Z.of_nat a)))))
  (fun l w => (w, rev l)).

Example C18_example :
  forward_only walkers /\ adds_none walkers /\ immortal walkers /\
  setup [CAdd 0 None; CAdd 3 None; CWorld S] = true /\
  (let '(s, w, _) := run_hist walkers [CAdd 0 None; CAdd 3 None; CWorld S]
                        (timed_init true (Fin 2)) 0 in
   match run_model walkers (fun _ => true) 30 (Limits (Some (Fin 9)) (Some 4%Z))
           (@make_env nat unit [] [] s w) with
   | RReturned e _ => s_time (e_sched e) = Fin 6 /\ s_steps (e_sched e) = 4
   | _ => False
   end).
Proof.
  split; [|split; [|split; [|split; [reflexivity|]]]].
  - intros s a w. simpl. destruct a; simpl; auto.
  - intros s a w. reflexivity.
  - intros s a w. simpl. destruct (Nat.eqb a 0); eauto.
  - vm_compute. auto.
Qed.

(** C19, the rows.  After [n] calls to [model.step()] that raise nothing, every collected
    variable has exactly [n + 1] values, the i-th of which is what its reporter says about
    the model after [i] calls; the variables are the ones with a reporter. *)
Theorem C19_one_row_per_step :
  forall {AR : Arith} W V (u : user W) mr more s w n e' tr,
  stepped u n (@make_env W V mr more s w) e' tr ->
  (forall k f, dget k (c_reps (e_col e')) = Some f ->
    exists col, dget k (c_vars (e_col e')) = Some col /\ List.length col = S n /\
      forall i ei tri, i <= n -> stepped u i (make_env mr more s w) ei tri ->
        nth_error col i = Some (f (e_sched ei) (e_world ei))) /\
  (forall k, dhas k (c_vars (e_col e')) = dhas k (c_reps (e_col e'))).
Proof. intros AR W V u mr more s w n e' tr H. destruct (columns u mr more s w n e' tr H) as (A&B&_). auto. Qed.

(** C19, the reporters.  The user's reporters are used, those of [add_model_reporter]
    first (the last one wins), then those of the constructor; only names that the user has
    not defined get the default reporters for the number of agents and the clock. *)
Theorem C19_default_reporters :
  forall {AR : Arith} W V (u : user W) (mr : dict string (@reporter W V)) more s w n e' tr k,
  dwf mr -> stepped u n (make_env mr more s w) e' tr ->
  dget k (c_reps (e_col e')) =
  match dget k (rev more) with
  | Some f => Some f
  | None =>
      match dget k mr with
      | Some f => Some f
      | None => if String.eqb k "agent_count" then Some (fun s _ => CCount (List.length (s_reg s)))
                else if String.eqb k "time" then Some (fun s _ => CTime (s_time s))
                else None
      end
  end.
Proof.
  intros AR W V u mr more s w n e' tr k WF H.
  destruct (columns u mr more s w n e' tr H) as (_&_&R). rewrite R.
  rewrite dget_update. destruct (dget k (rev more)); auto.
  rewrite dget_update_wf by (apply with_defaults_wf; auto). rewrite with_defaults_get.
  destruct (dget k mr); auto.
  change (eqb k "agent_count"%string) with (String.eqb k "agent_count").
  change (eqb k "time"%string) with (String.eqb k "time").
  destruct (String.eqb k "agent_count"); auto. destruct (String.eqb k "time"); auto.
Qed.

(** C19, the clock.  If the user defines no reporter with the name "time", that column
    has [n + 1] instants, starts with the time at which the model was built, and never
    decreases, for models whose agents ask for no negative delays. *)
Theorem C19_time_column_never_decreases :
  forall {AR : Arith} W V (u : user W) h sh di w0 s w tr0 mr more n (e' : @env W V) tr,
  forward_only u -> nonneg di = true ->
  run_hist u h (timed_init sh di) w0 = (s, w, tr0) ->
  dwf mr -> dget "time"%string mr = None -> dhas "time"%string more = false ->
  stepped u n (make_env mr more s w) e' tr ->
  exists ts, dget "time"%string (c_vars (e_col e')) = Some (map CTime ts) /\
    List.length ts = S n /\ hd_error ts = Some (s_time s) /\ non_decreasing ts.
Proof.
  intros AR W V u h sh di w0 s w tr0 mr more n e' tr HF D E0 WF G1 G2 H.
  destruct (run_hist_winv u HF h _ _ _ _ _ E0 (winv_init sh di D)) as (HW&_).
  destruct (columns u mr more s w n e' tr H) as (A&_&_).
  pose proof (C19_default_reporters _ _ _ _ _ _ _ _ _ _ "time"%string WF H) as R.
  rewrite G1 in R. replace (dget "time"%string (rev more)) with (@None (@reporter W V)) in R.
  2:{ symmetry. apply dget_none. intros I. apply not_true_iff_false in G2. apply G2.
      apply dhas_in. unfold dkeys in *. rewrite map_rev in I. apply in_rev in I. exact I. }
  destruct (A _ _ R) as (col&GC&_).
  destruct (time_column u mr more s w n e' tr col HF HW G1 G2 WF H GC) as (ts&->&ND&L&HD).
  exists ts. auto.
Qed.

Example C19_example :
  match run_model crowd (fun _ => true) 20 (Limits (Some (Fin 4)) None) crowd_env with
  | RReturned e _ =>
      c_vars (e_col e) =
        [("n"%string, [CUser 0; CUser 2; CUser 3; CUser 4; CUser 5]);
         ("agent_count"%string, [CCount 2; CCount 3; CCount 3; CCount 3; CCount 3]);
         ("time"%string, map CTime [Fin 0; Fin 0; Fin 2; Fin 3; Fin 4])]
  | _ => False
  end.
Proof. vm_compute. reflexivity. Qed.

Print Assumptions C16_nobody_acts_at_or_after_max_time.
Print Assumptions C16_everything_before_max_time_was_done.
Print Assumptions C17_runs_stop_for_a_reason.
Print Assumptions C17_runs_stop_as_soon_as_there_is_a_reason.
Print Assumptions C18_max_steps_does_not_bound_a_run_refuted.
Print Assumptions C18_max_time_does_not_bound_a_run_refuted.
Print Assumptions C18_finishes_with_max_time_partial.
Print Assumptions C18_finishes_with_max_steps_partial.
Print Assumptions C19_one_row_per_step.
Print Assumptions C19_default_reporters.
Print Assumptions C19_time_column_never_decreases.
