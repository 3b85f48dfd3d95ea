(** Theorems about the runs of simulations (soil/simulation.py:130-234,
    soil/utils.py:127-160): properties C20-C27 and C29. *)
From Coq Require Import ZArith List Bool Arith String Ascii Permutation Lia.
From Verif Require Import PyDict SimModel SimSpec SimProofs.
Import ListNotations.
Local Open Scope string_scope.
Local Open Scope list_scope.

(** The examples: values, reporters and environments are numbers, and the world counts the
    environments built so far. *)
Definition dbuild : args nat nat -> nat -> st nat nat * option nat :=
  fun a w => (St (a_model_reporters a) (a_agent_reporters a) (S w), Some w).
Definition fbuild (bad : string) : args nat nat -> nat -> st nat nat * option nat :=
  fun a w => (St (a_model_reporters a) (a_agent_reporters a) (S w),
              if String.eqb (a_id a) bad then None else Some w).
Definition quiet : call nat nat nat -> nat -> nat * bool := fun _ w => (w, false).
Definition backwards : list nat -> nat -> list nat := fun js _ => rev js.
Definition drun b := run b quiet backwards (fun _ => true) (fun v => Some (Z.of_nat v)) false.

Lemma backwards_fair : fair_pool backwards.
Proof. intros js w. symmetry. apply Permutation_rev. Qed.

(** C20, refuted for empty lists: a matrix in which a parameter has no values has no
    combinations, but the model is run, without parameters. *)
Theorem C20_empty_list_refuted :
  exists (s : sim nat nat) x tr es,
    total (matrix s) = 0 /\ drun dbuild s 0 = (x, tr, Some es) /\
    map (fun r => a_params (fst r)) (ran tr) = [[]].
Proof.
  exists (Sim [] [("a", [PVal 1; PVal 2]); ("b", [])] "default" 1 1 false 1 [] []).
  do 3 eexists. split; [reflexivity|]. split; vm_compute; reflexivity.
Qed.

(** C20, partial (lists that are not empty).  A run that raises nothing goes through the
    combinations of the matrix in row-major order: their number is the product of the
    lengths, every way of picking one value for each parameter is in the list, and none
    is repeated if the values of each parameter are different.  Each group of iterations
    belongs to one combination ([group] says with which arguments the model is called). *)
Theorem C20_matrix_is_explored_partial :
  forall V R E W build exporter pool_order picklable int_of soil_debug
    (s : sim V R) (w : W) x (tr : list (tev V R E)) es,
  wf_sim s -> fair_pool pool_order ->
  parameters s = [] -> matrix s <> [] -> Forall (fun kl => snd kl <> []) (matrix s) ->
  run build exporter pool_order picklable int_of soil_debug s w = (x, tr, Some es) ->
  exists cs gs,
    (List.length cs = total (matrix s) /\
     (forall i c, nth_error cs i = Some c -> nth_choice (matrix s) i c) /\
     (forall c, In c cs <-> picks (matrix s) c) /\
     (Forall (fun kl => NoDup (snd kl)) (matrix s) -> NoDup cs)) /\
    Forall2 (group int_of soil_debug s) cs gs /\
    ran tr = map (fun it => (i_args it, i_res it)) (List.concat gs).
Proof. exact @matrix_explored. Qed.

Definition grid : sim nat nat :=
  Sim [] [("a", [PVal 1; PVal 2]); ("b", [PVal 3]); ("c", [PVal 4; PVal 5])] "default" 2 1 false 2 [] [].

Example C20_not_vacuous :
  wf_sim grid /\ Forall (fun kl => snd kl <> []) (matrix grid) /\
  map (fun r => (a_params (fst r), a_id (fst r))) (ran (snd (fst (drun dbuild grid 0)))) =
    [([("a", PVal 1); ("b", PVal 3); ("c", PVal 4)], "0"); ([("a", PVal 1); ("b", PVal 3); ("c", PVal 4)], "1");
     ([("a", PVal 1); ("b", PVal 3); ("c", PVal 5)], "0"); ([("a", PVal 1); ("b", PVal 3); ("c", PVal 5)], "1");
     ([("a", PVal 2); ("b", PVal 3); ("c", PVal 4)], "0"); ([("a", PVal 2); ("b", PVal 3); ("c", PVal 4)], "1");
     ([("a", PVal 2); ("b", PVal 3); ("c", PVal 5)], "0"); ([("a", PVal 2); ("b", PVal 3); ("c", PVal 5)], "1")].
Proof.
  split; [|split; [repeat constructor; discriminate|vm_compute; reflexivity]].
  split; unfold dwf; simpl; repeat constructor; simpl; intuition discriminate.
Qed.

(** C21, refuted.  With fixed parameters and a matrix, the model is also run with the
    matrix alone: the combination does not contain the fixed parameter. *)
Theorem C21_fixed_parameters_are_missing_refuted :
  exists (s : sim nat nat) x tr es,
    drun dbuild s 0 = (x, tr, Some es) /\ In ("a", PVal 1) (parameters s) /\
    map (fun r => a_params (fst r)) (ran tr) = [[("a", PVal 1)]; [("b", PVal 2)]; [("b", PVal 3)]].
Proof.
  exists (Sim [("a", PVal 1)] [("b", [PVal 2; PVal 3])] "default" 1 1 false 0 [] []).
  do 3 eexists. split; [vm_compute; reflexivity|]. split; [simpl; auto|reflexivity].
Qed.

(** C21, partial.  What is run is exactly this: the fixed parameters alone, then the
    combinations of the matrix alone.  So the property holds if there are no fixed
    parameters or no matrix. *)
Theorem C21_only_one_of_them_partial :
  forall V R (s : sim V R) cs, wf_sim s -> configurations s cs ->
  parameters s = [] \/ matrix s = [] ->
  forall c k v, In c cs -> dget k (parameters s) = Some v -> dget k c = Some v.
Proof.
  intros V R s cs WS (ms&CM&->) [P|M] c k v I G; [rewrite P in G; discriminate|].
  destruct CM as [[_ ->]|[NM _]]; [|contradiction].
  destruct (parameters s) eqn:P; [discriminate|]. destruct I as [<-|[]]. auto.
Qed.

(** C22.  A run that raises nothing creates the exporters, starts them, goes through the
    iterations, and ends them.  For each iteration the model is called with its
    parameters ([well_built], part of [group]), and then every exporter gets the resulting
    environment with the configuration.  The result lists these environments in order.
    The iterations of a configuration come in order, unless they are run by a pool (then
    they come in the order in which they finish, and the ones that fail are left out). *)
Theorem C22_lifecycle :
  forall V R E W build exporter pool_order picklable int_of soil_debug
    (s : sim V R) (w : W) x (tr : list (tev V R E)) es,
  wf_sim s -> fair_pool pool_order ->
  run build exporter pool_order picklable int_of soil_debug s w = (x, tr, Some es) ->
  exists cs gs,
    configurations s cs /\ Forall2 (group int_of soil_debug s) cs gs /\
    es = results (List.concat gs) /\
    tr = map (fun i => TCall (XNew i)) (seq 0 (n_exporters s)) ++
         map (fun i => TCall (XStart i)) (seq 0 (n_exporters s)) ++
         flat_map (block (n_exporters s)) (List.concat gs) ++
         map (fun i => TCall (XEnd i)) (seq 0 (n_exporters s)).
Proof. intros V R E W build exporter po pk io sd s w. apply run_lifecycle. Qed.

Definition two : sim nat nat :=
  Sim [] [("a", [PVal 7; PVal 8])] "x" 2 1 false 2 [] [].

Example C22_not_vacuous :
  wf_sim two /\
  let '(_, tr, r) := drun dbuild two 0 in
  r = Some [0; 1; 2; 3] /\
  tr = [TCall (XNew 0); TCall (XNew 1); TCall (XStart 0); TCall (XStart 1);
        TRun (Args "0" "x_iteration_0" [] [] [("a", PVal 7)]) (Some 0);
        TCall (XIter 0 0 [("a", PVal 7)]); TCall (XIter 1 0 [("a", PVal 7)]);
        TRun (Args "1" "x_iteration_1" [] [] [("a", PVal 7)]) (Some 1);
        TCall (XIter 0 1 [("a", PVal 7)]); TCall (XIter 1 1 [("a", PVal 7)]);
        TRun (Args "0" "x_iteration_0" [] [] [("a", PVal 8)]) (Some 2);
        TCall (XIter 0 2 [("a", PVal 8)]); TCall (XIter 1 2 [("a", PVal 8)]);
        TRun (Args "1" "x_iteration_1" [] [] [("a", PVal 8)]) (Some 3);
        TCall (XIter 0 3 [("a", PVal 8)]); TCall (XIter 1 3 [("a", PVal 8)]);
        TCall (XEnd 0); TCall (XEnd 1)].
Proof.
  split; [split; unfold dwf; simpl; repeat constructor; simpl; tauto|].
  vm_compute. split; reflexivity.
Qed.

(** C23, refuted.  The second iteration fails: the exporter was started and never ended. *)
Theorem C23_no_sim_end_after_a_failure_refuted :
  exists (s : sim nat nat) x tr,
    drun (fbuild "1") s 0 = (x, tr, None) /\
    In (TCall (XStart 0)) tr /\ ~ In (TCall (XEnd 0)) tr.
Proof.
  exists (Sim [] [] "x" 3 1 false 1 [] []). do 2 eexists. split; [vm_compute; reflexivity|].
  split; [simpl; tauto|]. simpl. intuition discriminate.
Qed.

(** C23, partial.  If the run raises and the exporters do not: all of them have been
    started, none of them is ended, and every iteration that finished before has been
    given to every exporter ([block]).  Missing: [sim_end]. *)
Theorem C23_finished_iterations_are_exported_partial :
  forall V R E W build exporter pool_order picklable int_of soil_debug
    (s : sim V R) (w : W) x (tr : list (tev V R E)),
  wf_sim s -> fair_pool pool_order -> good_exporters exporter ->
  run build exporter pool_order picklable int_of soil_debug s w = (x, tr, None) ->
  exists its tl,
    tr = map (fun i => TCall (XNew i)) (seq 0 (n_exporters s)) ++
         map (fun i => TCall (XStart i)) (seq 0 (n_exporters s)) ++
         flat_map (block (n_exporters s)) its ++ tl /\
    Forall (well_built s) its /\
    (tl = [] \/ exists a, tl = [TRun a None]).
Proof. intros V R E W build exporter po pk io sd s w. apply run_broken. Qed.

Example C23_not_vacuous :
  good_exporters quiet /\
  let '(_, tr, r) := drun (fbuild "1") (Sim [] [] "x" 3 1 false 1 [] []) 0 in
  r = None /\
  tr = [TCall (XNew 0); TCall (XStart 0);
        TRun (Args "0" "x_iteration_0" [] [] []) (Some 0); TCall (XIter 0 0 []);
        TRun (Args "1" "x_iteration_1" [] [] []) None].
Proof. split; [intros c w; reflexivity|]. vm_compute. split; reflexivity. Qed.

(** C24, refuted.  The field [num_processes] changes nothing at all: with four processes a
    failing iteration aborts the run, exactly as with one. *)
Definition with_processes {V R} (n : Z) (s : sim V R) : sim V R :=
  Sim (parameters s) (matrix s) (seed s) (iterations s) n (dry_run s) (n_exporters s)
    (model_reporters s) (agent_reporters s).

Theorem C24_num_processes_has_no_effect_refuted :
  (forall V R E W build exporter pool_order picklable int_of soil_debug n (s : sim V R) (w : W),
     @run V R E W build exporter pool_order picklable int_of soil_debug (with_processes n s) w =
     run build exporter pool_order picklable int_of soil_debug s w) /\
  exists (s : sim nat nat) x tr, num_processes s = 4%Z /\ drun (fbuild "1") s 0 = (x, tr, None) /\
    List.length (ran tr) = 2 /\ iterations s = 3.
Proof.
  split.
  { intros V R E W build exporter po pk io sd n s w.
    assert (forall ps x, run_configs build exporter po pk io sd (with_processes n s) ps x =
      run_configs build exporter po pk io sd s ps x) as K.
    { induction ps as [|p ps IH]; intros x; [reflexivity|]. cbn [run_configs].
      change (run_config build exporter po pk io sd (with_processes n s) p x)
        with (run_config build exporter po pk io sd s p x).
      destruct (run_config build exporter po pk io sd s p x) as [[x1 tr1] [es|]]; auto.
      now rewrite IH. }
    unfold run. change (collect_params (with_processes n s)) with (collect_params s).
    change (exporters_do exporter (with_processes n s)) with (exporters_do (W:=W) exporter s).
    destruct (exporters_do _ _ XNew _) as [[x1 tr1] []]; auto.
    destruct (exporters_do _ _ XStart _) as [[x2 tr2] []]; auto.
    now rewrite K. }
  exists (Sim [] [] "x" 3 4 false 1 [] []). do 2 eexists. split; [reflexivity|].
  split; [vm_compute; reflexivity|]. split; reflexivity.
Qed.

(** C24, partial.  The pool is used if the model is given a *parameter* of that name, with
    a value above 1: then failing iterations do not abort the run, every one is run once
    and the others are exported and returned ([C22_lifecycle] with [pooled]).  Missing:
    the field of the simulation, which is ignored. *)
Theorem C24_parameter_num_processes_partial :
  forall V R E W build exporter pool_order picklable int_of soil_debug (s : sim V R) cs (w : W),
  wf_sim s -> good_exporters exporter -> (forall j, picklable j = true) -> dry_run s = false ->
  configurations s cs ->
  Forall (fun p => pooled int_of soil_debug p /\ ~ In "func" (dkeys p) /\ ~ In "iterable" (dkeys p)) cs ->
  exists x tr es,
    @run V R E W build exporter pool_order picklable int_of soil_debug s w = (x, tr, Some es).
Proof. intros V R E W build exporter po pk io sd s cs w. apply pooled_run_returns. Qed.

Example C24_not_vacuous :
  let s := Sim [("num_processes", PVal 4); ("a", PVal 9)] [] "x" 3 1 false 1 [] [] in
  pooled (fun v => Some (Z.of_nat v)) false (parameters s) /\
  let '(_, tr, r) := drun (fbuild "1") s 0 in
  r = Some [0; 0] /\
  map (fun r => (a_id (fst r), a_params (fst r), snd r)) (ran tr) =
    [("2", [("a", PVal 9)], Some 0); ("1", [("a", PVal 9)], None); ("0", [("a", PVal 9)], Some 0)].
Proof.
  split; [split; auto; exists 4, 4%Z; repeat split; auto|]. vm_compute. split; reflexivity.
Qed.

(** C25.  With a pool, whatever the order [js'] in which the calls finish, the loop over
    the results goes through the results of exactly the calls that do not raise, each
    once (if they can be sent between processes and the loop itself does not raise). *)
Theorem C25_pool_yields_the_successful_calls :
  forall S T A B (func : A -> S -> S * list T * option B) body shipped x0 x js js',
  (forall e x, snd (body e x) = false) -> (forall j, shipped j = true) -> Permutation js' js ->
  exists bs, snd (pool func body shipped x0 js' x) = Some bs /\
    Permutation bs (flat_map (fun j => match snd (func j x0) with Some e => [e] | None => [] end) js).
Proof.
  intros S T A B func body shipped x0 x js js' BO SH P.
  eexists. split; [apply pool_results; auto|]. now apply Permutation_flat_map.
Qed.

(** In one process the loop goes through the results in order, each call being made after
    the body of the loop for the previous one, and stops at the first call that raises. *)
Theorem C25_serial_stops_at_the_first_failure :
  forall S T A B (func : A -> S -> S * list T * option B) body js1 j js2 x x1 tr1 bs,
  serial func body js1 x = (x1, tr1, Some bs) ->
  snd (func j x1) = None ->
  snd (serial func body (js1 ++ j :: js2) x) = None /\
  List.length bs = List.length js1 /\
  snd (fst (serial func body (js1 ++ j :: js2) x)) = tr1 ++ snd (fst (func j x1)).
Proof.
  intros S T A B func body js1 j js2. induction js1 as [|i js1 IH]; intros x x1 tr1 bs H F; simpl in *.
  - injection H as <- <- <-. destruct (func j x) as [[x2 tr2] r]. simpl in F. subst. auto.
  - destruct (func i x) as [[x2 tr2] [e|]]; [|discriminate].
    destruct (body e x2) as [[x3 tr3] b]. destruct b; [discriminate|].
    destruct (serial func body js1 x3) as [[x4 tr4] [bs4|]] eqn:ES; [|discriminate].
    injection H as <- <- <-. destruct (IH _ _ _ _ ES F) as (E1&E2&E3).
    destruct (serial func body (js1 ++ j :: js2) x3) as [[x5 tr5] r5]. simpl in *.
    subst. repeat split; auto. now rewrite <- !app_assoc.
Qed.

Definition odd_fails (j x : nat) : nat * list nat * option nat :=
  (S x, [j], if Nat.odd j then None else Some (10 * j + x)).

Example C25_not_vacuous :
  pool odd_fails (fun _ x => (x, [], false)) (fun _ => true) 5 [2; 3; 0; 1; 4] 5 = (5, [2; 3; 0; 1; 4], Some [25; 5; 45]) /\
  serial odd_fails (fun _ x => (x, [], false)) [0; 2; 4; 1; 6] 5 = (9, [0; 2; 4; 1], None).
Proof. split; reflexivity. Qed.

(** C26.  In every run, also one that raises, the seed given to the model depends only on
    the seed of the simulation and the number of the iteration, and
    different seeds or different numbers give different strings. *)
Theorem C26_seeds_of_a_run :
  forall V R E W build exporter pool_order picklable int_of soil_debug
    (s : sim V R) (w : W) x (tr : list (tev V R E)) r,
  run build exporter pool_order picklable int_of soil_debug s w = (x, tr, r) ->
  forall a e, In (a, e) (ran tr) ->
  exists j, a_id a = str_nat j /\ a_seed a = (seed s ++ "_iteration_" ++ str_nat j)%string.
Proof.
  intros V R E W build exporter po pk io sd s w x tr r H a e I.
  pose proof (run_seeded build exporter po pk io sd s w) as K. rewrite H in K.
  rewrite Forall_forall in K. exact (K (a, e) I).
Qed.

Theorem C26_seeds_are_different :
  forall s i s' j,
  (s ++ "_iteration_" ++ str_nat i)%string = (s' ++ "_iteration_" ++ str_nat j)%string ->
  s = s' /\ i = j.
Proof. exact iteration_seed_inj. Qed.

Example C26_not_vacuous :
  map (fun r => a_seed (fst r)) (ran (snd (fst (drun dbuild two 0)))) =
    ["x_iteration_0"; "x_iteration_1"; "x_iteration_0"; "x_iteration_1"] /\
  str_nat 1047 = "1047".
Proof. vm_compute. split; reflexivity. Qed.

(** C27, refuted: NUL bytes at the end do not count. *)
Theorem C27_trailing_nul_refuted :
  exists a b, a <> b /\ int_seed a = int_seed b.
Proof. exists "a", (String "a" (String "000" EmptyString)). split; [discriminate|reflexivity]. Qed.

(** C27, partial: strings of the same length, or that do not end with a NUL, in
    particular all the seeds of iterations. *)
Theorem C27_same_length_partial :
  forall a b, String.length a = String.length b -> int_seed a = int_seed b -> a = b.
Proof.
  intros a b L H. apply list_ascii_inj, bytes_inj_length; auto.
  assert (forall s, List.length (list_ascii_of_string s) = String.length s) as K by (induction s; simpl; auto).
  now rewrite !K.
Qed.

Theorem C27_no_trailing_nul_partial :
  forall a b, (forall s, a <> (s ++ String "000" EmptyString)%string) ->
  (forall s, b <> (s ++ String "000" EmptyString)%string) -> int_seed a = int_seed b -> a = b.
Proof.
  assert (forall a, (forall s, a <> (s ++ String "000" EmptyString)%string) ->
    last (list_ascii_of_string a) (ascii_of_N 1) <> nul) as K.
  { intros a N H. destruct (list_ascii_of_string a) as [|c l] eqn:E; [discriminate|].
    destruct (exists_last (l:=c :: l)) as (l'&x&EL); [discriminate|]. rewrite EL in *.
    rewrite last_last in H. subst x. apply (N (string_of_list_ascii l')).
    apply list_ascii_inj. rewrite list_ascii_app, list_ascii_of_string_of_list_ascii, E. reflexivity. }
  intros a b NA NB H. apply list_ascii_inj, bytes_inj; auto.
Qed.

Theorem C27_iteration_seeds_partial :
  forall s i s' j,
  int_seed (s ++ "_iteration_" ++ str_nat i) = int_seed (s' ++ "_iteration_" ++ str_nat j) ->
  s = s' /\ i = j.
Proof. exact int_seed_iterations. Qed.

Example C27_not_vacuous : int_seed "abc" = 6513249%N /\ int_seed "" = 0%N.
Proof. vm_compute. split; reflexivity. Qed.

(** C29, refuted.  The first configuration brings a reporter, the second one does not; the
    second one gets it all the same, and so will the next runs of the simulation. *)
Theorem C29_reporters_leak_refuted :
  exists (s : sim nat nat) x tr es a r,
    drun dbuild s 0 = (x, tr, Some es) /\
    model_reporters s = [] /\
    nth_error (collect_params s) 1 = Some [("a", PVal 1)] /\
    nth_error (ran tr) 1 = Some (a, r) /\ a_params a = [("a", PVal 1)] /\
    a_model_reporters a = [("mine", 5)] /\ st_mr x = [("mine", 5)].
Proof.
  exists (Sim [("model_reporters", PReps [("mine", 5)])] [("a", [PVal 1])] "x" 1 1 false 0 [] []).
  do 5 eexists. split; [vm_compute; reflexivity|]. repeat split.
Qed.

(** C29, partial.  What each iteration gets: the reporters of the simulation, overridden
    by the ones of all the configurations up to its own, the last one counting (if the
    model class only adds reporters, and no pool is used).  In particular the reporters of
    its own configuration are always used.  Missing: that the ones of earlier
    configurations are not. *)
Theorem C29_reporters_accumulate_partial :
  forall V R E W build exporter pool_order picklable int_of soil_debug
    (s : sim V R) cs (w : W) x (tr : list (tev V R E)) es,
  wf_sim s -> keeps_reporters build ->
  configurations s cs -> Forall (fun p => good_reps p /\ ~ pooled int_of soil_debug p) cs ->
  dry_run s = false ->
  run build exporter pool_order picklable int_of soil_debug s w = (x, tr, Some es) ->
  let confs := flat_map (fun p => repeat p (iterations s)) cs in
  List.length (ran tr) = List.length confs /\
  forall k a r, nth_error (ran tr) k = Some (a, r) ->
    carries "agent_reporters" (agent_reporters s) (firstn (S k) confs) (a_agent_reporters a) /\
    carries "model_reporters" (model_reporters s) (firstn (S k) confs) (a_model_reporters a).
Proof.
  intros V R E W build exporter po pk io sd s cs w x tr es WS KR CS F DR H.
  eapply run_reporters in H as (_&H1&H2); eauto.
Qed.

Example C29_not_vacuous :
  let s := Sim [("model_reporters", PReps [("mine", 5)])]
             [("model_reporters", [PReps [("mine", 6); ("other", 1)]; PReps []])] "x" 1 1 false 0 [("base", 0)] [] in
  keeps_reporters (W:=nat) (E:=nat) dbuild /\
  map (fun r => a_model_reporters (fst r)) (ran (snd (fst (drun dbuild s 0)))) =
    [[("base", 0); ("mine", 5)]; [("base", 0); ("mine", 6); ("other", 1)];
     [("base", 0); ("mine", 6); ("other", 1)]].
Proof.
  split; [|vm_compute; reflexivity].
  intros a w x r H. injection H as <- <-. simpl. auto.
Qed.

Print Assumptions C20_matrix_is_explored_partial.
Print Assumptions C22_lifecycle.
Print Assumptions C24_parameter_num_processes_partial.
Print Assumptions C25_pool_yields_the_successful_calls.
Print Assumptions C26_seeds_are_different.
Print Assumptions C27_iteration_seeds_partial.
Print Assumptions C29_reporters_accumulate_partial.
Print Assumptions C20_empty_list_refuted.
Print Assumptions C21_fixed_parameters_are_missing_refuted.
Print Assumptions C21_only_one_of_them_partial.
Print Assumptions C23_no_sim_end_after_a_failure_refuted.
Print Assumptions C23_finished_iterations_are_exported_partial.
Print Assumptions C24_num_processes_has_no_effect_refuted.
Print Assumptions C25_serial_stops_at_the_first_failure.
Print Assumptions C26_seeds_of_a_run.
Print Assumptions C27_trailing_nul_refuted.
Print Assumptions C27_same_length_partial.
Print Assumptions C27_no_trailing_nul_partial.
Print Assumptions C29_reporters_leak_refuted.
