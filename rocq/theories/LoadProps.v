(** Theorems about the loading of simulation files (soil/simulation.py:30-48 and 320-358)
    and about the command line (soil/__init__.py:30-262): properties C30 and C31. *)
From Coq Require Import ZArith List Bool Arith String Ascii Lia.
From Verif Require Import PyDict SimModel SimSpec SimProofs LoadModel LoadSpec LoadProofs.
Import ListNotations.
Local Open Scope string_scope.
Local Open Scope list_scope.

(** C30, first half.  Whatever a file contains and however it ends, loading it runs no
    configuration, and the do-not-run flag is off afterwards. *)
Theorem C30_loading_runs_nothing :
  forall V R C replace_kw (of_class : C -> sim V R) f (m : mstate V R) r m' ran,
  iter_from_py replace_kw of_class f m = (r, m', ran) ->
  ran = [] /\ (avoid m = false -> avoid m' = false).
Proof. intros V R C rk oc f m. apply load_runs_nothing. Qed.

(** C30, second half.  If the file raises nothing and the queue was empty, what is yielded
    are the simulations that have a name at the end of the file, in alphabetical order,
    and then for each call of [run], in order, one simulation for each of its
    configurations; the queue is empty again. *)
Theorem C30_queued_simulations_are_yielded_once :
  forall V R C replace_kw (of_class : C -> sim V R) f (m : mstate V R),
  avoid m = false -> queued m = [] -> ~ raises f -> Forall wf_sim (calls f) ->
  exists named css,
    named_sims f named /\ Forall2 configurations (calls f) css /\
    let found := map snd named ++
      List.concat (map (fun scs => map (with_parameters (fst scs)) (snd scs)) (combine (calls f) css)) in
    let '(r, m', _) := iter_from_py replace_kw of_class f m in
    m' = MState false [] /\ (found <> [] -> r = LYields (map replace_kw found)).
Proof.
  intros V R C rk oc f m A Q NR WS.
  destruct (load_yields rk oc f m A Q NR) as (named&N&E1&E2).
  exists named, (map collect_params (calls f)). split; auto. split.
  { clear -WS. induction WS; simpl; constructor; auto. now apply collect_params_ok. }
  destruct (iter_from_py rk oc f m) as [[r m'] ran]. simpl in E1, E2. split; auto.
  assert (List.concat (map (fun scs => map (with_parameters (fst scs)) (snd scs))
     (combine (calls f) (map collect_params (calls f)))) =
     flat_map (fun s => map (with_parameters s) (collect_params s)) (calls f)) as ->; auto.
  clear. induction (calls f) as [|s l IH]; simpl; auto. now rewrite IH.
Qed.

Definition plain (a : nat) : sim nat nat := Sim [("a", PVal a)] [] "x" 1 1 false 0 [] [].
Definition swept : sim nat nat := Sim [] [("b", [PVal 1; PVal 2])] "x" 1 1 false 0 [] [].
Notation load := (iter_from_py (C:=nat) (fun s => s) (fun c => plain c)).

Example C30_not_vacuous :
  let f := [SSim "z" (plain 1); SSim "y" (plain 2); SRun (plain 3); SSim "z" (plain 4); SRun swept] in
  ~ raises f /\ Forall wf_sim (calls f) /\
  load f (MState false []) =
    (LYields [plain 2; plain 4; plain 3; with_parameters swept [("b", PVal 1)];
              with_parameters swept [("b", PVal 2)]], MState false [], []) /\
  load [SRun (plain 3); SRaise; SRun swept] (MState false []) =
    (LRaised, MState false [(plain 3, [("a", PVal 3)])], []).
Proof.
  split; [unfold raises; simpl; intuition discriminate|].
  split; [repeat constructor; simpl; intuition|]. split; vm_compute; reflexivity.
Qed.

(** C30, refuted in three ways.  The simulations that are yielded for a matrix still have
    the matrix, so that running them runs six configurations instead of the two queued. *)
Theorem C30_matrix_is_run_again_refuted :
  exists f l m' ran,
    load f (MState false []) = (LYields l, m', ran) /\
    calls f = [swept] /\ List.length (collect_params swept) = 2 /\
    List.length (flat_map collect_params l) = 6.
Proof. exists [SRun swept]. do 3 eexists. repeat split. Qed.

(** A simulation that has a name and is run is yielded twice. *)
Theorem C30_named_simulation_is_yielded_twice_refuted :
  exists f m' ran,
    load f (MState false []) = (LYields [plain 1; plain 1], m', ran) /\ calls f = [plain 1].
Proof. exists [SSim "sim" (plain 1); SRun (plain 1)]. do 2 eexists. split; reflexivity. Qed.

(** The queue of a file that raises is left, and yielded by the next file. *)
Theorem C30_leftover_queue_refuted :
  exists f1 f2 m1 m2 ran1 ran2,
    load f1 (MState false []) = (LRaised, m1, ran1) /\
    load f2 m1 = (LYields [plain 1; plain 2], m2, ran2) /\ calls f2 = [plain 2].
Proof. exists [SRun (plain 1); SRaise], [SRun (plain 2)]. do 4 eexists. repeat split. Qed.

(** C30, partial: without a matrix, running a simulation that is yielded for a queued
    configuration runs that configuration, once. *)
Theorem C30_without_matrix_partial :
  forall V R (s : sim V R) p cs, matrix s = [] ->
  configurations (with_parameters s p) cs -> cs = [p].
Proof.
  intros V R s p cs M (ms&[[_ ->]|[NM _]]&->); simpl in *; [|congruence].
  destruct p; reflexivity.
Qed.

(** C31, refuted twice, for the console command ([main] with its default arguments).
    Limits given in the file are dropped, and [--output] is ignored. *)
Definition no_options : cli := Cli false false false false None None [] None None None None.
Definition limited : csim nat := CSim false true ["default"] "1" "here" "seed" 3 (Some 100) (Some 50).

Theorem C31_limits_of_the_file_are_dropped_refuted :
  forall F float_of int_of_str (s : csim F),
  exists s', main_run float_of int_of_str [] (Some "soil_output") no_options s = Some s' /\
    c_max_time s' = None /\ c_max_steps s' = None.
Proof. intros. eexists. split; [reflexivity|]. split; reflexivity. Qed.

Theorem C31_output_is_ignored_refuted :
  forall F float_of int_of_str (s : csim F) dir,
  exists s', main_run float_of int_of_str [] (Some "soil_output")
      (Cli false false false false (Some dir) None [] None None None None) s = Some s' /\
    c_outdir s' = "soil_output".
Proof. intros. eexists. split; reflexivity. Qed.

(** C31, partial.  What the options do: limits are set if they are given (and not "-1"),
    the seed and the number of iterations are the ones of the file unless they are given,
    and [--output] works if [main] is called with [output=None].  Missing: the limits and
    the output directory of the file. *)
Theorem C31_effect_of_the_options_partial :
  forall F float_of int_of_str exporters output o (s s' : csim F),
  main_run float_of int_of_str exporters output o s = Some s' ->
  (forall t, o_max_time o = Some t -> t <> "-1" -> c_max_time s' = float_of t /\ float_of t <> None) /\
  (forall t, o_max_steps o = Some t -> t <> "-1" -> c_max_steps s' = float_of t /\ float_of t <> None) /\
  (forall d, output = None -> o_output o = Some d -> c_outdir s' = d) /\
  (o_seed o = None -> c_seed s' = c_seed s) /\
  (forall x, o_seed o = Some x -> c_seed s' = x) /\
  (o_iterations o = None -> c_iterations s' = c_iterations s) /\
  (forall i, o_iterations o = Some i -> i <> "" -> int_of_str i = Some (c_iterations s')) /\
  c_dry_run s' = o_dry_run o /\ c_dump s' = negb (o_no_dump o) /\
  (o_num_processes o = None -> c_num_processes s' = "1") /\
  (forall n, o_num_processes o = Some n -> c_num_processes s' = n).
Proof.
  intros F fo io exporters output o s s' H. unfold main_run in H.
  destruct (match o_iterations o with None | Some "" => Some (c_iterations s) | Some i => io i end) as [its|] eqn:EI; [|discriminate].
  assert (forall oo r t, limit_of fo oo = Some r -> oo = Some t -> t <> "-1" -> r = fo t /\ fo t <> None) as LK.
  { intros oo r t HL -> NE. unfold limit_of in HL. simpl in HL.
    destruct (String.eqb_spec t "-1"); [contradiction|]. destruct (fo t); [|discriminate].
    injection HL as <-. split; congruence. }
  destruct (limit_of fo (o_max_time o)) as [mt|] eqn:E1; [|discriminate].
  destruct (limit_of fo (o_max_steps o)) as [ms|] eqn:E2; [|discriminate].
  injection H as <-. simpl. repeat match goal with |- _ /\ _ => split end; eauto.
  - intros d -> ->. reflexivity.
  - now intros ->.
  - now intros x ->.
  - intros EN. rewrite EN in EI. now injection EI.
  - intros i EN NE. rewrite EN in EI. destruct i; [contradiction|]. exact EI.
  - now intros ->.
  - now intros n ->.
Qed.

Example C31_not_vacuous :
  main_run (fun s => if String.eqb s "7" then Some 7 else None) (fun _ => Some 5%Z) [] (Some "soil_output")
    (Cli false true true false (Some "out") None ["sqlite"; "csv"] (Some "7") None (Some "5") None) limited =
  Some (CSim false false ["default"; "sqlite"; "csv"; "csv"] "1" "soil_output" "seed" 5 (Some 7) None).
Proof. reflexivity. Qed.

(** C30.  A file without simulations and calls of [run]: one simulation for each class of
    environments, in alphabetical order, or AttributeError if there is none. *)
Theorem C30_files_without_simulations :
  forall V R C replace_kw (of_class : C -> sim V R) f (m : mstate V R),
  avoid m = false -> queued m = [] -> ~ raises f ->
  calls f = [] -> (forall n s, binding f n <> Some (VSim s)) ->
  exists named, named_classes f named /\
    fst (fst (iter_from_py replace_kw of_class f m)) =
    match named with
    | [] => LNothing
    | _ => LYields (map (fun nc => replace_kw (of_class (snd nc))) named)
    end.
Proof. intros V R C rk oc f m. apply load_classes. Qed.

Example C30_classes_not_vacuous :
  let oc := fun c : nat => plain c in
  fst (fst (iter_from_py (fun s => s) oc [SClass "B" 2; SClass "A" 1] (MState false []))) =
    LYields [plain 1; plain 2] /\
  fst (fst (iter_from_py (fun s => s) oc [] (MState false []))) = LNothing.
Proof. split; reflexivity. Qed.

(** C112 is false: the exporters of the simulation are not used by the command line, and
    an exporter that is given in two ways is used twice. *)
Theorem C112_exporters_of_the_file_are_dropped_refuted :
  (forall F float_of int_of_str exporters output o (s s' : csim F) l,
     let with_exporters x := CSim (c_dry_run x) (c_dump x) l (c_num_processes x) (c_outdir x)
       (c_seed x) (c_iterations x) (c_max_time x) (c_max_steps x) in
     main_run float_of int_of_str exporters output o (with_exporters s) =
     main_run float_of int_of_str exporters output o s) /\
  (forall F float_of int_of_str (s : csim F),
   exists s', main_run float_of int_of_str [] (Some "soil_output")
     (Cli false false true false None None ["csv"] None None None None) s = Some s' /\
   c_exporters s' = ["default"; "csv"; "csv"]).
Proof.
  split.
  - reflexivity.
  - intros. eexists. split; reflexivity.
Qed.

(** C112, what holds instead: the exporters are the ones that [main] was called with
    ("default" if none), then the ones given with [--exporter] that are new, then "csv"
    for [--csv] and "gexf" for [--graph]. *)
Theorem C112_exporters_partial :
  forall F float_of int_of_str exporters output o (s s' : csim F),
  main_run float_of int_of_str exporters output o s = Some s' ->
  exists l, extended (match exporters with [] => ["default"] | _ => exporters end) (o_exporter o) l /\
    c_exporters s' = l ++ (if o_csv o then ["csv"] else []) ++ (if o_graph o then ["gexf"] else []).
Proof.
  intros F fo io exporters output o s s' H. unfold main_run in H.
  destruct (match o_iterations o with None | Some "" => Some (c_iterations s) | Some i => io i end); [|discriminate].
  destruct (limit_of fo (o_max_time o)); [|discriminate].
  destruct (limit_of fo (o_max_steps o)); [|discriminate].
  injection H as <-. cbn [c_exporters]. unfold cli_exporters.
  eexists. split; [apply fold_extended|].
  destruct (o_csv o), (o_graph o); cbn [app]; rewrite ?app_nil_r, <- ?app_assoc; reflexivity.
Qed.

Example C112_not_vacuous :
  exists s', main_run (fun _ => None) (fun _ => None) ["yaml"] None
    (Cli false false true true None None ["sqlite"; "yaml"; "sqlite"] None None None None) limited = Some s' /\
  c_exporters s' = ["yaml"; "sqlite"; "csv"; "gexf"].
Proof. eexists. split; reflexivity. Qed.

Print Assumptions C30_loading_runs_nothing.
Print Assumptions C30_queued_simulations_are_yielded_once.
Print Assumptions C31_effect_of_the_options_partial.
Print Assumptions C30_files_without_simulations.
Print Assumptions C112_exporters_of_the_file_are_dropped_refuted.
Print Assumptions C112_exporters_partial.
Print Assumptions C30_matrix_is_run_again_refuted.
Print Assumptions C30_named_simulation_is_yielded_twice_refuted.
Print Assumptions C30_leftover_queue_refuted.
Print Assumptions C30_without_matrix_partial.
Print Assumptions C31_limits_of_the_file_are_dropped_refuted.
Print Assumptions C31_output_is_ignored_refuted.
