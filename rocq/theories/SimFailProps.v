(** Theorems about exporters that raise and about the names of parameters: properties
    C110 and C111. *)
From Coq Require Import ZArith List Bool Arith String Permutation.
From Verif Require Import PyDict SimModel SimSpec SimProofs SimProps SimFailSpec SimFailProofs.
Import ListNotations.
Local Open Scope string_scope.
Local Open Scope list_scope.

(** C110.  If it depends on the call whether a method of an exporter raises: a call that
    raises is the last thing that happens in a run, and the run raises. *)
Theorem C110_nothing_happens_after_a_failed_export :
  forall V R E W build exporter pool_order picklable int_of soil_debug bad,
  (forall c (w : W), snd (exporter c w) = bad c) ->
  forall (s : sim V R) w x (tr : list (tev V R E)) r,
  run build exporter pool_order picklable int_of soil_debug s w = (x, tr, r) ->
  Forall (not_bad bad) tr \/
  exists tr0 c, tr = tr0 ++ [TCall c] /\ Forall (not_bad bad) tr0 /\ bad c = true /\ r = None.
Proof.
  intros V R E W build exporter po pk io sd bad B s w x tr r H.
  apply (run_stops build exporter po pk io sd bad B) in H as [F|(tr0 & c & T & F & BC & X)]; [auto|].
  right. exists tr0, c. destruct r; [discriminate|]. auto.
Qed.
Print Assumptions C110_nothing_happens_after_a_failed_export.

(** C110, for the method [sim_start]: the exporters after the first one that raises are
    not started, and nothing is run. *)
Theorem C110_failed_start :
  forall V R E W build exporter pool_order picklable int_of soil_debug bad,
  (forall c (w : W), snd (exporter c w) = bad c) ->
  forall (s : sim V R) w i, i < n_exporters s ->
  (forall j, j < n_exporters s -> bad (XNew j) = false) ->
  (forall j, j < i -> bad (XStart j) = false) -> bad (XStart i) = true ->
  exists x, @run V R E W build exporter pool_order picklable int_of soil_debug s w =
    (x, map (fun j => TCall (XNew j)) (seq 0 (n_exporters s)) ++
        map (fun j => TCall (XStart j)) (seq 0 (S i)), None).
Proof. intros V R E W build exporter po pk io sd bad B. exact (run_bad_start build exporter po pk io sd bad B). Qed.
Print Assumptions C110_failed_start.

(** The second of three exporters fails with the first environment. *)
Example C110_not_vacuous :
  let exporter := fun (c : call nat nat nat) (w : nat) =>
    (w, match c with XIter 1 _ _ => true | _ => false end) in
  let '(_, tr, r) := run dbuild exporter backwards (fun _ => true) (fun v => Some (Z.of_nat v)) false
    (Sim [] [] "x" 5 1 false 3 [] []) 0 in
  r = None /\ List.length tr = 9 /\
  last tr (TCall (XEnd 0)) = TCall (XIter 1 0 []).
Proof. vm_compute. auto. Qed.

(** C111 is false: parameters of these names make the run fail before the model is
    created, whatever the model is. *)
Theorem C111_names_of_parameters_refuted :
  forall V R E W build exporter pool_order picklable int_of soil_debug
    (s : sim V R) (w : W) p ps k,
  wf_sim s -> good_exporters exporter -> configurations s (p :: ps) -> In k (dkeys p) ->
  In k ["func"; "iterable"] \/
  (In k ["self"; "iteration_id"; "id"; "seed"; "dir_path"; "logger"; "tables"] /\
   dry_run s = false /\ 0 < iterations s /\ ~ pooled int_of soil_debug p) ->
  exists x (tr : list (tev V R E)),
    run build exporter pool_order picklable int_of soil_debug s w = (x, tr, None) /\ ran tr = [].
Proof. intros V R E W build exporter po pk io sd s w p ps k. apply run_names. Qed.
Print Assumptions C111_names_of_parameters_refuted.

Example C111_refuted_not_vacuous :
  Forall (fun k =>
    let s := Sim [(k, PVal 4)] [] "x" 1 1 false 0 [] [] in
    snd (drun dbuild s 0) = None /\ ran (snd (fst (drun dbuild s 0))) = [])
    ["func"; "iterable"; "self"; "iteration_id"; "id"; "seed"; "dir_path"; "logger"; "tables"] /\
  snd (drun dbuild (Sim [("size", PVal 4)] [] "x" 1 1 false 0 [] []) 0) = Some [0].
Proof. split; [repeat constructor|]; vm_compute; auto. Qed.

(** C111, what holds instead: if the run returns, the model is only called with the
    parameters of a configuration, all of them but "agent_reporters", "model_reporters"
    (which are passed as such) and "num_processes" (which is not passed). *)
Theorem C111_parameters_reach_the_model_partial :
  forall V R E W build exporter pool_order picklable int_of soil_debug
    (s : sim V R) (w : W) x (tr : list (tev V R E)) es,
  wf_sim s -> fair_pool pool_order ->
  run build exporter pool_order picklable int_of soil_debug s w = (x, tr, Some es) ->
  exists cs, configurations s cs /\
  forall a r, In (a, r) (ran tr) ->
  exists c, In c cs /\
    forall k v, In (k, v) (a_params a) <->
      In (k, v) c /\ ~ In k ["agent_reporters"; "model_reporters"; "num_processes"].
Proof.
  intros V R E W build exporter po pk io sd s w x tr es WS FP H.
  apply run_lifecycle in H as (cs & gs & CS & F & _ & T); auto.
  exists cs. split; auto. intros a r I.
  assert (In (a, r) (map (fun it => (i_args it, i_res it)) (List.concat gs))) as J.
  { revert I. rewrite T. unfold ran. rewrite !flat_map_app.
    assert (Z : forall (f : nat -> call V R E) l,
      flat_map (fun ev : tev V R E => match ev with TRun a r => [(a, r)] | TCall _ => [] end)
        (map (fun i => TCall (f i)) l) = []) by (intros f; induction l; auto).
    rewrite !Z, app_nil_r. cbn [app]. clear. induction (List.concat gs) as [|it its IH]; cbn; auto.
    rewrite flat_map_app, in_app_iff. intros [I|[I|I]]; [left; exact I| |right; now apply IH].
    exfalso. destruct (i_res it) as [e|]; [|exact I]. revert I.
    generalize (seq 0 (n_exporters s)). induction l; cbn; auto. }
  apply in_map_iff in J as (it & [= <- <-] & J).
  apply in_concat in J as (g & G1 & G2).
  assert (exists c, In c cs /\ i_conf it = c /\ well_built s it) as (c & C1 & C2 & _ & _ & C3).
  { clear -F G1 G2. induction F as [|c g' cs gs Q F IH]; [destruct G1|].
    destruct G1 as [->|G1].
    - exists c. destruct Q as (Q & _). rewrite Forall_forall in Q. apply Q in G2. cbn. tauto.
    - destruct (IH G1) as (c' & ? & ?). exists c'. cbn. tauto. }
  exists c. split; auto. intros k v. rewrite C3, C2. unfold passed. rewrite filter_In. cbn [fst].
  assert (Q : negb (existsb (String.eqb k) ["agent_reporters"; "model_reporters"; "num_processes"]) = true <->
    ~ In k ["agent_reporters"; "model_reporters"; "num_processes"]).
  { rewrite negb_true_iff, <- not_true_iff_false, existsb_exists. split.
    - intros N M. apply N. exists k. split; auto. apply String.eqb_refl.
    - intros N (k' & M & Q). apply String.eqb_eq in Q. subst. auto. }
  rewrite Q. tauto.
Qed.
Print Assumptions C111_parameters_reach_the_model_partial.

Example C111_not_vacuous :
  map (fun r => a_params (fst r))
    (ran (snd (fst (drun dbuild (Sim [("num_processes", PVal 1); ("size", PVal 4)] [] "x" 1 1 false 0 [] []) 0))))
  = [[("size", PVal 4)]].
Proof. vm_compute. reflexivity. Qed.
