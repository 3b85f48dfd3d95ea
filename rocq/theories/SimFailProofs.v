(** Proofs about exporters that raise and about the names of parameters. *)
From Coq Require Import ZArith List Bool Arith String Permutation.
From Verif Require Import PyDict SimModel SimSpec SimProofs SimFailSpec.
Import ListNotations.
Local Open Scope string_scope.
Local Open Scope list_scope.

Section Fail.
Context {V R E W : Type}.
Notation config := (config V R).
Notation sim := (sim V R).
Notation args := (args V R).
Notation st := (st R W).
Notation tev := (tev V R E).
Notation call := (call V R E).
Variable build : args -> W -> st * option E.
Variable exporter : call -> W -> W * bool.
Variable pool_order : list nat -> W -> list nat.
Variable picklable : nat -> bool.
Variable int_of : V -> option Z.
Variable soil_debug : bool.
Variable bad : call -> bool.
Hypothesis BAD : forall c w, snd (exporter c w) = bad c.

Definition fine (tr : list tev) : Prop := Forall (not_bad bad) tr.
(** [x]: an exception. *)
Definition stops (x : bool) (tr : list tev) : Prop :=
  fine tr \/ (exists tr0 c, tr = tr0 ++ [TCall c] /\ fine tr0 /\ bad c = true /\ x = true).

Lemma fine_app t1 t2 : fine t1 -> fine t2 -> fine (t1 ++ t2).
Proof. intros. now apply Forall_app. Qed.

Lemma stops_app x t1 t2 : fine t1 -> stops x t2 -> stops x (t1 ++ t2).
Proof.
  intros F [F2|(tr0 & c & -> & F0 & B & X)].
  - left. now apply fine_app.
  - right. exists (t1 ++ tr0), c. rewrite app_assoc. repeat split; auto. now apply fine_app.
Qed.

Lemma stops_fine tr : stops false tr -> fine tr.
Proof. intros [F|(? & ? & _ & _ & _ & X)]; [auto|discriminate]. Qed.

Lemma stops_weaken (x : bool) tr : stops false tr -> stops x tr.
Proof. intros H. left. now apply stops_fine. Qed.

Lemma call_all_stops cs : forall w w' tr x, call_all exporter cs w = (w', tr, x) -> stops x tr.
Proof.
  induction cs as [|c cs IH]; cbn [call_all]; intros w w' tr x.
  - intros [= <- <- <-]. left. constructor.
  - pose proof (BAD c w) as B. destruct (exporter c w) as [w1 x1]. cbn in B. subst x1.
    destruct (bad c) eqn:B.
    + intros [= <- <- <-]. right. exists [], c. repeat split; auto. constructor.
    + destruct (call_all exporter cs w1) as [[w2 tr2] x2] eqn:E2. intros [= <- <- <-].
      apply (stops_app x2 [TCall c]); [|eauto]. repeat constructor. exact B.
Qed.

Lemma exporters_do_stops (s : sim) f (x x' : st) tr b :
  exporters_do exporter s f x = (x', tr, b) -> stops b tr.
Proof.
  unfold exporters_do. destruct (call_all _ _ _) as [[w1 tr1] b1] eqn:EC.
  intros [= <- <- <-]. eapply call_all_stops; eauto.
Qed.

Definition isnone {A} (o : option A) : bool := match o with None => true | Some _ => false end.

Lemma run_model_fine (s : sim) p j (x x' : st) tr r :
  run_model build s p j x = (x', tr, r) -> fine tr.
Proof.
  unfold run_model.
  destruct (existsb _ ["self"; _]); [intros [= <- <- <-]; constructor|].
  destruct (reps_of _ _); [|intros [= <- <- <-]; constructor].
  destruct (reps_of _ _); [|intros [= <- <- <-]; constructor].
  destruct (existsb _ _); [intros [= <- <- <-]; constructor|].
  destruct (build _ _) as [x1 r1]. intros [= <- <- <-]. repeat constructor.
Qed.

Lemma serial_stops (s : sim) q p js : forall (x x' : st) tr r,
  serial (run_model build s q) (export exporter s p) js x = (x', tr, r) -> stops (isnone r) tr.
Proof.
  induction js as [|j js IH]; cbn [serial]; intros x x' tr r.
  - intros [= <- <- <-]. left. constructor.
  - destruct (run_model build s q j x) as [[x1 tr1] r1] eqn:E1. apply run_model_fine in E1.
    destruct r1 as [e|].
    + destruct (export exporter s p e x1) as [[x2 tr2] b] eqn:E2.
      apply exporters_do_stops in E2. destruct b.
      * intros [= <- <- <-]. now apply stops_app.
      * destruct (serial _ _ js x2) as [[x3 tr3] r3] eqn:E3. intros [= <- <- <-].
        apply IH in E3. apply stops_app; auto. apply stops_app; [now apply stops_fine|].
        destruct r3; exact E3.
    + intros [= <- <- <-]. now left.
Qed.

Lemma pool_stops (s : sim) q p x0 js : forall (x x' : st) tr r,
  pool (run_model build s q) (export exporter s p) picklable x0 js x = (x', tr, r) ->
  stops (isnone r) tr.
Proof.
  induction js as [|j js IH]; cbn [pool]; intros x x' tr r.
  - intros [= <- <- <-]. left. constructor.
  - destruct (negb (picklable j)); [intros [= <- <- <-]; left; constructor|].
    destruct (run_model build s q j x0) as [[x1 tr1] r1] eqn:E1. apply run_model_fine in E1.
    destruct r1 as [e|].
    + destruct (export exporter s p e x) as [[x2 tr2] b] eqn:E2.
      apply exporters_do_stops in E2. destruct b.
      * intros [= <- <- <-]. now apply stops_app.
      * destruct (pool _ _ _ _ js x2) as [[x3 tr3] r3] eqn:E3. intros [= <- <- <-].
        apply IH in E3. apply stops_app; auto. apply stops_app; [now apply stops_fine|].
        destruct r3; exact E3.
    + destruct (pool _ _ _ _ js x) as [[x3 tr3] r3] eqn:E3. intros [= <- <- <-].
      apply stops_app; eauto.
Qed.

Notation run_config := (run_config build exporter pool_order picklable int_of soil_debug).
Notation run_configs := (run_configs build exporter pool_order picklable int_of soil_debug).
Notation run := (run build exporter pool_order picklable int_of soil_debug).

Lemma run_config_stops (s : sim) p (x x' : st) tr r :
  run_config s p x = (x', tr, r) -> stops (isnone r) tr.
Proof.
  unfold SimModel.run_config.
  destruct (existsb _ _); [intros [= <- <- <-]; left; constructor|].
  match goal with |- context [match ?o with None => _ | Some n => _ end] => destruct o as [n|] end;
    [|intros [= <- <- <-]; left; constructor].
  destruct (_ && _).
  - destruct (dry_run s).
    + intros [= <- <- <-]. left. constructor.
    + apply pool_stops.
  - destruct (dry_run s).
    + intros [= <- <- <-]. left. constructor.
    + apply serial_stops.
Qed.

Lemma run_configs_stops (s : sim) ps : forall (x x' : st) tr r,
  run_configs s ps x = (x', tr, r) -> stops (isnone r) tr.
Proof.
  induction ps as [|p ps IH]; cbn [SimModel.run_configs]; intros x x' tr r.
  - intros [= <- <- <-]. left. constructor.
  - destruct (run_config s p x) as [[x1 tr1] r1] eqn:E1. apply run_config_stops in E1.
    destruct r1 as [es|].
    + destruct (run_configs s ps x1) as [[x2 tr2] r2] eqn:E2. intros [= <- <- <-].
      apply IH in E2. apply stops_app; [now apply stops_fine|]. destruct r2; exact E2.
    + now intros [= <- <- <-].
Qed.

Lemma run_stops (s : sim) w (x : st) tr r : run s w = (x, tr, r) -> stops (isnone r) tr.
Proof.
  unfold SimModel.run.
  destruct (exporters_do exporter s XNew _) as [[x1 tr1] b1] eqn:E1.
  apply exporters_do_stops in E1. destruct b1; [now intros [= <- <- <-]|].
  destruct (exporters_do exporter s XStart x1) as [[x2 tr2] b2] eqn:E2.
  apply exporters_do_stops in E2. apply stops_fine in E1.
  destruct b2; [intros [= <- <- <-]; now apply stops_app|]. apply stops_fine in E2.
  destruct (run_configs s (collect_params s) x2) as [[x3 tr3] r3] eqn:E3.
  apply run_configs_stops in E3. destruct r3 as [es|].
  - destruct (exporters_do exporter s XEnd x3) as [[x4 tr4] b4] eqn:E4.
    apply exporters_do_stops in E4. apply stops_fine in E3. intros [= <- <- <-].
    do 3 (apply stops_app; auto). destruct b4; exact E4.
  - intros [= <- <- <-]. now do 2 (apply stops_app; auto).
Qed.

Lemma call_all_first f n k i : forall w,
  i < n -> bad (f (k + i)) = true -> (forall j, j < i -> bad (f (k + j)) = false) ->
  exists w', call_all exporter (map f (seq k n)) w =
    (w', map (fun j => TCall (f j)) (seq k (S i)), true).
Proof.
  revert k i. induction n as [|n IH]; intros k i w L B G; [inversion L|].
  cbn [seq map call_all]. pose proof (BAD (f k) w) as BC.
  destruct (exporter (f k) w) as [w1 x1]. cbn in BC. subst x1.
  destruct i as [|i].
  - rewrite Nat.add_0_r in B. rewrite B. eauto.
  - pose proof (G 0 (Nat.lt_0_succ _)) as G0. rewrite Nat.add_0_r in G0. rewrite G0.
    destruct (IH (S k) i w1) as (w' & ->).
    + now apply Nat.succ_lt_mono.
    + rewrite Nat.add_succ_comm. exact B.
    + intros j L2. rewrite Nat.add_succ_comm. apply G. now apply -> Nat.succ_lt_mono.
    + eauto.
Qed.

Lemma call_all_fine f n k : forall w, (forall j, j < n -> bad (f (k + j)) = false) ->
  exists w', call_all exporter (map f (seq k n)) w =
    (w', map (fun j => TCall (f j)) (seq k n), false).
Proof.
  revert k. induction n as [|n IH]; intros k w G; cbn [seq map call_all]; [eauto|].
  pose proof (BAD (f k) w) as BC. destruct (exporter (f k) w) as [w1 x1]. cbn in BC. subst x1.
  pose proof (G 0 (Nat.lt_0_succ _)) as G0. rewrite Nat.add_0_r in G0. rewrite G0.
  destruct (IH (S k) w1) as (w' & ->); eauto.
  intros j L. rewrite Nat.add_succ_comm. apply G. now apply -> Nat.succ_lt_mono.
Qed.

Lemma run_bad_start (s : sim) w i : i < n_exporters s ->
  (forall j, j < n_exporters s -> bad (XNew j) = false) ->
  (forall j, j < i -> bad (XStart j) = false) -> bad (XStart i) = true ->
  exists x, run s w =
    (x, map (fun j => TCall (XNew j)) (seq 0 (n_exporters s)) ++
        map (fun j => TCall (XStart j)) (seq 0 (S i)), None).
Proof.
  intros L G1 G2 B. unfold SimModel.run, exporters_do. cbn [st_w st_mr st_ar].
  destruct (call_all_fine XNew (n_exporters s) 0 w G1) as (w1 & ->). cbn [st_w st_mr st_ar].
  destruct (call_all_first XStart (n_exporters s) 0 i w1 L B G2) as (w2 & ->). eauto.
Qed.
End Fail.

Section Names.
Context {V R E W : Type}.
Notation config := (config V R).
Notation sim := (sim V R).
Notation args := (args V R).
Notation st := (st R W).
Notation tev := (tev V R E).
Variable build : args -> W -> st * option E.
Variable exporter : call V R E -> W -> W * bool.
Variable pool_order : list nat -> W -> list nat.
Variable picklable : nat -> bool.
Variable int_of : V -> option Z.
Variable soil_debug : bool.
Notation run := (run build exporter pool_order picklable int_of soil_debug).

Lemma run_of_first (s : sim) (w : W) p ps :
  wf_sim s -> good_exporters exporter -> configurations s (p :: ps) ->
  (forall x, exists x', run_config build exporter pool_order picklable int_of soil_debug s p x = (x', [], None)) ->
  exists x tr, run s w = (x, tr, None) /\ ran tr = [].
Proof.
  intros WS GE CS H. unfold SimModel.run.
  destruct (collect_params_ok s WS) as [CP _].
  rewrite <- (configurations_det s _ _ CS CP).
  pose proof (exporters_do_ran exporter s XNew (St (model_reporters s) (agent_reporters s) w)) as R1.
  destruct (good_exporters_do exporter s XNew (St (model_reporters s) (agent_reporters s) w) GE) as (x1&tr1&E1).
  rewrite E1 in *. cbn [fst snd] in R1.
  pose proof (exporters_do_ran exporter s XStart x1) as R2.
  destruct (good_exporters_do exporter s XStart x1 GE) as (x2&tr2&E2). rewrite E2 in *. cbn [fst snd] in R2.
  cbn [SimModel.run_configs]. destruct (H x2) as (x3 & ->).
  do 2 eexists. split; [reflexivity|]. rewrite !ran_app, R1, R2. reflexivity.
Qed.

Lemma existsb_dhas (names : list string) (p : config) k : In k names -> In k (dkeys p) ->
  existsb (fun k => dhas k p) names = true.
Proof.
  intros I1 I2. apply existsb_exists. exists k. split; auto. now apply dhas_in.
Qed.

Lemma run_names (s : sim) (w : W) p ps k : wf_sim s -> good_exporters exporter ->
  configurations s (p :: ps) -> In k (dkeys p) ->
  In k ["func"; "iterable"] \/
  (In k ["self"; "iteration_id"; "id"; "seed"; "dir_path"; "logger"; "tables"] /\
   dry_run s = false /\ 0 < iterations s /\ ~ pooled int_of soil_debug p) ->
  exists x tr, run s w = (x, tr, None) /\ ran tr = [].
Proof.
  intros WS GE CS I H. apply (run_of_first s w p ps); auto. intros x.
  unfold SimModel.run_config. destruct (existsb _ ["func"; _]) eqn:F; [eauto|].
  destruct H as [H|(H & DR & IT & NP)].
  { rewrite (existsb_dhas _ p k H I) in F. discriminate. }
  rewrite DR. destruct (iterations s) as [|it]; [inversion IT|]. cbn [seq is_nil serial].
  assert (I' : In k (dkeys (ddel "num_processes" p))).
  { rewrite <- dhas_in, dhas_get, dget_del.
    - rewrite <- dhas_in, dhas_get in I.
      replace (eqb k "num_processes") with false; auto.
      symmetry. apply String.eqb_neq. intros ->. cbn in H. intuition discriminate.
    - destruct (collect_params_ok s WS) as [CP CW].
      rewrite <- (configurations_det s _ _ CS CP) in CW. now inversion CW. }
  assert (RM : exists x', run_model build s (ddel "num_processes" p) 0 x = (x', [], None)).
  { unfold run_model. destruct (existsb _ ["self"; _]) eqn:S1; [eauto|].
    destruct (reps_of _ _); [|eauto]. destruct (reps_of _ _); [|eauto].
    destruct (existsb _ ["id"; _; _; _; _]) eqn:S2; [eauto|]. exfalso.
    assert (J : In k ["self"; "iteration_id"] \/ In k ["id"; "seed"; "dir_path"; "logger"; "tables"])
      by (cbn in H |- *; intuition).
    destruct J as [J|J]; rewrite (existsb_dhas _ _ k J I') in *; discriminate. }
  destruct RM as (x' & ->).
  assert (P : forall v n, dget "num_processes" p = Some (PVal v) -> int_of v = Some n ->
    (1 <? n)%Z && negb soil_debug = false).
  { intros v n G1 G2. destruct soil_debug eqn:SD; [apply andb_false_r|]. rewrite andb_true_r.
    destruct (1 <? n)%Z eqn:L; auto. exfalso. apply NP. split; auto. exists v, n.
    repeat split; auto. now apply Z.ltb_lt. }
  destruct (dget "num_processes" p) as [[v|d]|] eqn:G; [|eauto|].
  - destruct (int_of v) as [n|] eqn:N; [|eauto]. rewrite (P v n); eauto.
  - cbn. eauto.
Qed.
End Names.
