(** Files and exporters: C58, C59, C60, C76, C77, C78, C79, C80. *)
From Coq Require Import List Bool Arith ZArith String Lia.
From Verif Require Import PyDict ExportModel ExportSpec ExportProofs ExportProofs2.
Import ListNotations.
Local Open Scope string_scope.
Local Open Scope list_scope.

Section Exporters.
Variable clock : nat -> Z.
Variable stamp : Z -> string.
Variable cwd : path.
Variables yaml sql_config : string + exn.
Variables started started_iteration ended_iteration ended : string.
Notation run := (run clock stamp cwd yaml sql_config started started_iteration ended_iteration ended).
Notation call := (call clock stamp cwd yaml sql_config started started_iteration ended_iteration ended).

(** C58.  Without dump, or with dry_run, the disk is exactly as it was, whatever the
    exporters, and whether or not they raise. *)
Theorem C58_disk_left_alone : forall s exporters envs d,
  s_dump s = false \/ s_dry_run s = true -> fst (run s exporters envs d) = d.
Proof.
  intros s exporters envs d H.
  exact (quiet_run clock stamp cwd yaml sql_config started started_iteration ended_iteration ended s exporters envs H d).
Qed.

(** C59.  If all stamps have the same length and no file is written twice in the same second,
    every version of every file is still the start of some file at the end. *)
Theorem C59_nothing_is_lost_partial : forall l1 l2 v,
  (forall t t', String.length (stamp t) = String.length (stamp t')) ->
  apart clock stamp (l1 ++ l2) -> (forall s, In s (l1 ++ l2) -> proper_path (target s)) ->
  (exists q, contents (performs clock stamp l1 empty) q = Some v) ->
  kept v (performs clock stamp (l1 ++ l2) empty).
Proof. intros l1 l2 v L. exact (nothing_lost clock stamp L l1 l2 v). Qed.
(** Three versions, the first two in the same second: the backup of the second replaces the
    one of the first. *)
Theorem C59_same_second_refuted : forall p a b c,
  stamp (clock 0) = stamp (clock 1) -> proper_path p ->
  let l := [SOpen p Write a; SOpen p Write b; SOpen p Write c] in
  forall q, contents (performs clock stamp l empty) q =
    if eqb q p then Some c else if eqb q (backup_path stamp p (clock 1)) then Some b else None.
Proof.
  intros p a b c S P l q. unfold l, performs. cbn [fold_left].
  set (d1 := perform clock stamp (SOpen p Write a) empty).
  set (d2 := perform clock stamp (SOpen p Write b) d1).
  destruct (perform_files clock stamp (SOpen p Write a) empty P dwf_nil) as (O1 & W1 & G1). fold d1 in O1, W1, G1.
  destruct (perform_files clock stamp (SOpen p Write b) d1 P W1) as (O2 & W2 & G2). fold d2 in O2, W2, G2.
  destruct (perform_files clock stamp (SOpen p Write c) d2 P W2) as (O3 & W3 & G3).
  cbn [target saved now_has] in G1, G2, G3.
  assert (E1 : dget p (d_files d1) = Some (a, clock 0)). { rewrite G1, eqb_refl. reflexivity. }
  rewrite E1 in G2.
  assert (E2 : dget p (d_files d2) = Some (b, clock 1)). { rewrite G2, eqb_refl, O1. reflexivity. }
  rewrite E2 in G3. unfold contents. rewrite G3.
  destruct (eqb q p) eqn:Eq; auto.
  assert (backup_path stamp p (clock 0) = backup_path stamp p (clock 1)) as B.
  { unfold backup_path. now rewrite S. }
  destruct (eqb q (backup_path stamp p (clock 1))) eqn:Eb; auto.
  rewrite G2, Eq, B, Eb, G1, Eq. reflexivity.
Qed.

(** C60.  In a block of [output] all exceptions but AttributeError and TypeError reach the
    caller; without dump all of them. *)
Theorem C60_exceptions_partial : forall s dump f m text x d,
  dump = false \/ (forall n, x <> AttributeError n /\ x <> TypeError n) ->
  snd (output clock stamp cwd s dump f m (text, Some x) d) = Some x.
Proof.
  intros s dump f m text x d H. unfold output. destruct dump; auto.
  destruct H as [H|H]; [discriminate|]. simpl. destruct x as [n|n|n| | |]; auto; destruct (H n) as [H1 H2]; congruence.
Qed.
(** These two become the RuntimeError of contextlib. *)
Theorem C60_exceptions_refuted : forall s f m text n d,
  snd (output clock stamp cwd s true f m (text, Some (AttributeError n)) d) = Some DidNotStop
  /\ snd (output clock stamp cwd s true f m (text, Some (TypeError n)) d) = Some DidNotStop.
Proof. intros. split; reflexivity. Qed.

(** C76.  With the csv exporter the results of all iterations for all parameters are in the
    files at the end. *)
Theorem C76_csv_partial : forall s envs d d', s_dump s = true -> s_dry_run s = false ->
  run s [Csv] envs d = (d', None) ->
  forall es e dfs name b, In es envs -> In e es -> e_dfs e = inl dfs -> In (name, b) dfs ->
  part_of (fst b) d' (out_dir cwd s ++ [(e_id e ++ "." ++ name ++ ".csv")%string]).
Proof. exact (csv_keeps clock stamp cwd yaml sql_config started started_iteration ended_iteration ended). Qed.
(** With gexf the graph of an iteration replaces the one of the iteration with the same number
    for the parameters before. *)
Theorem C76_gexf_refuted : forall s d e1 e2, s_dump s = true -> s_dry_run s = false -> s_backup s = false ->
  e_id e1 = e_id e2 -> snd (e_graph e1) = None -> snd (e_graph e2) = None ->
  exists d', run s [Gexf] [[e1]; [e2]] d = (d', None)
    /\ contents d' (out_dir cwd s ++ [(e_id e2 ++ ".gexf")%string]) = Some (fst (e_graph e2))
    /\ forall q, q <> out_dir cwd s ++ [(e_id e2 ++ ".gexf")%string] -> contents d' q = contents d q.
Proof. exact (gexf_twice clock stamp cwd yaml sql_config started started_iteration ended_iteration ended). Qed.

(** C77.  These exporters work on their own, on any disk, if there is nothing wrong with the
    data. *)
Theorem C77_on_its_own_partial : forall s x envs d text,
  In x [Csv; Gexf; Dummy; Yaml; Summary] \/ x = Default [] /\ (exists text', sql_config = inl text') ->
  yaml = inl text -> (forall es e, In es envs -> In e es -> fine_env e) -> snd (run s [x] envs d) = None.
Proof.
  intros s x envs d text [H|[-> [text' H]]] Y F.
  - exact (run_alone clock stamp cwd yaml sql_config started started_iteration ended_iteration ended s x envs d text H Y F).
  - exact (default_fine clock stamp cwd yaml sql_config started started_iteration ended_iteration ended s envs d text text' Y H F).
Qed.
(** SQLite does not, if the output directory is not there yet, nor if it is the first. *)
Theorem C77_sqlite_refuted : forall s rest envs d text,
  s_dump s = true -> s_dry_run s = false -> sql_config = inl text ->
  is_dir d (out_dir cwd s) = false -> contents d (db_path cwd s) = None ->
  snd (run s (SQLite :: rest) envs d) = Some UnableToOpen.
Proof. exact (sqlite_no_dir clock stamp cwd yaml sql_config started started_iteration ended_iteration ended). Qed.

(** C78.  Exporters are told about the start and the end of the simulation and the end of each
    iteration, in order. *)
Theorem C78_other_calls_partial : forall s envs, s_dry_run s = false ->
  exists l, hooks s envs = SimStart :: l ++ [SimEnd] /\ Forall2 (fun h e => h = IterationEnd e) l (List.concat envs).
Proof.
  intros s envs D. exists (map IterationEnd (List.concat envs)). unfold hooks. rewrite D. split; auto.
  induction (List.concat envs) as [|e l IH]; simpl; constructor; auto.
Qed.
(** They are never told that one starts. *)
Theorem C78_iteration_start_refuted : forall s envs e, ~ In (IterationStart e) (hooks s envs).
Proof.
  intros s envs e H. unfold hooks in H. cbn [app] in H. destruct H as [H|H]; [discriminate|].
  apply in_app_iff in H. destruct H as [H|[H|[]]]; [|discriminate].
  apply in_map_iff in H. destruct H as (e' & E & _). discriminate.
Qed.

(** C79.  With overwrite=True the database starts again. *)
Theorem C79_sqlite_partial : forall s d text, s_overwrite s = true -> dwf (d_files d) -> sql_config = inl text ->
  is_dir d (out_dir cwd s) = true ->
  contents (fst (call s true SimStart SQLite d)) (db_path cwd s) = Some text.
Proof. exact (sqlite_overwrites clock stamp cwd yaml sql_config started started_iteration ended_iteration ended). Qed.
(** The csv files always keep the old data. *)
Theorem C79_csv_refuted : forall s envs d p old, contents d p = Some old ->
  exists w, contents (fst (run s [Csv] envs d)) p = Some (old ++ w)%string.
Proof. exact (csv_old clock stamp cwd yaml sql_config started started_iteration ended_iteration ended). Qed.

(** C80.  The exporter of drawings never writes: it always raises.  It opens the file (in the
    current directory) for reading, and a file that is there cannot be drawn to. *)
Theorem C80_drawing_refuted : forall s dump e d,
  let drawing := cwd ++ [("graph-" ++ e_id e ++ ".png")%string] in
  exists x, call s dump (IterationEnd e) Graphdrawing d = (d, Some x) /\
    (contents d drawing = None <-> x = FileNotFoundError) /\
    (contents d drawing <> None <-> exists n, x = AttributeError n).
Proof.
  intros s dump e d drawing. cbn. unfold drawing_end. fold drawing.
  destruct (contents d drawing); eexists; (split; [reflexivity|]); split; split; intros H;
    try congruence; eauto. destruct H as (n & H). discriminate.
Qed.
(** C77, when the data frames cannot be made: csv and summary raise that exception, and the
    others do not look at them. *)
Theorem C77_data_that_raises_partial : forall s dump e x y d, e_dfs e = inr y ->
  match x with
  | Csv | Summary => call s dump (IterationEnd e) x d = (d, Some y)
  | SQLite | Gexf | Dummy | Yaml =>
      forall dfs, call s dump (IterationEnd (Env (e_id e) dfs (e_graph e) (e_rows e))) x d =
                  call s dump (IterationEnd e) x d
  | _ => True
  end.
Proof.
  intros s dump e x y d E. destruct x; try exact I; try (intros dfs); cbn.
  - reflexivity.
  - unfold csv_end. now rewrite E.
  - reflexivity.
  - reflexivity.
  - unfold summary_end. now rewrite E.
  - reflexivity.
Qed.
End Exporters.
Print Assumptions C58_disk_left_alone.
Print Assumptions C59_nothing_is_lost_partial.
Print Assumptions C59_same_second_refuted.
Print Assumptions C60_exceptions_partial.
Print Assumptions C60_exceptions_refuted.
Print Assumptions C76_csv_partial.
Print Assumptions C76_gexf_refuted.
Print Assumptions C77_on_its_own_partial.
Print Assumptions C77_sqlite_refuted.
Print Assumptions C77_data_that_raises_partial.
Print Assumptions C78_other_calls_partial.
Print Assumptions C78_iteration_start_refuted.
Print Assumptions C79_sqlite_partial.
Print Assumptions C79_csv_refuted.
Print Assumptions C80_drawing_refuted.

(** Examples. *)
Definition stamp_ex (t : Z) : string := match t with 0%Z => "a" | 1%Z => "b" | 2%Z => "c" | _ => "d" end.
Definition clock_ex (n : nat) : Z := Z.of_nat n.
Definition sim_ex (dump backup : bool) : sim := Sim "s" (Some "g") "s_1" None backup false false dump.
Definition env_ex (i g : string) : env := Env i (inl [("env", ("x", None)); ("agents", ("y", None))]) (g, None) [inl "r"].
Definition run_ex := run clock_ex stamp_ex ["home"] (inl "yaml") (inl "conf") "ss" "is" "ie" "se".
Definition files (d : disk) : list (path * string) := map (fun p => (fst p, fst (snd p))) (d_files d).

(** With dump the same exporters do write. *)
Example C58_not_vacuous :
  files (fst (run_ex (sim_ex true false) [Default []; Csv; Gexf; Dummy] [[env_ex "0" "G"]] empty))
  = [(["home"; "soil_output"; "g"; "s"; "s_1.dumped.yml"], "yaml");
     (["home"; "soil_output"; "g"; "s"; "s.sqlite"], "confr");
     (["home"; "soil_output"; "g"; "s"; "dummy"], "iese");
     (["home"; "soil_output"; "g"; "s"; "0.env.csv"], "x");
     (["home"; "soil_output"; "g"; "s"; "0.agents.csv"], "y");
     (["home"; "soil_output"; "g"; "s"; "0.gexf"], "G")]
  /\ snd (run_ex (sim_ex true false) [Default []; Csv; Gexf; Dummy] [[env_ex "0" "G"]] empty) = None
  /\ fst (run_ex (sim_ex false false) [Default []; Csv; Gexf; Dummy; Graphdrawing] [[env_ex "0" "G"]] empty) = empty.
Proof. split; [vm_compute; reflexivity|]. split; vm_compute; reflexivity. Qed.

Definition history_ex : list step :=
  [SOpen ["o"; "f"] Write "1"; SOpen ["o"; "f"] Append "2"; SOpen ["o"; "f"] Write "3"; SMove ["o"; "f"] "4"].
Example C59_not_vacuous :
  (forall t t', String.length (stamp_ex t) = String.length (stamp_ex t'))
  /\ apart clock_ex stamp_ex history_ex /\ (forall s, In s history_ex -> proper_path (target s))
  /\ files (performs clock_ex stamp_ex history_ex empty)
     = [(["o"; "backup"; "f@b"], "12"); (["o"; "backup"; "f@c"], "3"); (["o"; "f"], "4")].
Proof.
  split.
  { assert (L : forall t, String.length (stamp_ex t) = 1).
    { intros t. unfold stamp_ex. destruct t as [|[p|p|]|p]; auto; destruct p; auto. }
    intros t t'. now rewrite !L. }
  split.
  { intros i j a b Hi Hj _ E.
    assert (i < 4) by (apply (proj1 (nth_error_Some history_ex i)); congruence).
    assert (j < 4) by (apply (proj1 (nth_error_Some history_ex j)); congruence).
    do 4 (destruct i as [|i]; [do 4 (destruct j as [|j]; [auto; discriminate|]); lia|]). lia. }
  split.
  { assert (P : proper_path ["o"; "f"]). { split; [discriminate|]. simpl. discriminate. }
    intros s [<-|[<-|[<-|[<-|[]]]]]; exact P. }
  vm_compute. reflexivity.
Qed.
(** In the same second a version is lost. *)
Example C59_lost :
  let d := performs (fun _ => 0%Z) stamp_ex
    [SOpen ["o"; "f"] Write "1"; SOpen ["o"; "f"] Write "2"; SOpen ["o"; "f"] Write "3"] empty in
  files d = [(["o"; "f"], "3"); (["o"; "backup"; "f@a"], "2")] /\ ~ kept "1" d.
Proof.
  cbv zeta. split; [vm_compute; reflexivity|]. intros (q & w & E).
  revert E. rewrite (C59_same_second_refuted (fun _ => 0%Z) stamp_ex ["o"; "f"] "1" "2" "3" eq_refl).
  - destruct (eqb q ["o"; "f"]); [discriminate|]. destruct (eqb q _); discriminate.
  - split; [discriminate|]. simpl. discriminate.
Qed.
Example C76_not_vacuous :
  files (fst (run_ex (sim_ex true false) [Gexf; Csv] [[env_ex "0" "G"]; [env_ex "0" "H"]] empty))
  = [(["home"; "soil_output"; "g"; "s"; "0.gexf"], "H");
     (["home"; "soil_output"; "g"; "s"; "0.env.csv"], "xx");
     (["home"; "soil_output"; "g"; "s"; "0.agents.csv"], "yy")].
Proof. vm_compute. reflexivity. Qed.
Example C77_not_vacuous :
  snd (run_ex (sim_ex true true) [SQLite] [[env_ex "0" "G"]] empty) = Some UnableToOpen
  /\ snd (run_ex (sim_ex true true) [Yaml; SQLite] [[env_ex "0" "G"]] empty) = None
  /\ fine_env (env_ex "0" "G").
Proof.
  split; [vm_compute; reflexivity|]. split; [vm_compute; reflexivity|].
  split; [|split; auto].
  - eexists. split; [reflexivity|]. intros name b [E|[E|[]]]; injection E as <- <-; reflexivity.
  - intros r [<-|[]]. eauto.
Qed.
