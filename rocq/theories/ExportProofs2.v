(** More proofs about exporters: what is kept, and which exporters work. *)
From Coq Require Import List Bool Arith ZArith String Lia.
From Verif Require Import PyDict ExportModel ExportSpec ExportProofs.
Import ListNotations.
Local Open Scope string_scope.
Local Open Scope list_scope.

Lemma contents_make_dirs p d q : contents (make_dirs p d) q = contents d q.
Proof. unfold contents. now rewrite (proj1 (make_dirs_files p d)). Qed.
Lemma contents_tick d q : contents (tick d) q = contents d q.
Proof. reflexivity. Qed.
Lemma dirname_file (p : path) f : dirname (p ++ [f]) = p.
Proof. apply dirname_snoc. Qed.
Lemma is_dir_make p d : is_dir (make_dirs p d) p = true.
Proof.
  unfold make_dirs. destruct (is_dir d p) eqn:E; auto. unfold is_dir. simpl. rewrite existsb_app.
  apply orb_true_iff. right. apply existsb_exists. exists p. split; [|apply eqb_refl].
  clear. induction p as [|x p IH]; simpl; auto. right. now apply in_map.
Qed.
Lemma is_dir_make_mono q p d : is_dir d q = true -> is_dir (make_dirs p d) q = true.
Proof.
  intros H. unfold make_dirs. destruct (is_dir d p); auto. unfold is_dir in *. simpl.
  rewrite existsb_app. now rewrite H.
Qed.

Section Files.
Variable clock : nat -> Z.
Variable stamp : Z -> string.

Lemma is_dir_write d p text q : is_dir (write clock p text d) q = is_dir d q.
Proof. unfold write. destruct (contents d p); reflexivity. Qed.
Lemma is_dir_backup_mono q p r d : is_dir d q = true -> is_dir (try_backup clock stamp p r d) q = true.
Proof.
  intros H. unfold try_backup. destruct (dget p (d_files d)) as [[v t]|]; auto.
  assert (is_dir (make_dirs (dirname p ++ ["backup"]) (make_dirs (dirname p) d)) q = true) as E.
  { now repeat apply is_dir_make_mono. }
  destruct r; exact E.
Qed.
Lemma contents_write d p text q : contents (write clock p text d) q =
  if eqb q p then Some (match contents d p with Some old => old ++ text | None => text end)%string
  else contents d q.
Proof. unfold write. destruct (contents d p); rewrite contents_put; destruct (eqb q p); auto. Qed.

(** Appending. *)
Lemma append_contents p b d backup q :
  contents (fst (open_or_reuse clock stamp p Append backup b d)) q =
  if eqb q p then Some (match contents d p with Some old => old ++ fst b | None => fst b end)%string
  else contents d q.
Proof.
  unfold open_or_reuse. simpl fst. rewrite contents_tick, contents_write. unfold safe_open.
  rewrite contents_make_dirs. destruct (contents d p) as [old|] eqn:E.
  - rewrite !contents_make_dirs, E. destruct (eqb q p); auto.
  - rewrite !contents_put, eqb_refl. destruct (eqb q p); auto. now rewrite contents_make_dirs.
Qed.
Lemma overwrite_contents p b d q :
  contents (fst (open_or_reuse clock stamp p Write false b d)) q =
  if eqb q p then Some (fst b) else contents d q.
Proof.
  unfold open_or_reuse. simpl fst. rewrite contents_tick, contents_write. unfold safe_open.
  rewrite !contents_put, eqb_refl. destruct (eqb q p); auto. now rewrite contents_make_dirs.
Qed.

(** Files only grow. *)
Definition grows (a : action) : Prop := forall d p v, contents d p = Some v ->
  exists w, contents (fst (a d)) p = Some (v ++ w)%string.
Lemma grows_nothing : grows nothing.
Proof. intros d p v E. exists "". now rewrite sapp_nil. Qed.
Lemma grows_raise x : grows (raise x).
Proof. intros d p v E. exists "". now rewrite sapp_nil. Qed.
Lemma grows_andthen a b : grows a -> grows b -> grows (andthen a b).
Proof.
  intros A B d p v E. unfold andthen. destruct (A d p v E) as [w Ew]. destruct (a d) as [d1 [x|]]; simpl in *; eauto.
  destruct (B d1 p _ Ew) as [w' Ew']. exists (w ++ w')%string. now rewrite <- sapp_assoc.
Qed.
Lemma grows_all l : (forall a, In a l -> grows a) -> grows (all l).
Proof.
  induction l as [|a l IH]; simpl; intros H; [apply grows_nothing|]. apply grows_andthen; auto.
Qed.
Lemma grows_append p backup b : grows (open_or_reuse clock stamp p Append backup b).
Proof.
  intros d q v E. rewrite append_contents. destruct (eqb q p) eqn:Eq.
  - apply eqb_eq in Eq. subst q. rewrite E. eauto.
  - exists "". now rewrite sapp_nil.
Qed.
(** What a growing sequence contains, if it ends. *)
Lemma all_runs l : forall d d', all l d = (d', None) -> forall a, In a l ->
  exists d1 d2, a d1 = (d2, None) /\ exists l2, all l2 d2 = (d', None) /\ incl l2 l.
Proof.
  induction l as [|b l IH]; simpl; intros d d' E a H; [contradiction|].
  unfold andthen in E. destruct (b d) as [d1 [x|]] eqn:Eb; [discriminate|].
  destruct H as [<-|H].
  - exists d, d1. split; auto. exists l. split; auto. now apply incl_tl.
  - destruct (IH d1 d' E a H) as (d2 & d3 & Ea & l2 & El & I). exists d2, d3. split; auto.
    exists l2. split; auto. now apply incl_tl.
Qed.
Lemma all_keeps l (P : disk -> Prop) d d' : (forall a, In a l -> grows a) ->
  (forall d1 d2, (forall p v, contents d1 p = Some v -> exists w, contents d2 p = Some (v ++ w)%string) -> P d1 -> P d2) ->
  all l d = (d', None) -> forall a, In a l -> (forall d1 d2, a d1 = (d2, None) -> P d2) -> P d'.
Proof.
  intros G M E a Ha Pa. destruct (all_runs l d d' E a Ha) as (d1 & d2 & Ea & l2 & El & I).
  apply (M d2).
  - intros p v Ep. pose proof (grows_all l2) as G2. specialize (G2 (fun a H => G a (I a H)) d2 p v Ep).
    now rewrite El in G2.
  - eapply Pa; eauto.
Qed.
Lemma part_of_grows v p d1 d2 :
  (forall p v, contents d1 p = Some v -> exists w, contents d2 p = Some (v ++ w)%string) ->
  part_of v d1 p -> part_of v d2 p.
Proof.
  intros G (a & b & E). destruct (G _ _ E) as [w Ew]. exists a, (b ++ w)%string.
  rewrite Ew. now rewrite !sapp_assoc.
Qed.

Variable cwd : path.
Variables yaml sql_config : string + exn.
Variables started started_iteration ended_iteration ended : string.
Notation run := (run clock stamp cwd yaml sql_config started started_iteration ended_iteration ended).
Notation call := (call clock stamp cwd yaml sql_config started started_iteration ended_iteration ended).
Notation iteration_end := (iteration_end clock stamp cwd ended_iteration).

Lemma grows_csv s dump h : grows (call s dump h Csv).
Proof.
  destruct h as [|e|e|]; simpl; try apply grows_nothing. unfold csv_end.
  destruct (e_dfs e) as [dfs|x]; [|apply grows_raise].
  apply grows_all. intros a H. apply in_map_iff in H. destruct H as (p & <- & _).
  unfold output. destruct dump; [apply grows_append|].
  intros d q v E. exists "". simpl. now rewrite sapp_nil.
Qed.
Lemma in_hooks s envs es e : s_dry_run s = false -> In es envs -> In e es -> In (IterationEnd e) (hooks s envs).
Proof.
  intros D H1 H2. unfold hooks. rewrite D. cbn [app]. right. apply in_app_iff. left. apply in_map.
  apply in_concat. now exists es.
Qed.
Lemma csv_keeps s envs d d' : s_dump s = true -> s_dry_run s = false ->
  run s [Csv] envs d = (d', None) ->
  forall es e dfs name b, In es envs -> In e es -> e_dfs e = inl dfs -> In (name, b) dfs ->
  part_of (fst b) d' (out_dir cwd s ++ [(e_id e ++ "." ++ name ++ ".csv")%string]).
Proof.
  intros D1 D2 E es e dfs name b H1 H2 Ed Hb. unfold ExportModel.run in E. rewrite D1, D2 in E. cbv zeta in E.
  change (true && negb false) with true in E.
  set (P := fun d : disk => part_of (fst b) d (out_dir cwd s ++ [(e_id e ++ "." ++ name ++ ".csv")%string])).
  assert (M : forall d1 d2, (forall p v, contents d1 p = Some v -> exists w, contents d2 p = Some (v ++ w)%string) -> P d1 -> P d2).
  { intros d1 d2 G. apply part_of_grows. exact G. }
  refine (all_keeps _ P d d' _ M E (all (map (call s true (IterationEnd e)) [Csv])) _ _).
  - intros a Ha. apply in_map_iff in Ha. destruct Ha as (h & <- & _).
    apply grows_all. intros a Ha. apply in_map_iff in Ha. destruct Ha as (x & <- & [<-|[]]). apply grows_csv.
  - apply (in_map (fun h => all (map (call s true h) [Csv]))). eapply in_hooks; eauto.
  - intros d1 d2 E1. cbn [map all] in E1. unfold andthen, nothing in E1.
    destruct (call s true (IterationEnd e) Csv d1) as [d3 [x|]] eqn:E3; [discriminate|]. injection E1 as <-.
    simpl in E3. unfold csv_end in E3. rewrite Ed in E3.
    refine (all_keeps _ P d1 d3 _ M E3 (output clock stamp cwd s true (e_id e ++ "." ++ name ++ ".csv") Append b) _ _).
    + intros a Ha. apply in_map_iff in Ha. destruct Ha as (p & <- & _). apply grows_append.
    + exact (in_map (fun p => output clock stamp cwd s true (e_id e ++ "." ++ fst p ++ ".csv") Append (snd p)) _ _ Hb).
    + intros d4 d5 E5. unfold P, part_of. unfold output in E5.
      pose proof (append_contents (out_dir cwd s ++ [(e_id e ++ "." ++ name ++ ".csv")%string]) b d4 (s_backup s)
                    (out_dir cwd s ++ [(e_id e ++ "." ++ name ++ ".csv")%string])) as A.
      rewrite E5, eqb_refl in A. simpl fst in A. rewrite A.
      destruct (contents d4 _) as [old|].
      * exists old, "". now rewrite sapp_nil.
      * exists "", "". now rewrite sapp_nil.
Qed.
Lemma csv_old s envs d p v : contents d p = Some v ->
  exists w, contents (fst (run s [Csv] envs d)) p = Some (v ++ w)%string.
Proof.
  apply grows_all. intros a Ha. apply in_map_iff in Ha. destruct Ha as (h & <- & _).
  apply grows_all. intros a Ha. apply in_map_iff in Ha. destruct Ha as (x & <- & [<-|[]]). apply grows_csv.
Qed.

(** The graphs of two iterations with the same number. *)
Lemma gexf_twice s d e1 e2 : s_dump s = true -> s_dry_run s = false -> s_backup s = false ->
  e_id e1 = e_id e2 -> snd (e_graph e1) = None -> snd (e_graph e2) = None ->
  exists d', run s [Gexf] [[e1]; [e2]] d = (d', None)
    /\ contents d' (out_dir cwd s ++ [(e_id e2 ++ ".gexf")%string]) = Some (fst (e_graph e2))
    /\ forall q, q <> out_dir cwd s ++ [(e_id e2 ++ ".gexf")%string] -> contents d' q = contents d q.
Proof.
  intros D1 D2 B I G1 G2. unfold ExportModel.run, hooks. rewrite D1, D2. cbv zeta.
  change (true && negb false) with true.
  cbn [List.concat map app all]. unfold andthen, nothing. cbn [ExportModel.call sim_start ExportModel.iteration_end sim_end].
  unfold nothing, gexf_end, output. rewrite B, I.
  set (p := out_dir cwd s ++ [(e_id e2 ++ ".gexf")%string]).
  pose proof (overwrite_contents p (e_graph e1) d) as C1.
  assert (snd (open_or_reuse clock stamp p Write false (e_graph e1) d) = None) as S1.
  { unfold open_or_reuse. simpl. now rewrite G1. }
  destruct (open_or_reuse clock stamp p Write false (e_graph e1) d) as [d1 x1]. cbn [fst snd] in C1, S1. subst x1.
  pose proof (overwrite_contents p (e_graph e2) d1) as C2.
  assert (snd (open_or_reuse clock stamp p Write false (e_graph e2) d1) = None) as S2.
  { unfold open_or_reuse. simpl. now rewrite G2. }
  destruct (open_or_reuse clock stamp p Write false (e_graph e2) d1) as [d2 x2]. cbn [fst snd] in C2, S2. subst x2.
  exists d2. split; [reflexivity|]. split.
  - now rewrite C2, eqb_refl.
  - intros q Hq. rewrite C2, C1.
    assert (@eqb path _ q p = false) as X by (now apply eqb_neq). now rewrite !X.
Qed.

(** Exporters that do not raise. *)
Definition fine (a : action) : Prop := forall d, snd (a d) = None.
Lemma fine_nothing : fine nothing.
Proof. intros d. reflexivity. Qed.
Lemma fine_andthen a b : fine a -> fine b -> fine (andthen a b).
Proof. intros A B d. unfold andthen. specialize (A d). destruct (a d) as [d1 x]. simpl in A. subst. apply B. Qed.
Lemma fine_all l : (forall a, In a l -> fine a) -> fine (all l).
Proof. induction l as [|a l IH]; simpl; intros H; [apply fine_nothing|]. apply fine_andthen; auto. Qed.
Lemma fine_output s dump f m b : snd b = None -> fine (output clock stamp cwd s dump f m b).
Proof. intros H d. unfold output. destruct dump; simpl; now rewrite H. Qed.
Definition fine_env (e : env) : Prop :=
  (exists dfs, e_dfs e = inl dfs /\ forall name b, In (name, b) dfs -> snd b = None)
  /\ snd (e_graph e) = None /\ forall r, In r (e_rows e) -> exists text, r = inl text.
Lemma fine_alone s x h text : In x [Csv; Gexf; Dummy; Yaml; Summary] -> yaml = inl text ->
  (forall e, h = IterationEnd e -> fine_env e) -> forall dump, fine (call s dump h x).
Proof.
  intros Hx Hy He dump. destruct h as [|e|e|].
  - destruct Hx as [<-|[<-|[<-|[<-|[<-|[]]]]]]; simpl; try apply fine_nothing.
    + now apply fine_output.
    + unfold yaml_start. rewrite Hy. destruct dump; [now apply fine_output|apply fine_nothing].
  - destruct Hx as [<-|[<-|[<-|[<-|[<-|[]]]]]]; simpl; try apply fine_nothing. now apply fine_output.
  - destruct (He e eq_refl) as ((dfs & Ed & Hd) & Hg & _).
    destruct Hx as [<-|[<-|[<-|[<-|[<-|[]]]]]]; simpl; try apply fine_nothing.
    + unfold csv_end. rewrite Ed. apply fine_all. intros a Ha. apply in_map_iff in Ha.
      destruct Ha as ([name b] & <- & Hb). apply fine_output. eapply Hd; eauto.
    + unfold gexf_end. destruct dump; [now apply fine_output|apply fine_nothing].
    + now apply fine_output.
    + unfold summary_end. rewrite Ed. apply fine_nothing.
  - destruct Hx as [<-|[<-|[<-|[<-|[<-|[]]]]]]; simpl; try apply fine_nothing. now apply fine_output.
Qed.
Lemma run_alone s x envs d text : In x [Csv; Gexf; Dummy; Yaml; Summary] -> yaml = inl text ->
  (forall es e, In es envs -> In e es -> fine_env e) -> snd (run s [x] envs d) = None.
Proof.
  intros Hx Hy He. apply fine_all. intros a Ha. apply in_map_iff in Ha. destruct Ha as (h & <- & Hh).
  apply fine_all. intros a Ha. apply in_map_iff in Ha. destruct Ha as (y & <- & [<-|[]]).
  eapply fine_alone; eauto. intros e ->.
  unfold hooks in Hh. cbn [app] in Hh. destruct Hh as [Hh|Hh]; [discriminate|]. apply in_app_iff in Hh.
  destruct Hh as [Hh|[Hh|[]]]; [|discriminate]. apply in_map_iff in Hh. destruct Hh as (e' & E & Hh).
  injection E as ->. destruct (s_dry_run s); [contradiction|]. apply in_concat in Hh.
  destruct Hh as (es & H1 & H2). eapply He; eauto.
Qed.

(** The database. *)
Lemma sqlite_no_dir s rest envs d text : s_dump s = true -> s_dry_run s = false -> sql_config = inl text ->
  is_dir d (out_dir cwd s) = false -> contents d (db_path cwd s) = None ->
  snd (run s (SQLite :: rest) envs d) = Some UnableToOpen.
Proof.
  intros D1 D2 Q I C. unfold ExportModel.run, hooks. rewrite D1, D2. cbv zeta. change (true && negb false) with true.
  cbn [map app all ExportModel.call sim_start]. unfold sqlite_start, andthen.
  assert (B : try_backup clock stamp (db_path cwd s) true d = d).
  { unfold try_backup. unfold contents in C. destruct (dget (db_path cwd s) (d_files d)); [discriminate|reflexivity]. }
  rewrite B. unfold to_sql. rewrite Q. unfold db_path at 2 4. rewrite dirname_file.
  assert (forall d2, d_dirs d2 = d_dirs d -> is_dir d2 (out_dir cwd s) = false) as N.
  { intros d2 E. unfold is_dir in *. now rewrite E. }
  destruct (s_backup s), (s_overwrite s); rewrite N by reflexivity; reflexivity.
Qed.
Lemma to_sql_fine p text d : is_dir d (dirname p) = true ->
  snd (to_sql clock p (inl text) d) = None /\ is_dir (fst (to_sql clock p (inl text) d)) (dirname p) = true.
Proof.
  intros H. unfold to_sql. rewrite H. simpl. split; auto. now rewrite <- (is_dir_write d p text (dirname p)) in H.
Qed.
Lemma default_fine s envs d text1 text2 : yaml = inl text1 -> sql_config = inl text2 ->
  (forall es e, In es envs -> In e es -> fine_env e) -> snd (run s [Default []] envs d) = None.
Proof.
  intros Hy Hs He. unfold ExportModel.run.
  destruct (s_dump s && negb (s_dry_run s)) eqn:Dm; cbv zeta.
  - set (ok := fun d => is_dir d (out_dir cwd s) = true).
    assert (A : forall l d, (forall a, In a l -> forall d, ok d -> snd (a d) = None /\ ok (fst (a d))) -> ok d ->
                snd (all l d) = None /\ ok (fst (all l d))).
    { clear. induction l as [|a l IH]; intros d H O; simpl; auto. unfold andthen.
      destruct (H a (or_introl eq_refl) d O) as [H1 H2]. destruct (a d) as [d1 x]. simpl in *. subst.
      apply IH; auto. }
    unfold hooks. cbn [map app all]. unfold andthen at 1 2.
    cbn [ExportModel.call sim_start]. unfold andthen at 1.
    assert (snd (yaml_start clock stamp cwd yaml s true d) = None /\ ok (fst (yaml_start clock stamp cwd yaml s true d))) as [Y1 Y2].
    { unfold yaml_start. rewrite Hy. unfold output, open_or_reuse. simpl. split; auto. unfold ok.
      unfold tick, is_dir. simpl. fold (is_dir (write clock (out_dir cwd s ++ [(s_id s ++ ".dumped.yml")%string]) text1
        (put clock (out_dir cwd s ++ [(s_id s ++ ".dumped.yml")%string]) ""
          (if s_backup s then try_backup clock stamp (out_dir cwd s ++ [(s_id s ++ ".dumped.yml")%string]) false
             (make_dirs (dirname (out_dir cwd s ++ [(s_id s ++ ".dumped.yml")%string])) d)
           else make_dirs (dirname (out_dir cwd s ++ [(s_id s ++ ".dumped.yml")%string])) d))) (out_dir cwd s)).
      rewrite is_dir_write. rewrite dirname_file.
      change (is_dir (if s_backup s then try_backup clock stamp (out_dir cwd s ++ [(s_id s ++ ".dumped.yml")%string]) false
             (make_dirs (out_dir cwd s) d) else make_dirs (out_dir cwd s) d) (out_dir cwd s) = true).
      destruct (s_backup s); [apply is_dir_backup_mono|]; apply is_dir_make. }
    destruct (yaml_start clock stamp cwd yaml s true d) as [d1 x1]. simpl in Y1, Y2. subst x1.
    assert (snd (sqlite_start clock stamp cwd sql_config s true d1) = None /\ ok (fst (sqlite_start clock stamp cwd sql_config s true d1))) as [Q1 Q2].
    { unfold sqlite_start. rewrite Hs.
      set (d2 := if s_overwrite s then _ else _).
      assert (is_dir d2 (dirname (db_path cwd s)) = true) as I.
      { unfold db_path at 1. rewrite dirname_file. subst d2. destruct (s_overwrite s).
        - change (is_dir (if s_backup s then try_backup clock stamp (db_path cwd s) true d1 else d1) (out_dir cwd s) = true).
          destruct (s_backup s); auto. now apply is_dir_backup_mono.
        - destruct (s_backup s); auto. now apply is_dir_backup_mono. }
      destruct (to_sql_fine (db_path cwd s) text2 d2 I) as [T1 T2]. split; auto.
      unfold ok. unfold db_path in T2 at 2. now rewrite dirname_file in T2. }
    unfold andthen at 1. destruct (sqlite_start clock stamp cwd sql_config s true d1) as [d2 x2]. simpl in Q1, Q2. subst x2.
    unfold nothing at 1. apply A; auto.
    intros a Ha d3 O3. rewrite map_app in Ha. apply in_app_iff in Ha. destruct Ha as [Ha|[<-|[]]].
    2:{ cbn [map all ExportModel.call sim_end]. unfold andthen, nothing. simpl. auto. }
    rewrite map_map in Ha. apply in_map_iff in Ha. destruct Ha as (e & <- & Hin).
    change (snd (all [call s true (IterationEnd e) (Default [])] d3) = None
            /\ ok (fst (all [call s true (IterationEnd e) (Default [])] d3))).
    apply A; auto. intros a [<-|[]] d4 O4. cbn [ExportModel.call ExportModel.iteration_end]. unfold sqlite_end.
    apply A; auto. intros a Ha d5 O5. apply in_map_iff in Ha. destruct Ha as (r & <- & Hr).
    assert (fine_env e) as (_ & _ & F).
    { destruct (s_dry_run s); [contradiction|]. apply in_concat in Hin. destruct Hin as (es & H1 & H2). eapply He; eauto. }
    destruct (F r Hr) as (text & ->).
    assert (is_dir d5 (dirname (db_path cwd s)) = true) as I5. { unfold db_path. now rewrite dirname_file. }
    destruct (to_sql_fine (db_path cwd s) text d5 I5) as [T1 T2]. split; auto.
    unfold ok. unfold db_path in T2 at 2. now rewrite dirname_file in T2.
  - apply fine_all. intros a Ha. apply in_map_iff in Ha. destruct Ha as (h & <- & _).
    apply fine_all. intros a [<-|[]]. destruct h; simpl; intros d1; reflexivity.
Qed.
Lemma sqlite_overwrites s d text : s_overwrite s = true -> dwf (d_files d) -> sql_config = inl text ->
  is_dir d (out_dir cwd s) = true ->
  contents (fst (call s true SimStart SQLite d)) (db_path cwd s) = Some text.
Proof.
  intros O W Q I. simpl. unfold sqlite_start. rewrite O, Q.
  set (d1 := if s_backup s then _ else d).
  assert (dwf (d_files d1)) as W1.
  { subst d1. destruct (s_backup s); auto. unfold try_backup. destruct (dget _ _) as [[v t]|]; auto. simpl.
    apply ddel_wf. apply dset_wf. rewrite (proj1 (make_dirs_files _ _)), (proj1 (make_dirs_files _ _)). auto. }
  assert (is_dir d1 (out_dir cwd s) = true) as I1.
  { subst d1. destruct (s_backup s); auto. now apply is_dir_backup_mono. }
  unfold to_sql. unfold db_path at 2. rewrite dirname_file.
  change (is_dir _ (out_dir cwd s)) with (is_dir d1 (out_dir cwd s)) at 1. rewrite I1.
  simpl fst. rewrite contents_tick, contents_write, eqb_refl. unfold contents. simpl.
  rewrite dget_del by auto. now rewrite eqb_refl.
Qed.
End Files.
