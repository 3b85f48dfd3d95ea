(** Proofs about the loading of configurations. *)
From Coq Require Import List Bool Arith String Ascii Lia.
From Verif Require Import PyDict PathModel ConfigModel ConfigSpec.
Import ListNotations.
Local Open Scope string_scope.
Local Open Scope list_scope.

Section Proofs.
Context {V Sim M E : Type}.
Variable cwd : string.
Variable glob : string -> list string.
Variable documents : string -> list (doc V E) + exn E.
Variable is_py : string -> bool.
Variable execute : string -> interp M -> interp M * (list Sim + exn E).
Variable new_module : M.
Variable replace : Sim -> dict string V -> Sim + exn E.
Variable simulation : dict string V -> Sim + exn E.
Variable text : string -> V.
Variable mk : dict string V -> Sim.

Definition args (kwargs : dict string V) (c : dict string V * string) : dict string V :=
  let d := dupdate (fst c) kwargs in
  if dhas "dir_path" d then d else dset "dir_path" (text (snd c)) d.

Lemma args_ok kwargs c : dwf kwargs -> asks_for text kwargs c (args kwargs c).
Proof.
  intros W k. unfold args. set (d := dupdate (fst c) kwargs).
  assert (D : forall k, dget k d = match dget k kwargs with Some v => Some v | None => dget k (fst c) end).
  { intros k'. unfold d. now rewrite dget_update_wf. }
  rewrite dhas_get. destruct (dget "dir_path" d) as [v|] eqn:G.
  - rewrite D. destruct (dget k kwargs) eqn:K; auto. destruct (dget k (fst c)) eqn:C; auto.
    destruct (String.eqb k "dir_path") eqn:X; auto. apply String.eqb_eq in X. subst k. rewrite D, K, C in G. discriminate.
  - rewrite dget_set. change (eqb k "dir_path") with (String.eqb k "dir_path"). rewrite D.
    destruct (String.eqb k "dir_path") eqn:X.
    + apply String.eqb_eq in X. subst k. rewrite D in G. destruct (dget "dir_path" kwargs); [discriminate|]. now rewrite G.
    + destruct (dget k kwargs); auto. now destruct (dget k (fst c)).
Qed.

Lemma load_paths_ok fs l : reads_files documents fs l -> forall i : interp M, exists i',
  load_paths cwd documents fs i = (i', inl (map (fun x => (Map (fst x), abspath cwd (snd x))) l)).
Proof.
  induction 1 as [|f fs docs l D R IH]; intros i; cbn [load_paths]; [eexists; reflexivity|].
  rewrite D. destruct (IH (add_path (dirname f) i)) as (i2 & ->). eexists. rewrite map_app, !map_map. reflexivity.
Qed.

Lemma load_config_ok c l : reads cwd glob documents c l -> forall i : interp M, exists i' paths,
  load_config cwd glob documents c i = (i', inl (combine (map (fun x => Map (fst x)) l) paths)) /\
  map dirname paths = map snd l.
Proof.
  intros [d|p l' R] i; cbn [load_config].
  - exists i, [cwd]. split; reflexivity.
  - destruct (load_paths_ok _ _ R i) as (i' & ->). exists i', (map (fun x => abspath cwd (snd x)) l'). split.
    + f_equal. f_equal. clear. induction l' as [|x l IH]; cbn; [reflexivity|]. now rewrite IH.
    + now rewrite !map_map.
Qed.

Lemma each_built kwargs : forall (l : list (dict string V * string)) paths, map dirname paths = map snd l ->
  let '(r, e) := each_config simulation text kwargs (combine (map (fun x => Map (fst x)) l) paths) in
  built simulation (map (args kwargs) l) r e.
Proof.
  induction l as [|c l IH]; intros [|p paths] H; cbn [map combine each_config] in *; try discriminate; [constructor|].
  injection H as H1 H2. unfold one_config. cbn [fst snd]. rewrite H1. fold (args kwargs c).
  destruct (simulation (args kwargs c)) as [s|e] eqn:ES.
  - specialize (IH _ H2). destruct (each_config _ _ _ _) as [r e]. now constructor.
  - now constructor.
Qed.
Lemma built_app ds ds' : forall r e, built simulation ds r e ->
  (forall e1, e = Some e1 -> built simulation (ds ++ ds') r e) /\
  (forall r' e', e = None -> built simulation ds' r' e' -> built simulation (ds ++ ds') (r ++ r') e').
Proof.
  intros r e B. induction B as [|d ds s l e S B [IH1 IH2]|d ds e S]; cbn [app].
  - split; [discriminate|auto].
  - split; intros; constructor; eauto.
  - split; [intros; now constructor|discriminate].
Qed.
Lemma iter_built cfgs ls kwargs : Forall2 (reads cwd glob documents) cfgs ls -> forall (i : interp M),
  let '(_, (r, e)) := iter_from_config cwd glob documents simulation text cfgs kwargs i in
  built simulation (map (args kwargs) (List.concat ls)) r e.
Proof.
  induction 1 as [|c l cfgs ls R _ IH]; intros i; cbn [iter_from_config List.concat map]; [constructor|].
  destruct (load_config_ok c l R i) as (i1 & paths & -> & P). rewrite map_app.
  pose proof (each_built kwargs l paths P) as B. destruct (each_config _ _ _ _) as [r e].
  destruct (built_app (map (args kwargs) l) (map (args kwargs) (List.concat ls)) r e B) as [B1 B2].
  destruct e as [e|]; [eauto|]. specialize (IH i1). destruct (iter_from_config _ _ _ _ _ _ _ _) as [i2 [r2 e2]]. cbn [fst snd]. auto.
Qed.

Hypothesis OK : forall d, simulation d = inl (mk d).

Lemma each_ok kwargs : forall (l : list (dict string V * string)) paths, map dirname paths = map snd l ->
  each_config simulation text kwargs (combine (map (fun x => Map (fst x)) l) paths) =
  (map (fun c => mk (args kwargs c)) l, None : option (exn E)).
Proof.
  induction l as [|[d dir] l IH]; intros [|p paths] EQ; cbn [map combine each_config] in *; try discriminate; auto.
  injection EQ as E1 E2. unfold one_config. cbn [fst snd]. rewrite OK, IH by auto. unfold args. cbn [fst snd]. now rewrite E1.
Qed.

Lemma iter_app a b kwargs : forall (i : interp M),
  iter_from_config cwd glob documents simulation text (a ++ b) kwargs i =
  let '(i1, (r, e)) := iter_from_config cwd glob documents simulation text a kwargs i in
  match e with
  | Some e => (i1, (r, Some e))
  | None => let '(i2, g) := iter_from_config cwd glob documents simulation text b kwargs i1 in (i2, (r ++ fst g, snd g))
  end.
Proof.
  induction a as [|c a IH]; intros i; cbn [app iter_from_config].
  - destruct (iter_from_config _ _ _ _ _ b kwargs i) as [i2 [r e]]. reflexivity.
  - destruct (load_config cwd glob documents c i) as [i1 [l|e]]; [|reflexivity].
    destruct (each_config simulation text kwargs l) as [r [e|]]; [reflexivity|]. rewrite IH.
    destruct (iter_from_config _ _ _ _ _ a kwargs i1) as [i2 [r2 [e|]]]; [reflexivity|].
    destruct (iter_from_config _ _ _ _ _ b kwargs i2) as [i3 [r3 e3]]. cbn [fst snd]. now rewrite app_assoc.
Qed.

Lemma iter_ok cfgs ls kwargs : Forall2 (reads cwd glob documents) cfgs ls -> forall (i : interp M), exists i',
  iter_from_config cwd glob documents simulation text cfgs kwargs i =
  (i', (map (fun c => mk (args kwargs c)) (List.concat ls), None)).
Proof.
  induction 1 as [|c l cfgs ls R F IH]; intros i; cbn [iter_from_config List.concat]; [eexists; reflexivity|].
  destruct (load_config_ok c l R i) as (i1 & paths & -> & P). rewrite (each_ok kwargs l paths P).
  destruct (IH i1) as (i2 & ->). eexists. cbn [fst snd]. now rewrite map_app.
Qed.

(** Loading configurations never shortens the path. *)
Lemma add_path_more folder (i : interp M) : exists m, sys_path (add_path folder i) = sys_path i ++ m.
Proof. unfold add_path. destruct (on_path folder i); [exists []; now rewrite app_nil_r|eexists; reflexivity]. Qed.
Lemma load_paths_more fs : forall (i i' : interp M) r, load_paths cwd documents fs i = (i', r) ->
  exists m, sys_path i' = sys_path i ++ m.
Proof.
  induction fs as [|f fs IH]; intros i i' r; cbn [load_paths].
  - intros X. injection X as <- <-. exists []. now rewrite app_nil_r.
  - destruct (add_path_more (dirname f) i) as (m1 & E1). destruct (documents f) as [docs|e].
    + destruct (load_paths cwd documents fs _) as [i2 [rest|e]] eqn:E2; intros X; injection X as <- <-;
        apply IH in E2 as (m2 & ->); rewrite E1, <- app_assoc; eauto.
    + intros X. injection X as <- <-. eauto.
Qed.
End Proofs.

Lemma iter_more {V Sim M E} cwd glob documents simulation text cfgs kwargs : forall (i i' : interp M) g,
  iter_from_config (V := V) (Sim := Sim) (E := E) cwd glob documents simulation text cfgs kwargs i = (i', g) ->
  exists m, sys_path i' = sys_path i ++ m.
Proof.
  induction cfgs as [|c cfgs IH]; intros i i' g; cbn [iter_from_config].
  - intros X. injection X as <- <-. exists []. now rewrite app_nil_r.
  - destruct (load_config cwd glob documents c i) as [i1 r1] eqn:L.
    assert (E1 : exists m, sys_path i1 = sys_path i ++ m).
    { destruct c as [d|p]; cbn [load_config] in L; [injection L as <- <-; exists []; now rewrite app_nil_r|].
      eapply load_paths_more; eauto. }
    destruct r1 as [l|e]; [|intros X; injection X as <- <-; auto].
    destruct (each_config simulation text kwargs l) as [r [e|]]; [intros X; injection X as <- <-; auto|].
    destruct (iter_from_config _ _ _ _ _ cfgs kwargs i1) as [i2 g2] eqn:E2. intros X. injection X as <- <-.
    apply IH in E2 as (m2 & ->). destruct E1 as (m1 & ->). rewrite <- app_assoc. eauto.
Qed.
