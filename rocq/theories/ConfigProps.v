(** C134 to C138: loading simulations from files and dictionaries. *)
From Coq Require Import List Bool Arith String Ascii Lia.
From Verif Require Import PyDict PathModel PathSpec PathProofs ConfigModel ConfigSpec ConfigProofs.
Import ListNotations.
Local Open Scope string_scope.
Local Open Scope list_scope.

(** * C135 *)

(** C135: sources that can be read give one simulation per configuration, in order; the arguments of the call
    come first, then the configuration, then the default directory. *)
Theorem C135_one_simulation_each :
  forall V Sim M E cwd glob (documents : string -> list (doc V E) + exn E) simulation text (mk : dict string V -> Sim),
  (forall d, simulation d = inl (mk d)) ->
  forall cfgs ls kwargs (i : interp M), dwf kwargs -> Forall2 (reads cwd glob documents) cfgs ls ->
  exists i' ds, iter_from_config cwd glob documents simulation text cfgs kwargs i = (i', (map mk ds, None)) /\
  Forall2 (asks_for text kwargs) (List.concat ls) ds.
Proof.
  intros V Sim M E cwd glob documents simulation text mk OK cfgs ls kwargs i W R.
  destruct (iter_ok cwd glob documents simulation text mk OK cfgs ls kwargs R i) as (i' & ->).
  exists i', (map (args text kwargs) (List.concat ls)). split; [now rewrite map_map|].
  induction (List.concat ls) as [|c l IH]; cbn [map]; constructor; auto. now apply args_ok.
Qed.
Print Assumptions C135_one_simulation_each.

(** C135: the first source that cannot be read ends the loading, after the simulations before it. *)
Theorem C135_first_error :
  forall V Sim M E cwd glob (documents : string -> list (doc V E) + exn E) simulation text (mk : dict string V -> Sim),
  (forall d, simulation d = inl (mk d)) ->
  forall cfgs ls kwargs (i : interp M) p f more e rest, dwf kwargs -> Forall2 (reads cwd glob documents) cfgs ls ->
  glob p = f :: more -> documents f = inr e ->
  exists i' ds, iter_from_config cwd glob documents simulation text (cfgs ++ Pattern p :: rest) kwargs i =
    (i', (map mk ds, Some e)) /\ Forall2 (asks_for text kwargs) (List.concat ls) ds.
Proof.
  intros V Sim M E cwd glob documents simulation text mk OK cfgs ls kwargs i p f more e rest W R G D.
  destruct (C135_one_simulation_each V Sim M E cwd glob documents simulation text mk OK cfgs ls kwargs i W R) as (i1 & ds & E1 & F).
  rewrite iter_app, E1. cbn [iter_from_config load_config]. rewrite G. cbn [load_paths]. rewrite D.
  cbn [fst snd]. rewrite app_nil_r. eauto.
Qed.
Print Assumptions C135_first_error.

(** C135: the first configuration that makes no simulation ends the loading as well, after the
    simulations of the ones before it. *)
Theorem C135_first_failure :
  forall V Sim M E cwd glob (documents : string -> list (doc V E) + exn E) (simulation : dict string V -> Sim + exn E) text
    cfgs ls kwargs (i i' : interp M) r e, dwf kwargs -> Forall2 (reads cwd glob documents) cfgs ls ->
  iter_from_config cwd glob documents simulation text cfgs kwargs i = (i', (r, e)) ->
  exists ds, Forall2 (asks_for text kwargs) (List.concat ls) ds /\ built simulation ds r e.
Proof.
  intros V Sim M E cwd glob documents simulation text cfgs ls kwargs i i' r e W R X.
  pose proof (iter_built cwd glob documents simulation text cfgs ls kwargs R i) as B. rewrite X in B.
  eexists. split; [|exact B]. clear X B. induction (List.concat ls) as [|c l IH]; cbn [map]; constructor; auto. now apply args_ok.
Qed.
Print Assumptions C135_first_failure.

(** C135: a document that is no mapping ends the loading, too. *)
Theorem C135_no_mapping :
  forall V Sim M E cwd glob (documents : string -> list (doc V E) + exn E) simulation text (mk : dict string V -> Sim),
  (forall d, simulation d = inl (mk d)) ->
  forall p f docs e more kwargs (i : interp M), dwf kwargs -> glob p = [f] ->
  documents f = inl (map Map docs ++ NoMap e :: more) ->
  exists i' ds, iter_from_config cwd glob documents simulation text [Pattern p] kwargs i = (i', (map mk ds, Some e)) /\
  Forall2 (asks_for text kwargs) (map (fun d => (d, dirname (abspath cwd f))) docs) ds.
Proof.
  intros V Sim M E cwd glob documents simulation text mk OK p f docs e more kwargs i W G D.
  cbn [iter_from_config load_config]. rewrite G. cbn [load_paths]. rewrite D, app_nil_r.
  assert (X : each_config simulation text kwargs (map (fun d => (d, abspath cwd f)) (map Map docs ++ NoMap e :: more)) =
    (map mk (map (fun d => args text kwargs (d, dirname (abspath cwd f))) docs), Some e)).
  { clear D. induction docs as [|d docs IH]; cbn [map app each_config]; [reflexivity|].
    unfold one_config at 1. cbn [fst snd]. rewrite OK. cbn iota. now rewrite IH. }
  rewrite X. eexists _, _. split; [reflexivity|]. clear - W. induction docs; cbn [map]; constructor; auto. now apply args_ok.
Qed.
Print Assumptions C135_no_mapping.

(** C135: [from_config] gives the only simulation, and raises if there are none or several. *)
Theorem C135_exactly_one :
  forall V Sim M E cwd glob (documents : string -> list (doc V E) + exn E) simulation text (mk : dict string V -> Sim),
  (forall d, simulation d = inl (mk d)) ->
  forall c l (i : interp M), reads cwd glob documents c l ->
  match l with
  | [x] => exists d, snd (from_config cwd glob documents simulation text c i) = inl (mk d) /\ asks_for text [] x d
  | [] => snd (from_config cwd glob documents simulation text c i) = inr EIndex
  | _ => snd (from_config cwd glob documents simulation text c i) = inr EAttribute
  end.
Proof.
  intros V Sim M E cwd glob documents simulation text mk OK c l i R.
  destruct (C135_one_simulation_each V Sim M E cwd glob documents simulation text mk OK [c] [l] [] i) as (i1 & ds & E1 & F).
  { constructor. } { repeat constructor; auto. }
  cbn [List.concat] in F. rewrite app_nil_r in F. unfold from_config. rewrite E1.
  destruct F as [|x d l ds A F]; cbn [map]; [reflexivity|]. destruct F as [|y d' l ds B F]; cbn [map snd]; [|reflexivity].
  exists d. auto.
Qed.
Print Assumptions C135_exactly_one.

(** C135: what ends the loading is what [from_config] raises, however many simulations come before: the exception of the
    first configuration that makes no simulation, or the one of a file that cannot be read. *)
Theorem C135_exactly_one_failure :
  forall V Sim M E cwd glob (documents : string -> list (doc V E) + exn E) (simulation : dict string V -> Sim + exn E) text c l
    (i : interp M), reads cwd glob documents c l ->
  exists ds, Forall2 (asks_for text []) l ds /\
  forall before d after e, ds = before ++ d :: after -> (forall b, In b before -> exists s, simulation b = inl s) ->
  simulation d = inr e -> snd (from_config cwd glob documents simulation text c i) = inr e.
Proof.
  intros V Sim M E cwd glob documents simulation text c l i R.
  destruct (iter_from_config cwd glob documents simulation text [c] [] i) as [i1 [r e1]] eqn:X.
  destruct (C135_first_failure V Sim M E cwd glob documents simulation text [c] [l] [] i i1 r e1) as (ds & F & B);
    [constructor|repeat constructor; auto|exact X|].
  cbn [List.concat] in F. rewrite app_nil_r in F. exists ds. split; auto.
  intros before d after e -> OK BAD. unfold from_config. rewrite X. clear X F R.
  assert (e1 = Some e) as ->; [|destruct r as [|? [|? ?]]; reflexivity].
  revert r B. induction before as [|b before IH]; intros r B; cbn [app] in B; inversion B; subst; try congruence.
  - eapply IH; [|eassumption]. intros. apply OK. now right.
  - destruct (OK b (or_introl eq_refl)). congruence.
Qed.
Print Assumptions C135_exactly_one_failure.
Theorem C135_exactly_one_unreadable :
  forall V Sim M E cwd glob (documents : string -> list (doc V E) + exn E) (simulation : dict string V -> Sim + exn E) text
    p f more e (i : interp M), glob p = f :: more -> documents f = inr e ->
  snd (from_config cwd glob documents simulation text (Pattern p) i) = inr e.
Proof.
  intros V Sim M E cwd glob documents simulation text p f more e i G D. unfold from_config.
  cbn [iter_from_config load_config]. rewrite G. cbn [load_paths]. rewrite D. reflexivity.
Qed.
Print Assumptions C135_exactly_one_unreadable.
Example C135_exactly_one_failure_case :
  let documents (f : string) : list (doc string nat) + exn nat :=
    if String.eqb f "a.yml" then inl [Map [("name", "one")]; Map [("name", "two")]; Map [("seed", "1")]] else inr (EOther 3) in
  let simulation (d : dict string string) := if dhas "name" d then inl d else inr (EOther 5) in
  let load p := snd (from_config "/home" (fun q => [q]) documents simulation (fun s => s) (Pattern p) (Interp (M := nat) ["/lib"] [])) in
  load "a.yml" = inr (EOther 5) /\ load "b.yml" = inr (EOther 3).
Proof. split; reflexivity. Qed.

Section Case.
(** Two files, three configurations. *)
Let glob (p : string) : list string := if String.eqb p "*.yml" then ["sub/a.yml"; "b.yml"] else [].
Let documents (f : string) : list (doc string nat) + exn nat :=
  if String.eqb f "sub/a.yml" then inl [Map [("name", "one")]; Map [("name", "two"); ("dir_path", "/x")]]
  else if String.eqb f "b.yml" then inl [Map [("name", "three"); ("seed", "s")]] else inr (EOther 3).
Let simulation (d : dict string string) : dict string string + exn nat := inl d.
Let text (s : string) := s.
Example C135_case :
  snd (iter_from_config "/home/me" glob documents simulation text [Pattern "*.yml"; Dict [("name", "four")]]
    [("seed", "t")] (Interp (M := nat) ["/lib"] [])) =
  ([[("name", "one"); ("seed", "t"); ("dir_path", "/home/me/sub")];
    [("name", "two"); ("dir_path", "/x"); ("seed", "t")];
    [("name", "three"); ("seed", "t"); ("dir_path", "/home/me")];
    [("name", "four"); ("seed", "t"); ("dir_path", "/home")]], None) /\
  Forall2 (reads "/home/me" glob documents) [Pattern "*.yml"; Dict [("name", "four")]]
    [[([("name", "one")], "/home/me/sub"); ([("name", "two"); ("dir_path", "/x")], "/home/me/sub");
      ([("name", "three"); ("seed", "s")], "/home/me")]; [([("name", "four")], "/home")]].
Proof.
  split; [reflexivity|]. constructor; [|constructor; [|constructor]].
  - refine (r_files _ _ _ "*.yml" [([("name", "one")], "sub/a.yml"); ([("name", "two"); ("dir_path", "/x")], "sub/a.yml");
      ([("name", "three"); ("seed", "s")], "b.yml")] _).
    refine (rf_cons _ "sub/a.yml" ["b.yml"] [[("name", "one")]; [("name", "two"); ("dir_path", "/x")]] _ eq_refl _).
    refine (rf_cons _ "b.yml" [] [[("name", "three"); ("seed", "s")]] _ eq_refl (rf_nil _)).
  - refine (r_dict "/home/me" _ _ _).
Qed.
End Case.

(** Three documents, the second without a name, or no mapping at all. *)
Example C135_failure_case :
  let documents bad (f : string) : list (doc string nat) + exn nat :=
    inl [Map [("name", "one")]; bad; Map [("name", "three")]] in
  let simulation (d : dict string string) := if dhas "name" d then inl d else inr (EOther 5) in
  let load bad := snd (iter_from_config "/home" (fun _ => ["a.yml"]) (documents bad) simulation (fun s => s) [Pattern "a.yml"] []
    (Interp (M := nat) ["/lib"] [])) in
  load (Map [("seed", "1")]) = ([[("name", "one"); ("dir_path", "/home")]], Some (EOther 5)) /\
  load (NoMap (EOther 7)) = ([[("name", "one"); ("dir_path", "/home")]], Some (EOther 7)).
Proof. split; reflexivity. Qed.

(** * C136 *)

(** C136: the files named by a configuration that was read from a file are looked for in the directory of that
    file, wherever the program is when they are needed. *)
Theorem C136_beside_the_file_partial :
  forall V E cwd glob (documents : string -> list (doc V E) + exn E) p l,
  Forall proper cwd -> reads (text_of cwd) glob documents (Pattern p) l ->
  forall d dir, In (d, dir) l ->
  exists f, In f (glob p) /\
  forall now t, isabs t = false -> means now (topology_path (Some dir) t) = means (removelast (means cwd f)) t.
Proof.
  intros V E cwd glob documents p l P R d dir I. inversion R as [|? l' RF]; subst.
  apply in_map_iff in I as ([d' f] & X & I). cbn [fst snd] in X. injection X as -> <-.
  exists f. split.
  - clear - RF I. induction RF as [|g fs docs l D R IH]; [easy|]. apply in_app_or in I as [I|I].
    + apply in_map_iff in I as (d2 & X & _). injection X as _ ->. now left.
    + right. auto.
  - intros now t T. unfold topology_path. destruct (means_dir_abspath cwd f now P) as [A M].
    destruct (isabs_head _ A) as (q & Q). rewrite Q, T, <- Q. rewrite means_join, M. reflexivity.
Qed.
Print Assumptions C136_beside_the_file_partial.
Example C136_file_case :
  means ["elsewhere"] (topology_path (Some (dirname (abspath (text_of ["home"; "me"]) "sub/../conf/a.yml"))) "net.gexf") =
  ["home"; "me"; "conf"; "net.gexf"].
Proof. reflexivity. Qed.

(** C136 is false for dictionaries: not the current directory, but the one above. *)
Theorem C136_dictionaries_refuted :
  forall V E cwd glob (documents : string -> list (doc V E) + exn E) d l,
  Forall proper cwd -> cwd <> [] -> reads (text_of cwd) glob documents (Dict d) l ->
  exists dir, l = [(d, dir)] /\
  forall now t, proper t -> means now (topology_path (Some dir) t) = removelast cwd ++ [t] /\
  means now (topology_path (Some dir) t) <> cwd ++ [t].
Proof.
  intros V E cwd glob documents d l P NE R. inversion R; subst. eexists. split; [reflexivity|].
  intros now t PT.
  destruct (means_dir_abspath cwd "." now P) as [A M].
  assert (AB : abspath (text_of cwd) "." = text_of cwd).
  { unfold abspath. change (isabs ".") with false. cbn iota.
    assert (AJ : isabs (join (text_of cwd) ".") = true) by apply isabs_join, isabs_slash.
    destruct (norm_abs _ AJ) as [_ ->]. rewrite <- (means_abs [] _ AJ), means_join, means_text by auto.
    change (means cwd ".") with cwd. destruct cwd as [|x cwd]; [easy|].
    replace (slashes (join (text_of (x :: cwd)) ".")) with 1; [reflexivity|].
    inversion P as [|? ? (X1 & _ & _ & X2) _]; subst. destruct x as [|c x]; [easy|].
    assert (C : c <> "/"%char) by (intros ->; apply X2; now exists "", x).
    assert (J : exists t, join (text_of (String c x :: cwd)) "." = (text_of (String c x :: cwd) ++ t)%string).
    { unfold join. change (isabs ".") with false. cbn iota.
      change (text_of (String c x :: cwd)) with (String "/" (concat "/" (String c x :: cwd))). cbn iota.
      destruct (ends_slash _); eauto. }
    destruct J as (t' & ->).
    assert (H : exists r, (text_of (String c x :: cwd) ++ t')%string = (String "/" (String c r))%string).
    { destruct cwd as [|y cwd]; eexists; reflexivity. }
    destruct H as (r & ->). unfold slashes. cbn [prefix].
    destruct (ascii_dec "/" "/") as [_|]; [|easy]. destruct (ascii_dec "/" c) as [EQ|_]; [now elim C|reflexivity]. }
  rewrite AB in *. change (means cwd ".") with cwd in M.
  assert (W : means now (topology_path (Some (dirname (text_of cwd))) t) = removelast cwd ++ [t]).
  { unfold topology_path. destruct (isabs_head _ A) as (q & Q).
    assert (T : isabs t = false).
    { destruct (isabs t) eqn:X; auto. destruct (isabs_head _ X) as (r & ->). destruct PT as (_ & _ & _ & D).
      exfalso. apply D. now exists "", r. }
    rewrite Q, T, <- Q, means_join, M, means_rel by auto. rewrite (noslash_proper t PT). cbn [fold_left].
    rewrite <- (walk_proper [t]) by (repeat constructor; apply PT). reflexivity. }
  split; [exact W|]. rewrite W. intros X. apply (f_equal (@List.length string)) in X. rewrite !app_length in X. cbn in X.
  destruct (exists_last NE) as (c' & x & ->). rewrite removelast_last, app_length in X. cbn in X. lia.
Qed.
Print Assumptions C136_dictionaries_refuted.
Example C136_dictionary_case :
  topology_path (Some (dirname (text_of ["home"; "me"]))) "net.gexf" = "/home/net.gexf".
Proof. reflexivity. Qed.

(** * C134 *)

(** C134 is false for every configuration file in a directory of its own, whatever happens when it is read:
    its directory stays in [sys.path]. *)
Theorem C134_directory_stays_refuted :
  forall V Sim M E cwd glob (documents : string -> list (doc V E) + exn E) is_py execute new_module replace simulation text
    f kwargs (i i' : interp M) (g : gen Sim),
  is_py f = false -> ~ In (dirname f) (sys_path i) ->
  iter_from_file cwd glob documents is_py execute new_module replace simulation text [f] kwargs i = (i', g) ->
  exists more, sys_path i' = sys_path i ++ dirname f :: more.
Proof.
  intros V Sim M E cwd glob documents is_py execute new_module replace simulation text f kwargs i i' g PY NI.
  cbn [iter_from_file]. unfold iter_from_py. rewrite PY. cbn [negb].
  assert (ON : on_path (dirname f) i = false).
  { unfold on_path. destruct (existsb _ _) eqn:X; auto. apply existsb_exists in X as (y & Y1 & Y2).
    apply String.eqb_eq in Y2. subst y. now elim NI. }
  unfold add_path. rewrite ON.
  destruct (iter_from_config cwd glob documents simulation text [Pattern f] kwargs _) as [i2 g2] eqn:E2.
  apply iter_more in E2 as (m & E2). cbn [sys_path] in E2. cbn [snd app].
  assert (R : exists more, sys_path i2 = sys_path i ++ dirname f :: more) by (exists m; now rewrite E2, <- app_assoc).
  destruct (snd g2); intros X; injection X as <- _; auto.
Qed.
Print Assumptions C134_directory_stays_refuted.

(** C134 is false for every Python file that raises (not ValueError, for which see C137) or has no simulations,
    even if the code of the file leaves the interpreter alone. *)
Theorem C134_failed_module_stays_refuted :
  forall V Sim M E cwd glob (documents : string -> list (doc V E) + exn E) is_py execute (new_module : M) replace simulation text
    f kwargs (i : interp M) e,
  is_py f = true -> ~ In (dirname f) (sys_path i) ->
  (forall j, execute f j = (j, inr e)) -> e <> EValue ->
  exists i', iter_from_file (Sim := Sim) cwd glob documents is_py execute new_module replace simulation text [f] kwargs i = (i', ([], Some e)) /\
  sys_path i' = sys_path i ++ [dirname f] /\ dget "imported_file" (sys_modules i') = Some new_module.
Proof.
  intros V Sim M E cwd glob documents is_py execute new_module replace simulation text f kwargs i e PY NI EX NV.
  cbn [iter_from_file]. unfold iter_from_py. rewrite PY. cbn [negb].
  assert (ON : on_path (dirname f) i = false).
  { unfold on_path. destruct (existsb _ _) eqn:X; auto. apply existsb_exists in X as (y & Y1 & Y2).
    apply String.eqb_eq in Y2. subst y. now elim NI. }
  unfold add_path. rewrite ON, EX. cbn [sys_path sys_modules]. eexists. split.
  - destruct e; try easy; reflexivity.
  - cbn [sys_path sys_modules]. split; auto. apply dget_set_same.
Qed.
Print Assumptions C134_failed_module_stays_refuted.

(** C134: a Python file with simulations that leaves the interpreter alone: the path is the same, and so are the
    modules, except that there is no module called "imported_file" afterwards. *)
Theorem C134_module_partial :
  forall V Sim M E cwd glob (documents : string -> list (doc V E) + exn E) is_py execute (new_module : M) replace simulation text
    f kwargs (i : interp M) sims s0,
  is_py f = true -> (forall j, execute f j = (j, inl (s0 :: sims))) -> dwf (sys_modules i) ->
  (forall s, replace s kwargs <> inr EValue) ->
  let i' := fst (iter_from_file (Sim := Sim) cwd glob documents is_py execute new_module replace simulation text [f] kwargs i) in
  sys_path i' = sys_path i /\
  forall m, dget m (sys_modules i') = if String.eqb m "imported_file" then None else dget m (sys_modules i).
Proof.
  intros V Sim M E cwd glob documents is_py execute new_module replace simulation text f kwargs i sims s0 PY EX W NV.
  cbn [iter_from_file]. unfold iter_from_py. rewrite PY. cbn [negb]. rewrite EX. cbn [sys_path sys_modules].
  assert (ER : forall l r, each_replace replace kwargs l = (r, Some EValue) -> False).
  { induction l as [|s l IH]; cbn [each_replace]; [discriminate|]. intros r. specialize (NV s).
    destruct (replace s kwargs) as [s'|e].
    - destruct (each_replace replace kwargs l) as [r1 e1]. intros X. injection X as <- ->. eauto.
    - intros X. injection X as _ ->. easy. }
  assert (RF : forall l x, ~ In x l -> remove_first x (l ++ [x]) = Some l).
  { induction l as [|y l IH]; intros x N; cbn [app remove_first]; [now rewrite String.eqb_refl|].
    destruct (String.eqb x y) eqn:X; [apply String.eqb_eq in X; subst; elim N; now left|].
    rewrite IH; auto. intros I. apply N. now right. }
  assert (G : forall m, dget m (ddel module_name (dset module_name new_module (sys_modules i))) =
    if String.eqb m "imported_file" then None else dget m (sys_modules i)).
  { intros m. rewrite dget_del by now apply dset_wf. rewrite dget_set. change (eqb m module_name) with (String.eqb m "imported_file").
    now destruct (String.eqb m "imported_file"). }
  unfold add_path. destruct (on_path (dirname f) i) eqn:ON; cbn [negb sys_path sys_modules].
  - destruct (each_replace replace kwargs (s0 :: sims)) as [r [[]|]] eqn:X; cbn [fst snd sys_path sys_modules];
      try (split; [reflexivity|exact G]). now elim (ER _ _ X).
  - rewrite RF.
    + destruct (each_replace replace kwargs (s0 :: sims)) as [r [[]|]] eqn:X; cbn [fst snd sys_path sys_modules];
        try (split; [reflexivity|exact G]). now elim (ER _ _ X).
    + intros I. unfold on_path in ON. assert (Y : existsb (String.eqb (dirname f)) (sys_path i) = true).
      { apply existsb_exists. exists (dirname f). split; auto. apply String.eqb_refl. }
      congruence.
Qed.
Print Assumptions C134_module_partial.

(** * C137 *)

(** C137 is false: a configuration file that does not exist gives nothing, and no error. *)
Theorem C137_missing_file_refuted :
  forall V Sim M E cwd glob (documents : string -> list (doc V E) + exn E) is_py execute (new_module : M) replace simulation text
    f kwargs (i : interp M),
  is_py f = false -> glob f = [] ->
  snd (iter_from_file (Sim := Sim) cwd glob documents is_py execute new_module replace simulation text [f] kwargs i) = ([], None).
Proof.
  intros V Sim M E cwd glob documents is_py execute new_module replace simulation text f kwargs i PY G.
  cbn [iter_from_file]. unfold iter_from_py. rewrite PY. cbn [negb iter_from_config load_config]. rewrite G. reflexivity.
Qed.
Print Assumptions C137_missing_file_refuted.

(** C137 is false: if a Python file raises ValueError, the caller gets what reading it as a configuration gives:
    nothing at all if no file matches its name as a pattern, or the error of the parser. *)
Theorem C137_value_error_is_hidden_refuted :
  forall V Sim M E cwd glob (documents : string -> list (doc V E) + exn E) is_py execute (new_module : M) replace simulation text
    f kwargs (i : interp M),
  is_py f = true -> (forall j, execute f j = (j, inr EValue)) ->
  (glob f = [] ->
   snd (iter_from_file (Sim := Sim) cwd glob documents is_py execute new_module replace simulation text [f] kwargs i) = ([], None)) /\
  (forall e, glob f = [f] -> documents f = inr e ->
   snd (iter_from_file (Sim := Sim) cwd glob documents is_py execute new_module replace simulation text [f] kwargs i) = ([], Some e)).
Proof.
  intros V Sim M E cwd glob documents is_py execute new_module replace simulation text f kwargs i PY EX.
  cbn [iter_from_file]. unfold iter_from_py. rewrite PY, EX. cbn [negb iter_from_config load_config]. split.
  - intros ->. reflexivity.
  - intros e -> D. cbn [load_paths]. rewrite D. reflexivity.
Qed.
Print Assumptions C137_value_error_is_hidden_refuted.

(** C137: other exceptions of Python files reach the caller, after the simulations of the files before. *)
Theorem C137_other_errors_partial :
  forall V Sim M E cwd glob (documents : string -> list (doc V E) + exn E) is_py execute (new_module : M) replace simulation text
    kwargs f e rest files (i i1 : interp M) r,
  iter_from_file (Sim := Sim) cwd glob documents is_py execute new_module replace simulation text files kwargs i = (i1, (r, None)) ->
  is_py f = true -> (forall j, snd (execute f j) = inr e) -> e <> EValue ->
  snd (iter_from_file cwd glob documents is_py execute new_module replace simulation text (files ++ f :: rest) kwargs i) = (r, Some e).
Proof.
  intros V Sim M E cwd glob documents is_py execute new_module replace simulation text kwargs f e rest files.
  assert (F : forall i : interp M, is_py f = true -> (forall j, snd (execute f j) = inr e) -> e <> EValue ->
    snd (iter_from_file (Sim := Sim) cwd glob documents is_py execute new_module replace simulation text (f :: rest) kwargs i) = ([], Some e)).
  { intros i PY EX NV. cbn [iter_from_file]. unfold iter_from_py. rewrite PY. cbn [negb].
    specialize (EX (Interp (sys_path (add_path (dirname f) i)) (dset module_name new_module (sys_modules (add_path (dirname f) i))))).
    destruct (execute f _) as [i3 r3]. cbn [snd] in EX. subst r3. destruct e; try easy; reflexivity. }
  induction files as [|f0 files IH]; intros i i1 r H PY EX NV.
  - injection H as <- <-. now apply F.
  - cbn [app iter_from_file] in *.
    match goal with |- snd (let '(i1, g) := ?X in _) = _ => destruct X as [i2 [r2 [e2|]]] end; cbn [fst snd] in *; [discriminate|].
    destruct (iter_from_file cwd glob documents is_py execute new_module replace simulation text files kwargs i2) as [i3 [r3 e3]] eqn:E3.
    cbn [fst snd] in H. injection H as <- <- ->. specialize (IH _ _ _ E3 PY EX NV).
    destruct (iter_from_file cwd glob documents is_py execute new_module replace simulation text (files ++ f :: rest) kwargs i2) as [i4 g4].
    cbn [snd] in *. now rewrite IH.
Qed.
Print Assumptions C137_other_errors_partial.

(** * C138 *)

(** C138 is false for all files that have a simulation: AttributeError, and nothing is run. *)
Theorem C138_nothing_is_run_refuted :
  forall V Sim M E cwd glob (documents : string -> list (doc V E) + exn E) is_py execute (new_module : M) replace simulation text
    files (i : interp M),
  fst (snd (iter_from_file (Sim := Sim) cwd glob documents is_py execute new_module replace simulation text files [] i)) <> [] ->
  run_from_file cwd glob documents is_py execute new_module replace simulation text files i = ([], Some EAttribute).
Proof.
  intros V Sim M E cwd glob documents is_py execute new_module replace simulation text files i NE. unfold run_from_file.
  destruct (iter_from_file _ _ _ _ _ _ _ _ _ files [] i) as [i1 [[|s l] e]]; [easy|reflexivity].
Qed.
Print Assumptions C138_nothing_is_run_refuted.

(** C138: files without simulations are all read; the exception of one of them reaches the caller. *)
Theorem C138_no_simulations_partial :
  forall V Sim M E cwd glob (documents : string -> list (doc V E) + exn E) is_py execute (new_module : M) replace simulation text
    files (i i1 : interp M),
  iter_from_file (Sim := Sim) cwd glob documents is_py execute new_module replace simulation text files [] i = (i1, ([], None)) ->
  run_from_file cwd glob documents is_py execute new_module replace simulation text files i = ([], None) /\
  forall f e rest, is_py f = true -> (forall j, snd (execute f j) = inr e) -> e <> EValue ->
  run_from_file cwd glob documents is_py execute new_module replace simulation text (files ++ f :: rest) i = ([], Some e).
Proof.
  intros V Sim M E cwd glob documents is_py execute new_module replace simulation text files i i1 H. split.
  - unfold run_from_file. now rewrite H.
  - intros f e rest PY EX NV. unfold run_from_file.
    now rewrite (C137_other_errors_partial _ _ _ _ _ _ _ _ _ _ _ _ _ _ _ _ rest _ _ _ _ H PY EX NV).
Qed.
Print Assumptions C138_no_simulations_partial.
Example C138_no_simulations_case :
  let documents (f : string) : list (doc string nat) + exn nat := inl [] in
  let execute (f : string) (i : interp nat) : interp nat * (list (dict string string) + exn nat) := (i, inr (EOther 5)) in
  let run files := run_from_file "/home" (fun q => [q]) documents (String.eqb "b.py") execute 9 (fun s kw => inl s) (fun d => inl d)
    (fun s => s) files (Interp ["/lib"] []) in
  run ["a.yml"; "c.yml"] = ([], None) /\ run ["a.yml"; "b.py"; "c.yml"] = ([], Some (EOther 5)).
Proof. split; reflexivity. Qed.

Section Files.
(** A Python file with two simulations, one that fails, and a configuration. *)
Let glob (p : string) : list string := [p].
Let documents (f : string) : list (doc string nat) + exn nat :=
  if String.eqb f "c/conf.yml" then inl [Map [("name", "three")]] else inr (EOther 7).
Let is_py (f : string) := existsb (String.eqb f) ["a/ok.py"; "b/bad.py"; "b/value.py"].
Let execute (f : string) (i : interp nat) : interp nat * (list (dict string string) + exn nat) :=
  (i, if String.eqb f "a/ok.py" then inl [[("name", "one")]; [("name", "two")]]
      else if String.eqb f "b/value.py" then inr EValue else inr (EOther 5)).
Let replace (s kw : dict string string) : dict string string + exn nat := inl (dupdate s kw).
Let simulation (d : dict string string) : dict string string + exn nat := inl d.
Let load files := iter_from_file "/home" glob documents is_py execute 9 replace simulation (fun s => s) files [("seed", "s")]
  (Interp ["/lib"] [("os", 1)]).
Example C134_case :
  load ["a/ok.py"] = (Interp ["/lib"] [("os", 1)],
    ([[("name", "one"); ("seed", "s")]; [("name", "two"); ("seed", "s")]], None)) /\
  load ["c/conf.yml"] = (Interp ["/lib"; "c"] [("os", 1)],
    ([[("name", "three"); ("seed", "s"); ("dir_path", "/home/c")]], None)) /\
  load ["b/bad.py"] = (Interp ["/lib"; "b"] [("os", 1); ("imported_file", 9)], ([], Some (EOther 5))).
Proof. vm_compute. auto. Qed.
Example C137_case :
  snd (load ["a/ok.py"; "b/bad.py"; "c/conf.yml"]) =
    ([[("name", "one"); ("seed", "s")]; [("name", "two"); ("seed", "s")]], Some (EOther 5)) /\
  snd (load ["b/value.py"]) = ([], Some (EOther 7)).
Proof. vm_compute. auto. Qed.
Example C138_case :
  run_from_file "/home" glob documents is_py execute 9 replace simulation (fun s => s) ["a/ok.py"] (Interp ["/lib"] []) =
  ([], Some EAttribute).
Proof. reflexivity. Qed.
End Files.
