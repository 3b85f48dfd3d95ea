(** C141 and C142: the names and the source files of simulations. *)
From Coq Require Import List Bool Arith String Ascii ZArith Lia.
From Verif Require Import PyDict PathModel PathSpec PathProofs InitModel.
Import ListNotations.
Local Open Scope string_scope.

(** C141: a simulation is called as it is asked for, or after its model; its identifier starts with the name. *)
Theorem C141_name_of_the_model_partial : forall C class_name deserialize cwd now (f : fields C) s,
  post_init class_name deserialize cwd now f = Some s ->
  match f_name f, f_model f with
  | Some n, _ => s_name s = n
  | None, MText t => s_name s = t
  | None, MClass c => s_name s = class_name c /\ s_model s = c
  end /\ s_id s = (s_name s, now).
Proof.
  intros C class_name deserialize cwd now [n m p d] s E. unfold post_init in E. cbn [f_name f_model f_source f_dir] in *.
  destruct m as [t|c].
  - match type of E with match ?X with _ => _ end = _ => destruct X; [|discriminate] end.
    injection E as <-. destruct n; auto.
  - injection E as <-. destruct n; auto.
Qed.
Print Assumptions C141_name_of_the_model_partial.

(** C141 is false for copies: a copy with another model keeps the name of the old one, so that its results go
    where those of the old one went. *)
Theorem C141_copy_keeps_the_name_refuted : forall C class_name deserialize cwd now now2 (f : fields C) c c2 s s2 p dir,
  f_name f = None -> f_model f = MClass c ->
  post_init class_name deserialize cwd now f = Some s ->
  replace class_name deserialize cwd now2 (Changes None (Some (MClass c2)) None None) s = Some s2 ->
  s_model s2 = c2 /\ s_name s2 = class_name c /\
  sqlite_path p (Some dir) None (s_name s2) = sqlite_path p (Some dir) None (s_name s).
Proof.
  intros C class_name deserialize cwd now now2 f c c2 s s2 p dir FN FM E E2. unfold post_init in E. rewrite FN, FM in E.
  injection E as <-. unfold replace, post_init in E2. cbn in E2. injection E2 as <-. auto.
Qed.
Print Assumptions C141_copy_keeps_the_name_refuted.
Example C141_case :
  let f := Fields None (MClass 1) (Some "lib/a.py") "work" in
  let s := Sim "m1" 1 (Some "/home/work/lib/a.py") "work" ("m1", 5%Z) in
  let name := fun c => if Nat.eqb c 1 then "m1" else "m2" in
  post_init name (fun _ _ => None) "/home" 5 f = Some s /\
  replace name (fun _ _ => None) "/" 7 (Changes None (Some (MClass 2)) None None) s =
    Some (Sim "m1" 2 (Some "/home/work/lib/a.py") "work" ("m1", 7%Z)).
Proof. vm_compute. auto. Qed.

(** C141 is false: two simulations of the same name that are made at the same instant of the clock have the same
    identifier. *)
Theorem C141_same_identifier_refuted : forall C class_name deserialize cwd now (f f2 : fields C) s s2 n,
  f_name f = Some n -> f_name f2 = Some n ->
  post_init class_name deserialize cwd now f = Some s -> post_init class_name deserialize cwd now f2 = Some s2 ->
  s_id s = s_id s2.
Proof.
  intros C class_name deserialize cwd now f f2 s s2 n N N2 E E2.
  apply C141_name_of_the_model_partial in E as [A B]. apply C141_name_of_the_model_partial in E2 as [A2 B2].
  rewrite N in A. rewrite N2 in A2. congruence.
Qed.
Print Assumptions C141_same_identifier_refuted.

(** C142: a source file is looked for in the directory of the simulation, and copies look in the same place even
    if the current directory or the directory of the simulation has changed. *)
Theorem C142_source_file : forall C class_name deserialize cwd now (f : fields C) s p,
  Forall proper cwd -> post_init class_name deserialize (text_of cwd) now f = Some s ->
  f_source f = Some p -> p <> "" ->
  exists q, s_source s = Some q /\ isabs q = true /\
  (forall dir, means dir q = means (means cwd (f_dir f)) p) /\
  forall cwd2 now2 d m s2, replace class_name deserialize cwd2 now2 (Changes None m None d) s = Some s2 ->
  s_source s2 = Some q.
Proof.
  intros C class_name deserialize cwd now f s p P E FS NE. unfold post_init in E. rewrite FS in E.
  destruct p as [|ch p]; [easy|]. set (t := String ch p) in *.
  set (q := if isabs t then t else abspath (text_of cwd) (join (f_dir f) t)).
  assert (SQ : s_source s = Some q).
  { unfold q. destruct (isabs t); destruct (match f_model f with MText _ => _ | MClass _ => _ end); try discriminate;
      injection E as <-; reflexivity. }
  assert (AQ : isabs q = true).
  { unfold q. destruct (isabs t) eqn:A; auto. now apply means_abspath. }
  exists q. split; auto. split; auto. split.
  - intros dir. unfold q. destruct (isabs t) eqn:A; [now rewrite !means_abs by auto|].
    destruct (means_abspath cwd (join (f_dir f) t) dir P) as [_ ->]. now rewrite means_join.
  - intros cwd2 now2 d m s2 R. unfold replace, post_init in R. cbn [c_name c_model c_source c_dir or f_name f_model f_source f_dir] in R.
    rewrite SQ in R. destruct (isabs_head q AQ) as (r & Q). rewrite Q in *. rewrite AQ in R.
    destruct (match or m _ with MText _ => _ | MClass _ => _ end); [|discriminate]. now injection R as <-.
Qed.
Print Assumptions C142_source_file.
Example C142_case :
  means [] "/home/work/lib/a.py" = means (means ["home"] "work") "lib/a.py".
Proof. reflexivity. Qed.

(** C142: a simulation without a source file, or whose source file is the empty text, keeps it as it is, and so do its
    copies; classes are then looked for with just that. *)
Theorem C142_no_source_file : forall C class_name deserialize cwd now (f : fields C) s,
  post_init class_name deserialize cwd now f = Some s -> f_source f = None \/ f_source f = Some "" ->
  s_source s = f_source f /\
  (forall t, f_model f = MText t -> deserialize (f_source f) t = Some (s_model s)) /\
  forall cwd2 now2 n d m s2, replace class_name deserialize cwd2 now2 (Changes n m None d) s = Some s2 ->
  s_source s2 = f_source f.
Proof.
  intros C class_name deserialize cwd now f s E FS.
  assert (SS : s_source s = f_source f /\ forall t, f_model f = MText t -> deserialize (f_source f) t = Some (s_model s)).
  { unfold post_init in E. destruct FS as [FS|FS]; rewrite FS in *; destruct (f_model f) as [t|c];
      try (destruct (deserialize _ t) eqn:D; [|discriminate]); injection E as <-; (split; [reflexivity|]);
      intros t' T; try discriminate; injection T as <-; exact D. }
  destruct SS as [SS T]. split; auto. split; auto.
  intros cwd2 now2 n d m s2 R. unfold replace, post_init in R.
  cbn [c_name c_model c_source c_dir or f_name f_model f_source f_dir] in R. rewrite SS in R.
  destruct FS as [FS|FS]; rewrite FS in *; destruct (match or m _ with MText _ => _ | MClass _ => _ end); try discriminate;
    now injection R as <-.
Qed.
Print Assumptions C142_no_source_file.
Example C142_no_source_file_case :
  let des (src : option string) (t : string) := match src with None => Some t | Some _ => None end in
  option_map s_source (post_init (fun c => c) des "/home" 5%Z (Fields None (MText "soil.Environment") None "work")) = Some None /\
  post_init (fun c => c) des "/home" 5%Z (Fields None (MText "soil.Environment") (Some "") "work") = None.
Proof. split; reflexivity. Qed.
