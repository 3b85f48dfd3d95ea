(** C132 and C133: reading the results of simulations back. *)
From Coq Require Import List Bool Arith String Ascii Lia.
From Verif Require Import PyDict PathModel PathSpec PathProofs.
Import ListNotations.
Local Open Scope string_scope.

(** C132 is false for every URL: whatever path is given, a file is opened; the text that is looked for never
    is in an absolute path. *)
Theorem C132_urls_are_files_refuted : forall cwd p, Forall proper cwd ->
  exists q, read_url (text_of cwd) (Some p) None = Url ("sqlite:///" ++ q) /\
  q = abspath (text_of cwd) p /\ forall dir, means dir q = means cwd p.
Proof.
  intros cwd p P. exists (abspath (text_of cwd) p). cbn [read_url].
  assert (C : contains "://" (abspath (text_of cwd) p) = false).
  { unfold abspath. destruct (isabs p) eqn:A; apply no_scheme_norm; auto. apply isabs_join, isabs_slash. }
  rewrite C. split; [reflexivity|]. split; [reflexivity|]. intros dir. now apply means_abspath.
Qed.
Print Assumptions C132_urls_are_files_refuted.
Example C132_url_case :
  read_url (text_of ["home"; "me"]) (Some "postgresql://host/db") None = Url "sqlite:////home/me/postgresql:/host/db" /\
  read_url (text_of ["home"; "me"]) (Some "sqlite:////tmp/a.sqlite") None = Url "sqlite:////home/me/sqlite:/tmp/a.sqlite" /\
  read_url (text_of ["home"; "me"]) (Some "../x/./a.sqlite") None = Url "sqlite:////home/x/a.sqlite".
Proof. vm_compute. auto. Qed.

(** C132: a path and a name, or nothing at all, is an error; an empty name is another one. *)
Theorem C132_one_argument_partial : forall cwd fpath name,
  read_url cwd fpath name = ValueError <->
  (fpath = None /\ name = None) \/ (exists p n, fpath = Some p /\ name = Some n).
Proof.
  intros cwd fpath name. destruct fpath as [p|], name as [n|]; cbn [read_url].
  - split; auto. intros _. right. eauto.
  - split; [discriminate|]. intros [[? ?]|(? & ? & ? & ?)]; discriminate.
  - split; [|intros [[? ?]|(? & ? & ? & ?)]; discriminate]. now destruct n.
  - split; auto.
Qed.
Print Assumptions C132_one_argument_partial.

(** C133: what a simulation without group writes to the default directory is found by its name, if the name
    is not empty. *)
Theorem C133_found_by_name_partial : forall cwd name, Forall proper cwd -> name <> "" ->
  exists q, read_url (text_of cwd) None (Some name) = Url ("sqlite:///" ++ q) /\ isabs q = true /\
  (forall dir, means dir q = means cwd (sqlite_path (text_of cwd) None None name)) /\
  (forall dir, means dir q = means cwd (sqlite_path (text_of cwd) (Some "soil_output") None name)).
Proof.
  intros cwd name P NE. set (p := joins "soil_output" [name; name ++ ".sqlite"]).
  exists (abspath (text_of cwd) p).
  assert (C : contains "://" (abspath (text_of cwd) p) = false).
  { unfold abspath. destruct (isabs p) eqn:A; apply no_scheme_norm; auto. apply isabs_join, isabs_slash. }
  split; [|split; [now apply means_abspath|]].
  { cbn [read_url]. destruct name as [|c n]; [easy|]. fold p. now rewrite C. }
  split; intros dir; destruct (means_abspath cwd p dir P) as [_ ->]; unfold p, sqlite_path, joins; cbn [fold_left];
    rewrite !means_join; rewrite ?means_text by auto; reflexivity.
Qed.
Print Assumptions C133_found_by_name_partial.
Example C133_found_case :
  read_url (text_of ["home"]) None (Some "sim") = Url "sqlite:////home/soil_output/sim/sim.sqlite" /\
  sqlite_path (text_of ["home"]) None None "sim" = "/home/soil_output/sim/sim.sqlite".
Proof. vm_compute. auto. Qed.

(** C133 is false for simulations in a group, whatever the names are. *)
Theorem C133_group_not_found_refuted : forall cwd name group,
  Forall proper cwd -> proper name -> proper group ->
  forall u, read_url (text_of cwd) None (Some name) = Url ("sqlite:///" ++ u) ->
  forall dir, means dir u <> means cwd (sqlite_path (text_of cwd) None (Some group) name).
Proof.
  intros cwd name group PC PN PG u U dir.
  assert (NE : name <> "") by apply PN.
  destruct (C133_found_by_name_partial cwd name PC NE) as (q & E & _ & M & _).
  rewrite E in U. injection U as ->. rewrite M. unfold sqlite_path, joins. cbn [fold_left].
  rewrite !means_join. rewrite means_text by auto.
  assert (W : forall n d, proper n -> means d n = (d ++ [n])%list).
  { intros n d PX. pose proof (noslash_proper n PX) as NS. destruct PX as (A & B & C & D).
    rewrite means_rel.
    - rewrite NS. cbn [fold_left]. unfold walk1. apply String.eqb_neq in A, B, C. now rewrite A, B, C.
    - destruct (isabs n) eqn:X; auto. exfalso. destruct (isabs_head n X) as (r & ->). apply D. now exists "", r. }
  assert (PS : proper (name ++ ".sqlite")).
  { destruct PN as (A & B & C & D). destruct name as [|c n]; [easy|]. split; [easy|].
    assert (L : 7 < String.length (String c n ++ ".sqlite")) by (cbn; clear; induction n; cbn; lia).
    split; [intros X; rewrite X in L; cbn in L; lia|]. split; [intros X; rewrite X in L; cbn in L; lia|].
    intros (a & b & X). apply (f_equal split) in X. rewrite split_app in X.
    assert (NS : split (String c n ++ ".sqlite") = [String c n ++ ".sqlite"]).
    { pose proof (noslash_proper (String c n) (conj A (conj B (conj C D)))) as N. unfold noslash in N.
      clear - N. revert N. generalize (String c n) as s. intros s. induction s as [|d s IH]; intros N; [reflexivity|].
      cbn [split append] in *. destruct (Ascii.eqb d slash).
      - injection N as N. discriminate.
      - pose proof (split_ne s). destruct (split s) as [|p [|? ?]]; [easy| |discriminate].
        injection N as ->. now rewrite IH. }
    rewrite NS in X. pose proof (split_ne a). pose proof (split_ne b). destruct (split a); [easy|]. destruct (split b); [easy|].
    apply (f_equal (@List.length string)) in X. rewrite app_length in X. cbn in X. lia. }
  rewrite ?(W name), ?(W (name ++ ".sqlite")), ?(W group) by auto. rewrite ?(W name), ?(W (name ++ ".sqlite")) by auto.
  change (means (means cwd "soil_output") "") with (means cwd "soil_output").
  intros X. apply (f_equal (@List.length string)) in X. rewrite !app_length in X. cbn [List.length] in X. lia.
Qed.
Print Assumptions C133_group_not_found_refuted.
Example C133_group_case :
  sqlite_path (text_of ["home"]) None (Some "g") "sim" = "/home/soil_output/g/sim/sim.sqlite" /\ proper "sim" /\ proper "g".
Proof.
  split; [reflexivity|]. split; apply proper_noslash; easy.
Qed.
