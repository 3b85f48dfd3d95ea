(** Where files are written: C114. *)
From Coq Require Import List Bool Arith ZArith String Lia.
From Verif Require Import PyDict ExportModel ExportSpec ExportProofs OutdirSpec OutdirProofs.
Import ListNotations.
Local Open Scope string_scope.
Local Open Scope list_scope.

(** C114.  Whatever the exporters are and wherever they fail: only files of the directory of the
    simulation (and of its backups) are created, changed or removed, and only directories
    that are needed for it are made. *)
Theorem C114_only_the_output_directory :
  forall clock stamp cwd yaml sql_config started started_iteration ended_iteration ended
    s dir exporters envs d p,
  directory_of cwd s dir ->
  let d' := fst (run clock stamp cwd yaml sql_config started started_iteration ended_iteration ended
                   s exporters envs d) in
  (~ output_file dir p -> contents d' p = contents d p) /\
  (~ needed dir p -> is_dir d' p = is_dir d p).
Proof.
  intros clock stamp cwd yaml sql st si ei en s dir exporters envs d p D d'.
  apply directory_is in D. subst dir.
  exact (confined_run clock stamp cwd yaml sql st si ei en s exporters envs d p).
Qed.
Print Assumptions C114_only_the_output_directory.

(** A run that writes files, makes a backup, and leaves another file alone. *)
Example C114_not_vacuous :
  let s := Sim "s" (Some "g") "s_1" None true false false true in
  let env := Env "0" (inl [("env", ("x", None))]) ("G", None) [] in
  let d := Disk [(["home"; "soil_output"; "g"; "s"; "0.gexf"], ("old", 5%Z));
                 (["home"; "soil_output"; "other"], ("kept", 6%Z))] [["home"; "soil_output"; "g"; "s"]] 0 in
  directory_of ["home"] s ["home"; "soil_output"; "g"; "s"] /\
  map (fun f => (fst f, fst (snd f)))
    (d_files (fst (run (fun _ => 7%Z) (fun _ => "t") ["home"] (inl "yaml") (inl "conf") "s" "i" "e" "e"
      s [Yaml; Gexf; Csv] [[env]] d))) =
  [(["home"; "soil_output"; "g"; "s"; "0.gexf"], "G");
   (["home"; "soil_output"; "other"], "kept");
   (["home"; "soil_output"; "g"; "s"; "s_1.dumped.yml"], "yaml");
   (["home"; "soil_output"; "g"; "s"; "backup"; "0.gexf@t"], "old");
   (["home"; "soil_output"; "g"; "s"; "0.env.csv"], "x")].
Proof.
  cbv zeta. split.
  - exists ["home"; "soil_output"], ["g"]. repeat split.
  - vm_compute. reflexivity.
Qed.
