(** Proofs about where files are written. *)
From Coq Require Import List Bool Arith ZArith String Lia.
From Verif Require Import PyDict ExportModel ExportSpec ExportProofs OutdirSpec.
Import ListNotations.
Local Open Scope string_scope.
Local Open Scope list_scope.

Section Confined.
Variable clock : nat -> Z.
Variable stamp : Z -> string.
Variable cwd : path.
Variables yaml sql_config : string + exn.
Variables started started_iteration ended_iteration ended : string.
Variable s : sim.
Notation dir := (out_dir cwd s).

(** Only the directory of the simulation changes. *)
Definition kept_outside (d d' : disk) : Prop :=
  forall p, (~ output_file dir p -> contents d' p = contents d p) /\
            (~ needed dir p -> is_dir d' p = is_dir d p).
Definition confined (a : action) : Prop := forall d, kept_outside d (fst (a d)).

Lemma ko_refl d : kept_outside d d.
Proof. split; auto. Qed.
Lemma ko_trans d1 d2 d3 : kept_outside d1 d2 -> kept_outside d2 d3 -> kept_outside d1 d3.
Proof.
  intros A B p. destruct (A p) as [A1 A2], (B p) as [B1 B2].
  split; intros N; [rewrite B1, A1|rewrite B2, A2]; auto.
Qed.

Lemma prefixes_in (p q : path) : In q (prefixes p) -> exists r, p = q ++ r.
Proof.
  revert q. induction p as [|x p IH]; intros q; cbn.
  - intros [<-|[]]. now exists [].
  - intros [<-|H]; [now exists (x :: p)|]. apply in_map_iff in H as (q' & <- & H).
    apply IH in H as (r & ->). now exists r.
Qed.

Lemma ko_make_dirs p d : (exists r, dir ++ ["backup"] = p ++ r) -> kept_outside d (make_dirs p d).
Proof.
  intros (r & E) q. split.
  - intros _. unfold contents. now rewrite (proj1 (make_dirs_files p d)).
  - intros N. unfold make_dirs. destruct (is_dir d p) eqn:D; [reflexivity|].
    unfold is_dir. cbn [d_dirs]. rewrite existsb_app.
    replace (existsb (eqb q) (prefixes p)) with false; [apply orb_false_r|].
    symmetry. apply not_true_is_false. intros X. apply existsb_exists in X as (q' & I & X).
    apply eqb_eq in X. subst q'. apply prefixes_in in I as (r' & ->). apply N.
    exists (r' ++ r). now rewrite E, app_assoc.
Qed.
Lemma ko_put p text d : output_file dir p -> kept_outside d (put clock p text d).
Proof.
  intros O q. split; [|reflexivity]. intros N. rewrite contents_put.
  destruct (eqb q p) eqn:E; [|reflexivity]. apply eqb_eq in E. subst. contradiction.
Qed.
Lemma ko_write p text d : output_file dir p -> kept_outside d (write clock p text d).
Proof. intros O. unfold write. destruct (contents d p); now apply ko_put. Qed.
Lemma ko_tick d : kept_outside d (tick d).
Proof. split; reflexivity. Qed.
Lemma dget_del_other {K V} `{Eqb K} (k k' : K) (l : dict K V) : k <> k' -> dget k (ddel k' l) = dget k l.
Proof.
  intros N. induction l as [|[k2 v2] l IH]; simpl; auto. destruct (eqb k' k2) eqn:E2.
  - apply eqb_eq in E2. subst. destruct (eqb k k2) eqn:E; auto. apply eqb_eq in E. contradiction.
  - simpl. now rewrite IH.
Qed.
Lemma ko_del p d : output_file dir p -> kept_outside d (Disk (ddel p (d_files d)) (d_dirs d) (d_ops d)).
Proof.
  intros O q. split; [|reflexivity]. intros N. unfold contents. cbn [d_files].
  rewrite dget_del_other; auto. intros ->. contradiction.
Qed.
Lemma of_file f : output_file dir (dir ++ [f]).
Proof. exists f. auto. Qed.
Lemma of_backup f t : output_file dir (backup_path stamp (dir ++ [f]) t).
Proof.
  unfold backup_path. rewrite dirname_snoc, basename_snoc. eexists. right. reflexivity.
Qed.
Lemma needed_dir : exists r, dir ++ ["backup"] = dir ++ r.
Proof. eauto. Qed.
Lemma ko_backup f remove d : kept_outside d (try_backup clock stamp (dir ++ [f]) remove d).
Proof.
  unfold try_backup. destruct (dget _ _) as [[text t]|]; [|apply ko_refl].
  rewrite dirname_snoc.
  eapply ko_trans; [apply ko_make_dirs, needed_dir|].
  eapply ko_trans; [apply (ko_make_dirs (dir ++ ["backup"])); exists []; now rewrite app_nil_r|].
  eapply ko_trans; [apply (ko_put (backup_path stamp (dir ++ [f]) t) text), of_backup|].
  destruct remove; [apply ko_del, of_file|apply ko_refl].
Qed.
Lemma ko_open f m backup d : kept_outside d (safe_open clock stamp (dir ++ [f]) m backup d).
Proof.
  unfold safe_open. rewrite dirname_snoc.
  eapply ko_trans; [apply ko_make_dirs, needed_dir|]. destruct m.
  - eapply ko_trans; [|apply ko_put, of_file]. destruct backup; [apply ko_backup|apply ko_refl].
  - destruct (contents _ _); [apply ko_refl|apply ko_put, of_file].
Qed.

Lemma confined_nothing : confined nothing.
Proof. intros d. apply ko_refl. Qed.
Lemma confined_raise x : confined (raise x).
Proof. intros d. apply ko_refl. Qed.
Lemma confined_andthen a b : confined a -> confined b -> confined (andthen a b).
Proof.
  intros A B d. unfold andthen. specialize (A d). destruct (a d) as [d1 [x|]]; simpl in *; auto.
  eapply ko_trans; [exact A|apply B].
Qed.
Lemma confined_all l : (forall a, In a l -> confined a) -> confined (all l).
Proof.
  induction l as [|a l IH]; simpl; intros H; [apply confined_nothing|apply confined_andthen; auto].
Qed.
Lemma confined_output dump f m b : confined (output clock stamp cwd s dump f m b).
Proof.
  intros d. unfold output. destruct dump; [|apply ko_refl]. cbn.
  eapply ko_trans; [apply ko_open|]. eapply ko_trans; [apply ko_write, of_file|apply ko_tick].
Qed.
Lemma confined_sql text : confined (to_sql clock (db_path cwd s) text).
Proof.
  intros d. unfold to_sql. destruct text as [text|x]; [|apply ko_refl].
  destruct (is_dir d _); [|apply ko_refl]. cbn.
  eapply ko_trans; [apply ko_write, of_file|apply ko_tick].
Qed.
Lemma confined_sqlite dump : confined (sqlite_start clock stamp cwd sql_config s dump).
Proof.
  unfold sqlite_start. destruct dump; [|apply confined_nothing]. intros d.
  eapply ko_trans; [|apply confined_sql].
  eapply ko_trans; [|destruct (s_overwrite s); [apply ko_del, of_file|apply ko_refl]].
  destruct (s_backup s); [apply ko_backup|apply ko_refl].
Qed.
Lemma confined_yaml dump : confined (yaml_start clock stamp cwd yaml s dump).
Proof. unfold yaml_start. destruct dump; [apply confined_output|apply confined_nothing]. Qed.

Fixpoint confined_start dump (x : exporter) {struct x} :
  confined (sim_start clock stamp cwd yaml sql_config started s dump x).
Proof.
  destruct x as [| | | | | | |[|y inner]]; cbn -[output]; try apply confined_nothing; try apply confined_output.
  - apply confined_sqlite.
  - apply confined_yaml.
  - apply confined_andthen; [apply confined_yaml|apply confined_sqlite].
  - apply confined_andthen; [apply confined_start|]. induction inner as [|z inner IH]; [apply confined_nothing|].
    apply confined_andthen; [apply confined_start|apply IH].
Qed.
Lemma confined_sqlite_end dump e : confined (sqlite_end clock cwd s dump e).
Proof.
  unfold sqlite_end. destruct dump; [|apply confined_nothing].
  apply confined_all. intros a H. apply in_map_iff in H as (r & <- & _). apply confined_sql.
Qed.
Fixpoint confined_iteration dump (e : env) (x : exporter) {struct x} :
  confined (iteration_end clock stamp cwd ended_iteration s dump e x).
Proof.
  destruct x as [| | | | | | |[|y inner]]; cbn -[output]; try apply confined_nothing; try apply confined_output.
  - apply confined_sqlite_end.
  - unfold csv_end. destruct (e_dfs e) as [dfs|x]; [|apply confined_raise].
    apply confined_all. intros a H. apply in_map_iff in H as (p & <- & _). apply confined_output.
  - unfold gexf_end. destruct dump; [apply confined_output|apply confined_nothing].
  - intros d. unfold drawing_end. destruct (contents d _); apply ko_refl.
  - unfold summary_end. destruct (e_dfs e); [apply confined_nothing|apply confined_raise].
  - apply confined_sqlite_end.
  - apply confined_andthen; [apply confined_iteration|]. induction inner as [|z inner IH]; [apply confined_nothing|].
    apply confined_andthen; [apply confined_iteration|apply IH].
Qed.
Fixpoint confined_end dump (x : exporter) {struct x} : confined (sim_end clock stamp cwd ended s dump x).
Proof.
  destruct x as [| | | | | | |inner]; cbn -[output]; try apply confined_nothing; try apply confined_output.
  induction inner as [|z inner IH]; [apply confined_nothing|].
  apply confined_andthen; [apply confined_end|apply IH].
Qed.
Lemma confined_run exporters envs :
  confined (run clock stamp cwd yaml sql_config started started_iteration ended_iteration ended s exporters envs).
Proof.
  unfold run.
  apply confined_all. intros a Ha. apply in_map_iff in Ha as (h & <- & _).
  apply confined_all. intros a Ha. apply in_map_iff in Ha as (x & <- & _).
  destruct h; cbn -[output sim_start iteration_end sim_end].
  - apply confined_start.
  - unfold iteration_start. destruct x; try apply confined_nothing; apply confined_output.
  - apply confined_iteration.
  - apply confined_end.
Qed.
Lemma directory_is : forall p, directory_of cwd s p -> p = dir.
Proof.
  intros p (base & group & -> & B & G). unfold out_dir.
  destruct (s_outdir s) as [[|b o]|]; subst base;
    (destruct (s_group s) as [[|c g]|]; subst group; reflexivity).
Qed.
End Confined.
