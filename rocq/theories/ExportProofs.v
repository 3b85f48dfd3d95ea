(** Proofs about files and exporters. *)
From Coq Require Import List Bool Arith ZArith String Lia.
From Verif Require Import PyDict ExportModel ExportSpec.
Import ListNotations.
Local Open Scope string_scope.
Local Open Scope list_scope.

(** Strings. *)
Lemma sapp_assoc (a b c : string) : ((a ++ b) ++ c)%string = (a ++ (b ++ c))%string.
Proof. induction a; simpl; congruence. Qed.
Lemma sapp_nil (a : string) : (a ++ "")%string = a.
Proof. induction a; simpl; congruence. Qed.
Lemma sapp_length (a b : string) : String.length (a ++ b)%string = String.length a + String.length b.
Proof. induction a; simpl; congruence. Qed.
Lemma sapp_inj (a : string) : forall b s t, String.length s = String.length t ->
  (a ++ s)%string = (b ++ t)%string -> a = b /\ s = t.
Proof.
  induction a as [|x a IH]; intros [|y b] s t L E; simpl in *.
  - auto.
  - subst s. simpl in L. rewrite sapp_length in L. lia.
  - subst t. simpl in L. rewrite sapp_length in L. lia.
  - injection E as -> E. destruct (IH b s t L E) as [-> ->]. auto.
Qed.

(** Paths. *)
Lemma split_path (p : path) : p <> [] -> p = dirname p ++ [basename p].
Proof. intros N. unfold dirname, basename. now apply app_removelast_last. Qed.
Lemma dirname_snoc (p : path) x : dirname (p ++ [x]) = p.
Proof. unfold dirname. apply removelast_last. Qed.
Lemma basename_snoc (p : path) x : basename (p ++ [x]) = x.
Proof. unfold basename. apply last_last. Qed.

Lemma contents_put clock p q text d :
  contents (put clock p text d) q = if eqb q p then Some text else contents d q.
Proof. unfold contents, put. simpl. rewrite dget_set. destruct (eqb q p); reflexivity. Qed.

(** No dump. *)
Section Quiet.
Variable clock : nat -> Z.
Variable stamp : Z -> string.
Variable cwd : path.
Variables yaml sql_config : string + exn.
Variables started started_iteration ended_iteration ended : string.

(** The disk is as before. *)
Definition quiet (a : action) : Prop := forall d, fst (a d) = d.
Lemma quiet_nothing : quiet nothing.
Proof. intros d. reflexivity. Qed.
Lemma quiet_andthen a b : quiet a -> quiet b -> quiet (andthen a b).
Proof.
  intros A B d. unfold andthen. specialize (A d). destruct (a d) as [d1 [x|]]; simpl in *; subst; auto.
Qed.
Lemma quiet_all l : (forall a, In a l -> quiet a) -> quiet (all l).
Proof.
  induction l as [|a l IH]; simpl; intros H.
  - apply quiet_nothing.
  - apply quiet_andthen; auto.
Qed.
Lemma quiet_output s f m b : quiet (output clock stamp cwd s false f m b).
Proof. intros d. reflexivity. Qed.

Fixpoint quiet_start (s : sim) (x : exporter) {struct x} :
  quiet (sim_start clock stamp cwd yaml sql_config started s false x).
Proof.
  destruct x as [| | | | | | |[|y inner]]; simpl; try apply quiet_nothing; try apply quiet_output.
  apply quiet_andthen; [apply quiet_start|]. induction inner as [|z inner IH]; simpl; [apply quiet_nothing|].
    apply quiet_andthen; [apply quiet_start|apply IH].
Qed.
Fixpoint quiet_iteration (s : sim) (e : env) (x : exporter) {struct x} :
  quiet (iteration_end clock stamp cwd ended_iteration s false e x).
Proof.
  destruct x as [| | | | | | |[|y inner]]; simpl; try apply quiet_nothing; try apply quiet_output.
  - unfold csv_end. destruct (e_dfs e) as [dfs|x]; [|intros d; reflexivity].
    apply quiet_all. intros a H. apply in_map_iff in H. destruct H as (p & <- & _). apply quiet_output.
  - intros d. unfold drawing_end. destruct (contents d _); reflexivity.
  - unfold summary_end. destruct (e_dfs e); intros d; reflexivity.
  - apply quiet_andthen; [apply quiet_iteration|]. induction inner as [|z inner IH]; simpl; [apply quiet_nothing|].
    apply quiet_andthen; [apply quiet_iteration|apply IH].
Qed.
Fixpoint quiet_end (s : sim) (x : exporter) {struct x} : quiet (sim_end clock stamp cwd ended s false x).
Proof.
  destruct x as [| | | | | | |inner]; simpl; try apply quiet_nothing; try apply quiet_output.
  induction inner as [|z inner IH]; simpl; [apply quiet_nothing|].
  apply quiet_andthen; [apply quiet_end|apply IH].
Qed.
Lemma quiet_run s exporters envs : s_dump s = false \/ s_dry_run s = true ->
  quiet (run clock stamp cwd yaml sql_config started started_iteration ended_iteration ended s exporters envs).
Proof.
  intros H. unfold run.
  assert (s_dump s && negb (s_dry_run s) = false) as ->.
  { destruct H as [-> | ->]; auto. apply andb_false_r. }
  apply quiet_all. intros a Ha. apply in_map_iff in Ha. destruct Ha as (h & <- & _).
  apply quiet_all. intros a Ha. apply in_map_iff in Ha. destruct Ha as (x & <- & _).
  destruct h; simpl.
  - apply quiet_start.
  - unfold iteration_start. destruct x; try apply quiet_nothing.
  - apply quiet_iteration.
  - apply quiet_end.
Qed.
End Quiet.

(** Backups. *)
Section Backup.
Variable clock : nat -> Z.
Variable stamp : Z -> string.
Hypothesis same_length : forall t t', String.length (stamp t) = String.length (stamp t').
Notation perform := (perform clock stamp).
Notation backup_path := (backup_path stamp).

Lemma backup_inj p p' t t' : p <> [] -> p' <> [] -> backup_path p t = backup_path p' t' ->
  p = p' /\ stamp t = stamp t'.
Proof.
  unfold ExportModel.backup_path. intros N N' E.
  rewrite (split_path p N), (split_path p' N').
  change (dirname p ++ ["backup"; (basename p ++ "@" ++ stamp t)%string])
    with (dirname p ++ ["backup"] ++ [(basename p ++ "@" ++ stamp t)%string]) in E.
  change (dirname p' ++ ["backup"; (basename p' ++ "@" ++ stamp t')%string])
    with (dirname p' ++ ["backup"] ++ [(basename p' ++ "@" ++ stamp t')%string]) in E.
  rewrite !app_assoc in E. apply app_inj_tail in E. destruct E as [E1 E2].
  apply app_inj_tail in E1. destruct E1 as [E1 _]. rewrite E1.
  apply sapp_inj in E2.
  - destruct E2 as [E2 E3]. simpl in E3. injection E3 as E3. rewrite E2. auto.
  - simpl. f_equal. apply same_length.
Qed.
Lemma backup_not_proper p t : ~ proper_path (backup_path p t).
Proof.
  unfold proper_path, ExportModel.backup_path. intros [_ H]. apply H.
  change (dirname p ++ ["backup"; (basename p ++ "@" ++ stamp t)%string])
    with (dirname p ++ ["backup"] ++ [(basename p ++ "@" ++ stamp t)%string]).
  rewrite app_assoc, dirname_snoc, basename_snoc. reflexivity.
Qed.

(** The files after a step. *)
Lemma make_dirs_files p d : d_files (make_dirs p d) = d_files d /\ d_ops (make_dirs p d) = d_ops d.
Proof. unfold make_dirs. destruct (is_dir d p); auto. Qed.

(** What a step does to files: a backup, if there is something to keep; the target has the
    time of the step. *)
Definition saved (s : step) (d : disk) : option (path * string) :=
  match s with
  | SOpen p Append _ => None
  | SOpen p Write _ | SMove p _ =>
      match dget p (d_files d) with Some (v, t) => Some (backup_path p t, v) | None => None end
  end.
Definition now_has (s : step) (d : disk) : string :=
  match s with
  | SOpen p Append text => match contents d p with Some v => (v ++ text)%string | None => text end
  | SOpen p Write text | SMove p text => text
  end.
Lemma perform_files s d : proper_path (target s) -> dwf (d_files d) ->
  d_ops (perform s d) = S (d_ops d) /\ dwf (d_files (perform s d))
  /\ forall q, dget q (d_files (perform s d)) =
       if eqb q (target s) then Some (now_has s d, clock (d_ops d))
       else match saved s d with
            | Some (q', v) => if eqb q q' then Some (v, clock (d_ops d)) else dget q (d_files d)
            | None => dget q (d_files d)
            end.
Proof.
  intros P W.
  assert (BN : forall p t, proper_path p -> eqb p (backup_path p t) = false).
  { intros p t Pp. apply eqb_neq. intros E. apply (backup_not_proper p t). now rewrite <- E. }
  destruct s as [p m text|p text]; simpl target in *.
  - unfold ExportSpec.perform, open_or_reuse, safe_open. simpl fst.
    destruct (make_dirs_files (dirname p) d) as [F1 F2].
    destruct m.
    + unfold try_backup. rewrite F1. simpl saved. simpl now_has.
      destruct (dget p (d_files d)) as [[v t]|] eqn:E.
      * destruct (make_dirs_files (dirname p) (make_dirs (dirname p) d)) as [G1 G2].
        destruct (make_dirs_files (dirname p ++ ["backup"]) (make_dirs (dirname p) (make_dirs (dirname p) d))) as [H1 H2].
        unfold write. rewrite contents_put, eqb_refl. unfold put. simpl.
        rewrite H1, H2, G1, G2, F1, F2. split; auto. split.
        { repeat apply dset_wf. auto. }
        intros q. rewrite !dget_set. destruct (eqb q p); auto.
      * unfold write. rewrite contents_put, eqb_refl. unfold put. simpl. rewrite F1, F2. split; auto. split.
        { repeat apply dset_wf. auto. }
        intros q. rewrite !dget_set. destruct (eqb q p); auto.
    + simpl saved. simpl now_has. unfold contents. rewrite F1.
      destruct (dget p (d_files d)) as [[v t]|] eqn:E; simpl.
      * unfold write, contents. rewrite F1, E. unfold put. simpl. rewrite F1, F2. split; auto. split.
        { apply dset_wf. auto. }
        intros q. rewrite dget_set. destruct (eqb q p); auto.
      * unfold write. rewrite contents_put, eqb_refl. unfold put. simpl. rewrite F1, F2. split; auto. split.
        { repeat apply dset_wf. auto. }
        intros q. rewrite !dget_set. destruct (eqb q p); auto.
  - unfold ExportSpec.perform, try_backup. simpl saved. simpl now_has.
    destruct (dget p (d_files d)) as [[v t]|] eqn:E.
    + destruct (make_dirs_files (dirname p) d) as [F1 F2].
      destruct (make_dirs_files (dirname p ++ ["backup"]) (make_dirs (dirname p) d)) as [H1 H2].
      unfold write, contents. simpl. rewrite H1, H2, F1, F2.
      assert (dwf (dset (backup_path p t) (v, clock (d_ops d)) (d_files d))) as W'.
      { apply dset_wf. auto. }
      rewrite dget_del by auto. rewrite eqb_refl. simpl.
      split; auto. split.
      { apply dset_wf. apply ddel_wf. auto. }
      intros q. rewrite dget_set. destruct (eqb q p) eqn:Eq; auto.
      rewrite dget_del by auto. rewrite Eq, dget_set. reflexivity.
    + unfold write, contents. rewrite E. simpl. split; auto. split.
      { apply dset_wf. auto. }
      intros q. rewrite dget_set. destruct (eqb q p); auto.
Qed.

(** The invariant after the first [n] steps of [l]. *)
Definition written (l : list step) (n : nat) (p : path) (t : Z) (k : nat) : Prop :=
  k < n /\ t = clock k /\ exists s, nth_error l k = Some s /\ target s = p.
Definition inv (l : list step) (n : nat) (d : disk) : Prop :=
  d_ops d = n /\ dwf (d_files d)
  /\ (forall p v t, proper_path p -> dget p (d_files d) = Some (v, t) -> exists k, written l n p t k)
  /\ (forall q v t, ~ proper_path q -> dget q (d_files d) = Some (v, t) ->
       exists p k, proper_path p /\ q = backup_path p (clock k) /\ written l n p (clock k) k
       /\ forall v' t', dget p (d_files d) = Some (v', t') -> exists k', k < k' /\ written l n p t' k').
Lemma proper_dec (p : path) : proper_path p \/ ~ proper_path p.
Proof.
  unfold proper_path. destruct p as [|x p]; [right; intros [H _]; auto|].
  destruct (string_dec (basename (dirname (x :: p))) "backup") as [E|E].
  - right. intros [_ H]. auto.
  - left. split; auto. discriminate.
Qed.
Lemma written_later l n p t k : written l n p t k -> written l (S n) p t k.
Proof. intros (A & B & C). split; auto. Qed.
Lemma inv_step l n d s : apart clock stamp l -> nth_error l n = Some s -> proper_path (target s) ->
  inv l n d ->
  inv l (S n) (perform s d)
  /\ forall q v, contents d q = Some v -> kept v (perform s d).
Proof.
  intros A Es P (I1 & I2 & I3 & I4).
  destruct (perform_files s d P I2) as (Ho & Hw & Hg).
  assert (written l (S n) (target s) (clock n) n) as Wn. { split; [lia|]. split; auto. now exists s. }
  (* what is saved was not saved before *)
  assert (fresh : forall q' v, saved s d = Some (q', v) ->
    exists t k, dget (target s) (d_files d) = Some (v, t) /\ q' = backup_path (target s) t
      /\ written l n (target s) t k /\ ~ proper_path q' /\ dget q' (d_files d) = None).
  { intros q' v E.
    assert (exists t, dget (target s) (d_files d) = Some (v, t) /\ q' = backup_path (target s) t) as (t & Et & ->).
    { destruct s as [p m text|p text]; simpl in *.
      - destruct m; [|discriminate]. destruct (dget p (d_files d)) as [[v' t]|]; [|discriminate].
        injection E as <- <-. eauto.
      - destruct (dget p (d_files d)) as [[v' t]|]; [|discriminate]. injection E as <- <-. eauto. }
    destruct (I3 _ _ _ P Et) as (k & Wk). exists t, k. split; auto. split; auto. split; auto.
    split; [apply backup_not_proper|].
    destruct (dget (backup_path (target s) t) (d_files d)) as [[v2 t2]|] eqn:E2; auto. exfalso.
    destruct (I4 _ _ _ (backup_not_proper _ _) E2) as (p2 & k2 & Pp & Eq & (L2 & _ & s2 & Es2 & Ts2) & Later).
    apply backup_inj in Eq; [|apply P|apply Pp]. destruct Eq as [<- St].
    destruct (Later _ _ Et) as (k' & Lk & Wk'). destruct Wk as (Lk0 & -> & s0 & Es0 & Ts0).
    destruct Wk' as (Lk' & Ek' & s' & Es' & Ts').
    assert (k2 = k'). { apply (A k2 k' s2 s'); auto; [congruence|]. rewrite <- Ek'. congruence. }
    lia. }
  split.
  - split; [lia|]. split; auto. split.
    + intros p v t Pp. rewrite Hg. destruct (eqb p (target s)) eqn:Ep.
      * apply eqb_eq in Ep. subst p. intros E. injection E as _ <-. rewrite I1. now exists n.
      * intros E. assert (dget p (d_files d) = Some (v, t)) as E'.
        { destruct (saved s d) as [[q' v']|] eqn:Sv; auto. destruct (eqb p q') eqn:Eq; auto.
          apply eqb_eq in Eq. subst. destruct (fresh _ _ eq_refl) as (t' & k & _ & _ & _ & N & _). contradiction. }
        destruct (I3 _ _ _ Pp E') as (k & Wk). exists k. now apply written_later.
    + intros q v t Nq E. rewrite Hg in E.
      assert (eqb q (target s) = false) as Ne. { apply eqb_neq. intros ->. contradiction. }
      rewrite Ne in E.
      assert (old : dget q (d_files d) = Some (v, t) ->
        exists p k, proper_path p /\ q = backup_path p (clock k) /\ written l (S n) p (clock k) k
        /\ forall v' t', dget p (d_files (perform s d)) = Some (v', t') -> exists k', k < k' /\ written l (S n) p t' k').
      { intros E0. destruct (I4 _ _ _ Nq E0) as (p & k & Pp & -> & Wk & Later).
        exists p, k. split; auto. split; auto. split; [now apply written_later|].
        intros v' t'. rewrite Hg. destruct (eqb p (target s)) eqn:Ep.
        - apply eqb_eq in Ep. subst p. intros E1. injection E1 as _ <-. exists n. split; [|now rewrite I1].
          destruct Wk as (L & _). auto.
        - intros E1. assert (dget p (d_files d) = Some (v', t')) as E'.
          { destruct (saved s d) as [[q' v2]|] eqn:Sv; auto. destruct (eqb p q') eqn:Eq; auto.
            apply eqb_eq in Eq. subst. destruct (fresh _ _ eq_refl) as (t2 & k2 & _ & _ & _ & N & _). contradiction. }
          destruct (Later _ _ E') as (k' & Lk & Wk'). exists k'. split; auto. now apply written_later. }
      destruct (saved s d) as [[q' v2]|] eqn:Sv; auto.
      destruct (eqb q q') eqn:Eq; auto. apply eqb_eq in Eq. subst q'.
      destruct (fresh _ _ eq_refl) as (t2 & k2 & Et & -> & Wk & N & _).
      destruct Wk as (L & -> & s2 & Es2 & Ts2).
      exists (target s), k2. split; auto. split; auto. split.
      { apply written_later. split; auto. split; auto. now exists s2. }
      intros v' t'. rewrite Hg, eqb_refl. intros E1. injection E1 as _ <-. exists n. rewrite I1. auto.
  - intros q v Eq. unfold contents in Eq. destruct (dget q (d_files d)) as [[v' t]|] eqn:E; [|discriminate].
    injection Eq as ->. unfold kept.
    destruct (eqb q (target s)) eqn:Ep.
    + apply eqb_eq in Ep. subst q.
      assert ((exists q', saved s d = Some (q', v)) \/ (exists w, now_has s d = (v ++ w)%string)) as [[q' Sv]|[w Nh]].
      { destruct s as [p m text|p text]; simpl in *.
        - destruct m.
          + left. rewrite E. eauto.
          + right. unfold contents. rewrite E. simpl. eauto.
        - left. rewrite E. eauto. }
      * exists q', "". unfold contents. rewrite Hg, Sv, eqb_refl, sapp_nil.
        destruct (fresh _ _ Sv) as (t' & k & _ & _ & _ & N & _).
        assert (eqb q' (target s) = false) as ->. { apply eqb_neq. intros ->. contradiction. } reflexivity.
      * exists (target s), w. unfold contents. rewrite Hg, eqb_refl. simpl. now rewrite Nh.
    + exists q, "". unfold contents. rewrite Hg, Ep, sapp_nil.
      destruct (saved s d) as [[q' v2]|] eqn:Sv; [|now rewrite E].
      destruct (eqb q q') eqn:Eq'; [|now rewrite E]. apply eqb_eq in Eq'. subst q'.
      destruct (fresh _ _ eq_refl) as (t' & k & _ & _ & _ & _ & N). congruence.
Qed.
Lemma kept_step l n d s v : apart clock stamp l -> nth_error l n = Some s -> proper_path (target s) ->
  inv l n d -> kept v d -> kept v (perform s d).
Proof.
  intros A Es P I (q & w & E). destruct (inv_step l n d s A Es P I) as [_ K].
  destruct (K _ _ E) as (q' & w' & E'). exists q', (w ++ w')%string. now rewrite <- sapp_assoc.
Qed.
Lemma performs_app l1 l2 d : performs clock stamp (l1 ++ l2) d = performs clock stamp l2 (performs clock stamp l1 d).
Proof. unfold performs. apply fold_left_app. Qed.
Lemma inv_all l : apart clock stamp l -> (forall s, In s l -> proper_path (target s)) ->
  forall l1 l2, l = l1 ++ l2 -> inv l (List.length l1) (performs clock stamp l1 empty).
Proof.
  intros A P l1. induction l1 as [|s l1 IH] using rev_ind; intros l2 E.
  - simpl. split; auto. split; [constructor|]. split; intros; discriminate.
  - rewrite performs_app. simpl. rewrite app_length, Nat.add_1_r.
    assert (nth_error l (List.length l1) = Some s) as Es.
    { rewrite E, <- app_assoc. rewrite nth_error_app2 by lia. now rewrite Nat.sub_diag. }
    apply inv_step; auto.
    + apply P. eapply nth_error_In; eauto.
    + eapply IH. rewrite E, <- app_assoc. reflexivity.
Qed.
Lemma nothing_lost l1 l2 v : apart clock stamp (l1 ++ l2) ->
  (forall s, In s (l1 ++ l2) -> proper_path (target s)) ->
  (exists q, contents (performs clock stamp l1 empty) q = Some v) ->
  kept v (performs clock stamp (l1 ++ l2) empty).
Proof.
  intros A P [q E].
  assert (kept v (performs clock stamp l1 empty)) as K. { exists q, "". now rewrite sapp_nil. }
  clear q E. revert A P. induction l2 as [|s l2 IH] using rev_ind; intros A P.
  - now rewrite app_nil_r.
  - rewrite app_assoc, performs_app. simpl.
    assert (A' : apart clock stamp (l1 ++ l2)).
    { intros i j a b Ei Ej. apply (A i j a b).
      - rewrite app_assoc, nth_error_app1; auto. apply nth_error_Some. congruence.
      - rewrite app_assoc, nth_error_app1; auto. apply nth_error_Some. congruence. }
    assert (Es : nth_error (l1 ++ l2 ++ [s]) (List.length (l1 ++ l2)) = Some s).
    { rewrite app_assoc, nth_error_app2 by lia. now rewrite Nat.sub_diag. }
    apply (kept_step (l1 ++ l2 ++ [s]) (List.length (l1 ++ l2))); auto.
    + apply P. eapply nth_error_In; eauto.
    + apply (inv_all (l1 ++ l2 ++ [s]) A P (l1 ++ l2) [s]). now rewrite app_assoc.
    + apply IH; auto. intros s' H. apply P. rewrite app_assoc. apply in_app_iff. now left.
Qed.
End Backup.
