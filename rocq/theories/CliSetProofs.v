(** Proofs about [--set]. *)
From Coq Require Import List Bool String Ascii.
From Verif Require Import PyDict CliSetModel CliSetSpec.
Import ListNotations.
Local Open Scope string_scope.
Local Open Scope list_scope.

Lemma split_first_at c a b : lacks c a ->
  split_first c (a ++ String c b)%string = Some (a, b).
Proof.
  induction a as [|x a IH]; cbn; intros H.
  - now rewrite Ascii.eqb_refl.
  - destruct H as [N H]. destruct (Ascii.eqb_spec x c); [contradiction|]. now rewrite IH.
Qed.

Lemma split_last_none c a : lacks c a -> split_last c a = None.
Proof.
  induction a as [|x a IH]; cbn; auto. intros [N H]. rewrite IH by auto.
  destruct (Ascii.eqb_spec x c); [contradiction|]. reflexivity.
Qed.

Lemma split_last_at c a b : lacks c b -> split_last c (a ++ String c b)%string = Some (a, b).
Proof.
  induction a as [|x a IH]; cbn; intros H.
  - rewrite split_last_none by auto. now rewrite Ascii.eqb_refl.
  - now rewrite IH.
Qed.

Lemma split_all_lacks c a : lacks c a -> split_all c a = [a].
Proof.
  induction a as [|x a IH]; cbn; auto. intros [N H].
  destruct (Ascii.eqb_spec x c); [contradiction|]. now rewrite IH.
Qed.

Lemma split_all_at c a b : lacks c a -> split_all c (a ++ String c b)%string = a :: split_all c b.
Proof.
  induction a as [|x a IH]; cbn; intros H.
  - now rewrite Ascii.eqb_refl.
  - destruct H as [N H]. destruct (Ascii.eqb_spec x c); [contradiction|]. now rewrite IH.
Qed.

Lemma split_all_dotted p ps : Forall (lacks ".") (p :: ps) ->
  split_all "." (dotted p ps) = p :: ps.
Proof.
  revert p. induction ps as [|q ps IH]; intros p H; cbn [dotted]; inversion_clear H.
  - now apply split_all_lacks.
  - cbn [append]. rewrite split_all_at by auto. now rewrite IH.
Qed.

Lemma append_assoc (a b c : string) : ((a ++ b) ++ c = a ++ b ++ c)%string.
Proof. induction a as [|x a IH]; cbn; auto. now rewrite IH. Qed.

Lemma dotted_snoc p ps q : dotted p (ps ++ [q]) = (dotted p ps ++ "." ++ q)%string.
Proof.
  revert p. induction ps as [|r ps IH]; intros p; cbn [dotted app]; auto.
  rewrite IH. now rewrite !append_assoc.
Qed.

Lemma lacks_app c a b : lacks c (a ++ b)%string <-> lacks c a /\ lacks c b.
Proof. induction a; cbn; tauto. Qed.

Lemma lacks_dotted p ps : Forall (lacks "=") (p :: ps) -> lacks "=" (dotted p ps).
Proof.
  revert p. induction ps as [|q ps IH]; intros p H; cbn [dotted]; inversion_clear H; auto.
  rewrite lacks_app. split; auto. cbn [append lacks]. split; [discriminate|]. now apply IH.
Qed.

Section P.
Context {A : Type}.
Variable dict_attr : string -> bool.

Lemma set_along_leads path tail (v : pv A) : forall t,
  set_along dict_attr path tail v t <> None <-> leads dict_attr path t.
Proof.
  induction path as [|p path IH]; intros [a|d|o]; cbn [set_along set_in leads].
  - split; [congruence|tauto].
  - split; [auto|discriminate].
  - split; [auto|discriminate].
  - split; [congruence|tauto].
  - destruct (dict_attr p).
    + split; [congruence|intros [? _]; discriminate].
    + destruct (dget p d) as [t|] eqn:G.
      * specialize (IH t). destruct (set_along dict_attr path tail v t); cbn.
        -- split; [|discriminate]. intros _. split; auto. exists t. split; auto. apply IH. discriminate.
        -- split; [congruence|]. intros (_ & t' & E & L). injection E as <-.
           apply IH in L. congruence.
      * split; [congruence|]. intros (_ & t' & E & _). discriminate.
  - destruct (dget p o) as [t|] eqn:G.
    + specialize (IH t). destruct (set_along dict_attr path tail v t); cbn.
      * split; [|discriminate]. intros _. exists t. split; auto. apply IH. discriminate.
      * split; [congruence|]. intros (t' & E & L). injection E as <-. apply IH in L. congruence.
    + split; [congruence|]. intros (t' & E & _). discriminate.
Qed.

Lemma lookup_same path tail (v : pv A) q : forall t t',
  set_along dict_attr path tail v t = Some t' -> lookup (path ++ tail :: q) t' = lookup q v.
Proof.
  induction path as [|p path IH]; intros [a|d|o] t'; cbn [set_along set_in app]; try discriminate.
  - intros [= <-]. cbn. now rewrite dget_set_same.
  - intros [= <-]. cbn. now rewrite dget_set_same.
  - destruct (dict_attr p); [discriminate|]. destruct (dget p d) as [t|]; [|discriminate].
    destruct (set_along dict_attr path tail v t) eqn:E; [|discriminate]. cbn.
    intros [= <-]. cbn [lookup]. rewrite dget_set_same. eauto.
  - destruct (dget p o) as [t|]; [|discriminate].
    destruct (set_along dict_attr path tail v t) eqn:E; [|discriminate]. cbn.
    intros [= <-]. cbn [lookup]. rewrite dget_set_same. eauto.
Qed.

Lemma related_cons p (a b : list string) : related a b -> related (p :: a) (p :: b).
Proof. intros (r & [-> | ->]); exists r; cbn; auto. Qed.

Lemma lookup_other path tail (v : pv A) : forall q t t',
  set_along dict_attr path tail v t = Some t' -> ~ related (path ++ [tail]) q ->
  lookup q t' = lookup q t.
Proof.
  assert (N : forall p : list string, related p []).
  { intros p. exists p. auto. }
  induction path as [|p path IH]; intros [|x q] t t' H R; try (now destruct (R (N _))).
  - destruct (string_dec x tail) as [->|D].
    { exfalso. apply R. exists q. auto. }
    destruct t as [a|d|o]; cbn in H; try discriminate; injection H as <-; cbn;
      now rewrite dget_set_other.
  - cbn [app] in R.
    assert (K : forall d t1 t2, dget p d = Some t1 -> set_along dict_attr path tail v t1 = Some t2 ->
      match dget x (dset p t2 d) with None => None | Some t' => lookup q t' end =
      match dget x d with None => None | Some t' => lookup q t' end).
    { intros d t1 t2 G S. destruct (string_dec x p) as [->|D].
      - rewrite dget_set_same, G. eapply IH; eauto. intros Q. apply R. now apply related_cons.
      - now rewrite dget_set_other. }
    destruct t as [a|d|o]; cbn [set_along] in H; try discriminate.
    + destruct (dict_attr p); [discriminate|]. destruct (dget p d) as [t1|] eqn:G; [|discriminate].
      destruct (set_along dict_attr path tail v t1) as [t2|] eqn:E; [|discriminate].
      injection H as <-. cbn [lookup]. eapply K; eauto.
    + destruct (dget p o) as [t1|] eqn:G; [|discriminate].
      destruct (set_along dict_attr path tail v t1) as [t2|] eqn:E; [|discriminate].
      injection H as <-. cbn [lookup]. eapply K; eauto.
Qed.

Variable eval : string -> option (pv A).

Lemma cli_set_parse p ps text t : Forall (fun x => lacks "." x /\ lacks "=" x) (p :: ps) ->
  cli_set dict_attr eval (dotted p ps ++ "=" ++ text)%string t =
  match eval text with
  | None => None
  | Some v => set_along dict_attr (removelast (p :: ps)) (last (p :: ps) p) v t
  end.
Proof.
  intros F.
  assert (FD : Forall (lacks ".") (p :: ps)) by (eapply Forall_impl; [|exact F]; cbn; tauto).
  assert (FE : Forall (lacks "=") (p :: ps)) by (eapply Forall_impl; [|exact F]; cbn; tauto).
  unfold cli_set. cbn [append]. rewrite split_first_at by now apply lacks_dotted.
  destruct (eval text) as [v|]; auto.
  destruct (rev_ind (fun ps => ps = [] \/ exists l x, ps = l ++ [x])
    (or_introl eq_refl) (fun x l _ => or_intror (ex_intro _ l (ex_intro _ x eq_refl))) ps)
    as [->|(l & x & ->)].
  - cbn. rewrite split_last_none; auto. now inversion FD.
  - rewrite app_comm_cons, removelast_last, last_last, dotted_snoc. cbn [append].
    rewrite app_comm_cons in FD. apply Forall_app in FD as [FD FX].
    rewrite split_last_at by now inversion FX.
    now rewrite split_all_dotted.
Qed.
End P.
