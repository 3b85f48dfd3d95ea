(** Proofs about the registry of source files. *)
From Coq Require Import List Bool Arith String Lia.
From Verif Require Import PyDict SourceModel SourceSpec.
Import ListNotations.

Section P.
Context {F : Type} `{EF : Eqb F}.

Lemma stmt_ind2 (P : stmt F -> Prop) :
  (forall f b l, Forall P l -> P (With f b l)) -> (forall s, P (Import s)) -> P Raise -> P Look -> forall s, P s.
Proof.
  intros W I R L. fix IH 1. intros [f b l|s| |]; [|apply I|exact R|exact L].
  apply W. induction l; constructor; auto.
Qed.

Fixpoint runs (open : list F) (l : list (stmt F)) (r : reg F) : reg F * list look * option exn :=
  match l with
  | [] => (r, [], None)
  | s :: l' =>
      match run open s r with
      | (r1, t1, Some x) => (r1, t1, Some x)
      | (r1, t1, None) => let '(r2, t2, x) := runs open l' r1 in (r2, t1 ++ t2, x)
      end
  end.
Lemma run_with open f b l r : run open (With f b l) r =
  match f with
  | None => runs open l r
  | Some f =>
      match add_source f b r with
      | (r1, Some x) => (r1, [], Some x)
      | (r1, None) =>
          let '(r2, t, x) := runs (f :: open) l r1 in
          match remove_source f r2 with
          | (r3, Some y) => (r3, t, Some y)
          | (r3, None) => (r3, t, x)
          end
      end
  end.
Proof. destruct f; reflexivity. Qed.

Lemma distinct_with (open : list F) f b l : distinct open (With f b l) <->
  match f with
  | None => Forall (distinct open) l
  | Some f => ~ In f open /\ Forall (distinct (f :: open)) l
  end.
Proof.
  assert (forall o, (fix all open l := match l with [] => True | s :: l' => distinct open s /\ all open l' end) o l
    <-> Forall (distinct o) l) as H.
  { intros o. induction l as [|s l IH]; [split; auto|]. rewrite IH. split; [intros [? ?]; auto|].
    intros X. inversion X; auto. }
  destruct f as [f|]; simpl; now rewrite H.
Qed.
Lemma quiet_with f b l : quiet (With f b l : stmt F) <-> b = true /\ Forall quiet l.
Proof.
  simpl. apply and_iff_compat_l. induction l as [|s l IH]; [split; auto|]. rewrite IH. split; [intros [? ?]; auto|].
  intros X. inversion X; auto.
Qed.

(** The open files, oldest first, are the registered ones and are numbered from 0. *)
Definition numbered (open : list F) (r : reg F) : Prop :=
  NoDup open /\ dwf (r_known r) /\
  r_files r = combine (rev open) (seq 0 (List.length open)) /\
  (forall n, dget (Imported n) (r_known r) =
     match nth_error (rev open) n with Some f => Some (FromFile f) | None => None end).

Lemma nodup_app_l {X} (l : list X) x : NoDup (x :: l) -> NoDup (rev l ++ [x]).
Proof. intros N. change (NoDup (rev (x :: l))). now apply NoDup_rev. Qed.

Lemma combine_keys {X Y} (l : list X) : forall m : list Y, List.length l = List.length m -> map fst (combine l m) = l.
Proof. induction l as [|x l IH]; intros [|y m] E; simpl in *; try discriminate; auto. f_equal. apply IH. lia. Qed.

Lemma combine_snoc {X Y} (l : list X) x : forall (m : list Y) y, List.length l = List.length m ->
  combine (l ++ [x]) (m ++ [y]) = combine l m ++ [(x, y)].
Proof. induction l as [|a l IH]; intros [|b m] y E; simpl in *; try discriminate; auto. f_equal. apply IH. lia. Qed.

Lemma numbered_keys open r : numbered open r -> dkeys (r_files r) = rev open.
Proof. intros (_ & _ & E & _). rewrite E. unfold dkeys. apply combine_keys. now rewrite rev_length, seq_length. Qed.

Lemma numbered_length open r : numbered open r -> List.length (r_files r) = List.length open.
Proof. intros I. apply numbered_keys in I. rewrite <- (map_length fst). fold (dkeys (r_files r)). now rewrite I, rev_length. Qed.

Lemma numbered_get open r f n : numbered open r -> nth_error (rev open) n = Some f -> dget f (r_files r) = Some n.
Proof.
  intros I E. pose proof (numbered_keys _ _ I) as Ks. destruct I as (N & _ & Ef & _).
  apply dget_in_wf.
  - unfold dwf. rewrite Ks. now apply NoDup_rev.
  - rewrite Ef. assert (n < List.length open) as L.
    { rewrite <- rev_length. apply nth_error_Some. congruence. }
    apply (nth_error_In _ n). rewrite <- (rev_length open) in *. clear Ef Ks.
    assert (forall (l : list F) k m, nth_error l m = Some f -> nth_error (combine l (seq k (List.length l))) m = Some (f, k + m)) as H.
    { clear. induction l as [|x l IH]; intros k [|m] E; simpl in *; try discriminate.
      - rewrite Nat.add_0_r. congruence.
      - rewrite (IH (S k)) by auto. replace (k + S m) with (S k + m) by lia. auto. }
    rewrite (H _ 0 n E). reflexivity.
Qed.

Lemma numbered_own open r : numbered open r -> own_names open r.
Proof.
  intros I. exists (fun f => match dget f (r_files r) with Some n => n | None => 0 end).
  assert (forall f, In f open -> exists n, nth_error (rev open) n = Some f /\ dget f (r_files r) = Some n) as H.
  { intros f J. apply in_rev in J. apply In_nth_error in J as [n J]. exists n. split; auto. eapply numbered_get; eauto. }
  split.
  - intros f J. destruct (H f J) as (n & E & G). rewrite G. split; auto.
    destruct I as (_ & _ & _ & Kn). now rewrite Kn, E.
  - intros f g J J2. destruct (H f J) as (n & E & G). destruct (H g J2) as (m & E2 & G2). rewrite G, G2. congruence.
Qed.

Lemma add_ok open f r : numbered open r -> ~ In f open ->
  exists r1, add_source f true r = (r1, None) /\ numbered (f :: open) r1 /\
  (forall s, dget (Other s) (r_known r1) = dget (Other s) (r_known r)).
Proof.
  intros I Nf. pose proof (numbered_keys _ _ I) as Ks. pose proof (numbered_length _ _ I) as Ln.
  assert (dhas f (r_files r) = false) as H.
  { apply not_true_iff_false. rewrite dhas_in, Ks. now rewrite <- in_rev. }
  unfold add_source. rewrite H. eexists. split; [reflexivity|].
  destruct I as (N & D & Ef & Kn). split; [|intros s; simpl; now rewrite dget_set_other].
  split; [now constructor|]. split; [now apply dset_wf|]. simpl. split.
  - rewrite dset_fresh by auto. rewrite Ln, Ef. change (0 :: seq 1 (List.length open)) with (seq 0 (S (List.length open))).
    rewrite seq_S. rewrite combine_snoc; auto. now rewrite rev_length, seq_length.
  - intros n. rewrite dget_set, Ln. destruct (eqb (Imported n) (Imported (List.length open))) eqn:E.
    + apply eqb_eq in E. injection E as ->. rewrite nth_error_app2; rewrite rev_length; auto. now rewrite Nat.sub_diag.
    + rewrite Kn. destruct (Nat.lt_ge_cases n (List.length open)) as [L|L].
      * rewrite nth_error_app1; auto. now rewrite rev_length.
      * assert (nth_error (rev open) n = None) as -> by (apply nth_error_None; now rewrite rev_length).
        assert (nth_error (rev open ++ [f]) n = None) as ->; auto.
        apply nth_error_None. rewrite app_length, rev_length. simpl.
        apply eqb_neq in E. assert (n <> List.length open) by congruence. lia.
Qed.

Lemma ddel_snoc k (v : nat) (d : dict F nat) : ~ In k (dkeys d) -> ddel k (d ++ [(k, v)]) = d.
Proof.
  induction d as [|[k' v'] d IH]; simpl; intros N; [now rewrite eqb_refl|].
  destruct (eqb k k') eqn:E; [apply eqb_eq in E; subst; tauto|]. f_equal. apply IH. tauto.
Qed.

Lemma remove_ok open f r : numbered (f :: open) r ->
  exists r1, remove_source f r = (r1, None) /\ numbered open r1 /\
  (forall s, dget (Other s) (r_known r1) = dget (Other s) (r_known r)).
Proof.
  intros I. pose proof I as (N & D & Ef & Kn). inversion N as [|x l N1 N2]; subst.
  assert (nth_error (rev (f :: open)) (List.length open) = Some f) as E.
  { simpl. rewrite nth_error_app2; rewrite rev_length; auto. now rewrite Nat.sub_diag. }
  unfold remove_source. rewrite (numbered_get _ _ _ _ I E).
  assert (dhas (Imported (List.length open)) (r_known r) = true) as ->.
  { rewrite dhas_get, Kn, E. reflexivity. }
  eexists. split; [reflexivity|]. split; [|intros s; simpl; now rewrite dget_del].
  split; auto. split; [now apply ddel_wf|]. simpl. split.
  - rewrite Ef. change (List.length (f :: open)) with (S (List.length open)).
    rewrite seq_S. simpl rev. rewrite combine_snoc by now rewrite rev_length, seq_length.
    apply ddel_snoc. unfold dkeys. rewrite combine_keys by now rewrite rev_length, seq_length.
    now rewrite <- in_rev.
  - intros n. rewrite dget_del by auto. destruct (eqb (Imported n) (Imported (List.length open))) eqn:X.
    + apply eqb_eq in X. injection X as ->.
      assert (nth_error (rev open) (List.length open) = None) as ->; auto.
      apply nth_error_None. now rewrite rev_length.
    + apply eqb_neq in X. assert (n <> List.length open) by congruence.
      rewrite Kn. simpl. destruct (Nat.lt_ge_cases n (List.length open)) as [L|L].
      * rewrite nth_error_app1; auto. now rewrite rev_length.
      * assert (nth_error (rev open) n = None) as -> by (apply nth_error_None; now rewrite rev_length).
        assert (nth_error (rev open ++ [f]) n = None) as ->; auto.
        apply nth_error_None. rewrite app_length, rev_length. simpl. lia.
Qed.

Definition kept (r r' : reg F) : Prop :=
  forall s, dget (Other s) (r_known r') = dget (Other s) (r_known r) \/
     (dget (Other s) (r_known r) = None \/ dget (Other s) (r_known r) = Some NotYet) /\
     dget (Other s) (r_known r') = Some (ByName s).
Lemma kept_refl r : kept r r.
Proof. intros s. auto. Qed.
Lemma kept_trans r1 r2 r3 : kept r1 r2 -> kept r2 r3 -> kept r1 r3.
Proof.
  intros H1 H2 s. destruct (H1 s) as [E1|[E1 F1]], (H2 s) as [E2|[E2 F2]].
  - left. congruence.
  - right. rewrite <- E1. auto.
  - right. split; auto. congruence.
  - right. auto.
Qed.

Definition fine (open : list F) (q : Prop) (r : reg F) (o : reg F * list look * option exn) : Prop :=
  let '(r', t, x) := o in
  numbered open r' /\ kept r r' /\ (forall o r1, In (o, r1) t -> own_names o r1) /\
  (q -> x = None) /\ x <> Some ValueError.

Lemma run_fine s : forall open r, numbered open r -> distinct open s -> fine open (quiet s) r (run open s r).
Proof.
  induction s as [f b l IH|s| |] using stmt_ind2; intros open r I D.
  - assert (forall open r, numbered open r -> Forall (distinct open) l ->
      fine open (Forall quiet l) r (runs open l r)) as Rs.
    { clear - IH. induction l as [|s l IHl]; intros open r I D.
      - simpl. split; auto. split; [apply kept_refl|]. split; [intros o r1 []|]. split; [auto|discriminate].
      - inversion IH as [|x y I1 I2]; subst. inversion D as [|x y D1 D2]; subst. simpl.
        pose proof (I1 open r I D1) as H. destruct (run open s r) as [[r1 t1] x]. simpl in H.
        destruct H as (H1 & H2 & H3 & H4 & H5). destruct x as [x|].
        + split; auto. split; auto. split; auto. split; auto. intros Q. inversion Q; subst. auto.
        + pose proof (IHl I2 open r1 H1 D2) as G. destruct (runs open l r1) as [[r2 t2] x2]. simpl in *.
          destruct G as (G1 & G2 & G3 & G4 & G5). split; auto. split; [eapply kept_trans; eauto|]. split.
          * intros o r3 J. apply in_app_or in J as [J|J]; eauto.
          * split; auto. intros Q. inversion Q; subst. auto. }
    rewrite run_with. apply distinct_with in D. destruct f as [f|].
    + destruct D as [Nf D]. destruct b.
      * destruct (add_ok open f r I Nf) as (r1 & -> & I1 & O1).
        pose proof (Rs _ _ I1 D) as H. destruct (runs (f :: open) l r1) as [[r2 t] x]. simpl in H.
        destruct H as (H1 & H2 & H3 & H4 & H5).
        destruct (remove_ok open f r2 H1) as (r3 & -> & I3 & O3). simpl.
        split; auto. split; [intros s; rewrite O3, <- O1; apply H2|]. split; auto. split; auto.
        intros Q. apply (quiet_with (Some f) true l) in Q as [_ Q]. auto.
      * assert (add_source f false r = (r, Some ImportFailed)) as ->.
        { unfold add_source. assert (dhas f (r_files r) = false) as ->; auto.
          apply not_true_iff_false. rewrite dhas_in, (numbered_keys _ _ I). now rewrite <- in_rev. }
        simpl. split; auto. split; [apply kept_refl|]. split; [intros o r1 []|]. split; [|discriminate].
        intros Q. apply (quiet_with (Some f) false l) in Q as [Q _]. discriminate.
    + pose proof (Rs _ _ I D) as H. destruct (runs open l r) as [[r2 t] x]. simpl in *.
      destruct H as (H1 & H2 & H3 & H4 & H5). split; auto. split; auto. split; auto. split; auto.
      intros Q. apply (quiet_with None b l) in Q as [_ Q]. auto.
  - simpl. unfold get_module.
    assert (dget (Other s) (r_known r) = None \/ dget (Other s) (r_known r) = Some NotYet ->
      fine open True r (Reg (r_files r) (dset (Other s) (ByName s) (r_known r)), [], None)) as H.
    { intros Y. destruct I as (N & Dk & Ef & Kn). simpl. split; [|split; [|split; [intros o r1 []|split; [auto|discriminate]]]].
      - split; auto. split; [now apply dset_wf|]. split; auto. intros n. simpl.
        rewrite dget_set_other by discriminate. apply Kn.
      - intros s'. simpl. rewrite dget_set. destruct (eqb _ _) eqn:E; [|auto]. apply eqb_eq in E. injection E as ->. auto. }
    assert (fine open True r (r, [], None)) as H2.
    { simpl. split; auto. split; [apply kept_refl|]. split; [intros o r1 []|]. split; [auto|discriminate]. }
    destruct (dget (Other s) (r_known r)) as [[f|s'|]|]; try exact H2; apply H; auto.
  - simpl. split; auto. split; [apply kept_refl|]. split; [intros o r1 []|]. split; [intros []|discriminate].
  - simpl. split; auto. split; [apply kept_refl|]. split; [|split; [auto|discriminate]].
    intros o r1 [[= <- <-]|[]]. now apply numbered_own.
Qed.

Lemma block_fine body r : fresh r -> Forall (distinct []) body ->
  let '(r', t, x) := run_block body r in
  unchanged r r' /\ (forall o r1, In (o, r1) t -> own_names o r1) /\
  (Forall quiet body -> x = None) /\ x <> Some ValueError.
Proof.
  intros (E & D & Kn) H. unfold run_block.
  assert (numbered [] r) as I.
  { split; [constructor|]. split; auto. split; auto. intros n. rewrite Kn. now destruct n. }
  pose proof (run_fine (With None true body) [] r I (proj2 (distinct_with [] None true body) H)) as G.
  destruct (run [] (With None true body) r) as [[r' t] x]. simpl in G.
  destruct G as (G1 & G2 & G3 & G4 & G5). split; [|split; [auto|split; auto]].
  - split; [|split; auto].
    + destruct G1 as (_ & _ & -> & _). simpl. auto.
    + intros n. destruct G1 as (_ & _ & _ & K1). rewrite K1, Kn. now destruct n.
  - intros Q. apply G4. apply (quiet_with None true body). auto.
Qed.
End P.
