(** Proofs about the loading of simulation files. *)
From Coq Require Import ZArith List Bool Arith String Ascii Lia.
From Verif Require Import PyDict SimModel SimSpec SimProofs LoadModel LoadSpec.
Import ListNotations.
Local Open Scope string_scope.
Local Open Scope list_scope.

Section P.
Context {V R C : Type}.
Notation sim := (sim V R).
Notation config := (config V R).
Notation stmt := (stmt V R C).
Notation value := (value V R C).
Notation mstate := (mstate V R).
Variable replace_kw : sim -> sim.
Variable of_class : C -> sim.

Lemma exec_runs_nothing (f : list stmt) ns (m : mstate) : avoid m = true ->
  snd (fst (exec f ns m)) = [] /\ avoid (snd (fst (fst (exec f ns m)))) = true.
Proof.
  revert ns m. induction f as [|[n s|n c|s|] f IH]; intros ns m H; simpl; auto.
  unfold api_run. rewrite H.
  specialize (IH ns (MState true (queued m ++ map (pair s) (collect_params s))) eq_refl).
  destruct (exec f ns _) as [[[ns2 m2] ran2] x]. simpl in *. auto.
Qed.

Lemma load_runs_nothing (f : list stmt) (m : mstate) r m' ran :
  iter_from_py replace_kw of_class f m = (r, m', ran) ->
  ran = [] /\ (avoid m = false -> avoid m' = false).
Proof.
  unfold iter_from_py. destruct (avoid m) eqn:A; [intros H; injection H as <- <- <-; split; auto; congruence|].
  pose proof (exec_runs_nothing f [] (MState true (queued m)) eq_refl) as K.
  destruct (exec f [] _) as [[[ns m1] ran1] x]. simpl in K. destruct K as [-> _].
  destruct x; [intros H; injection H as <- <- <-; auto|].
  destruct (match sims_of ns ++ _ with [] => _ | _ => _ end); intros H; injection H as <- <- <-; auto.
Qed.

Lemma exec_ok (f : list stmt) ns (m : mstate) : ~ raises f -> avoid m = true ->
  exists ns', exec f ns m =
    (ns', MState true (queued m ++ flat_map (fun s => map (pair s) (collect_params s)) (calls f)), [], false) /\
    (dwf ns -> dwf ns') /\
    forall n, dget n ns' =
      fold_left (fun o st =>
        match st with
        | SSim n' s => if String.eqb n n' then Some (VSim s) else o
        | SClass n' c => if String.eqb n n' then Some (VClass c) else o
        | _ => o
        end) f (dget n ns).
Proof.
  unfold raises. revert ns m. induction f as [|[n s|n c|s|] f IH]; intros ns m NR AV; simpl in *.
  - exists ns. destruct m. simpl in *. subst. rewrite app_nil_r. auto.
  - destruct (IH (dset n (VSim s) ns) m) as (ns'&->&W&D); auto. exists ns'.
    split; [reflexivity|]. split; [intros; apply W, dset_wf; auto|].
    intros k. rewrite D, dget_set. reflexivity.
  - destruct (IH (dset n (VClass c) ns) m) as (ns'&->&W&D); auto. exists ns'.
    split; [reflexivity|]. split; [intros; apply W, dset_wf; auto|].
    intros k. rewrite D, dget_set. reflexivity.
  - unfold api_run. rewrite AV.
    destruct (IH ns (MState true (queued m ++ map (pair s) (collect_params s)))) as (ns'&->&W&D); auto.
    exists ns'. simpl. rewrite <- app_assoc. auto.
  - tauto.
Qed.

(** Alphabetical order. *)
Lemma compare_trans_lt a b c : String.compare a b = Lt -> String.compare b c = Lt -> String.compare a c = Lt.
Proof.
  revert b c. induction a as [|x a IH]; intros [|y b] [|z c]; simpl; try congruence.
  unfold Ascii.compare. destruct (N.compare_spec (N_of_ascii x) (N_of_ascii y)),
    (N.compare_spec (N_of_ascii y) (N_of_ascii z)); try discriminate; intros H1 H2.
  - rewrite H, H0. rewrite N.compare_refl. eauto.
  - rewrite H. now rewrite (proj2 (N.compare_lt_iff _ _)).
  - rewrite <- H0. now rewrite (proj2 (N.compare_lt_iff _ _)).
  - rewrite (proj2 (N.compare_lt_iff (N_of_ascii x) (N_of_ascii z))); auto. lia.
Qed.

Lemma leb_alt a b : String.leb a b = true <-> String.compare a b = Lt \/ a = b.
Proof.
  unfold String.leb. destruct (String.compare a b) eqn:E; split; auto; try discriminate.
  - intros _. right. now apply String.compare_eq_iff.
  - intros [?| ->]; [discriminate|]. pose proof (String.compare_antisym b b) as K. rewrite E in K. discriminate.
Qed.

Lemma leb_trans a b c : String.leb a b = true -> String.leb b c = true -> String.leb a c = true.
Proof.
  rewrite !leb_alt. intros [?| ->] [?| ->]; auto. left. eapply compare_trans_lt; eauto.
Qed.

Lemma leb_false a b : String.leb a b = false -> String.leb b a = true.
Proof. destruct (String.leb_total a b); congruence. Qed.

Lemma insert_name_in {X} (nv x : string * X) l : In x (insert_name nv l) <-> x = nv \/ In x l.
Proof.
  induction l as [|h l IH]; simpl; [intuition|].
  destruct (String.leb (fst nv) (fst h)); simpl; rewrite ?IH; intuition.
Qed.

Lemma insert_name_alpha {X} (nv : string * X) l : ~ In (fst nv) (map fst l) ->
  alphabetical (map fst l) -> alphabetical (map fst (insert_name nv l)).
Proof.
  induction l as [|h l IH]; intros N A; simpl; [auto|].
  destruct (String.leb (fst nv) (fst h)) eqn:E; cbn [map alphabetical].
  - split; auto. simpl in A. destruct A as [F A]. constructor.
    + split; auto. intros EQ. apply N. simpl. auto.
    + rewrite Forall_forall in *. intros n I. split.
      * apply (leb_trans _ (fst h)); auto. now apply F.
      * intros <-. apply N. simpl. auto.
  - simpl in A. destruct A as [F A]. split; [|apply IH; auto; intros I; apply N; simpl; auto].
    rewrite Forall_forall in *. intros n I. apply in_map_iff in I as ([n' x]&<-&I).
    apply insert_name_in in I as [->|I].
    + split; [now apply leb_false|]. intros EQ. apply N. simpl. auto.
    + apply F. apply in_map_iff. exists (n', x). auto.
Qed.

Lemma members_in {X} (d : dict string X) x : In x (members d) <-> In x d.
Proof.
  unfold members. induction d as [|h d IH]; simpl; [tauto|].
  rewrite insert_name_in, IH. intuition.
Qed.

Lemma members_alpha {X} (d : dict string X) : dwf d -> alphabetical (map fst (members d)).
Proof.
  unfold members, dwf. induction d as [|[k v] d IH]; simpl; auto. intros N. inversion N; subst.
  apply insert_name_alpha; auto. intros I. apply H1.
  apply in_map_iff in I as (y&E&I). apply (members_in d) in I. apply in_map_iff. eauto.
Qed.

Lemma alphabetical_sub (l : list (string * value)) :
  alphabetical (map fst l) ->
  exists named, flat_map (fun nv => match snd nv with VSim s => [s] | VClass _ => [] end) l = map snd named /\
    alphabetical (map fst named) /\
    forall n s, In (n, s) named <-> In (n, VSim s) l.
Proof.
  induction l as [|[n [s|c]] l IH]; intros A; cbn [map alphabetical fst snd flat_map] in *.
  - exists []. repeat split; auto.
  - destruct A as [F A]. destruct (IH A) as (nm&E&AN&I). exists ((n, s) :: nm).
    cbn [map snd fst alphabetical app]. rewrite E. split; [reflexivity|]. split; [split; auto|].
    + rewrite Forall_forall in *. intros n' IN. apply in_map_iff in IN as ([n2 s2]&<-&IN).
      apply F. apply I in IN. apply in_map_iff. exists (n2, VSim s2). auto.
    + intros n' s'. simpl. rewrite I. split; intros [H|H]; auto; injection H as <- <-; auto.
  - destruct A as [F A]. destruct (IH A) as (nm&E&AN&I). exists nm. split; [exact E|]. split; auto.
    intros n' s'. simpl. rewrite I. split; [auto|]. intros [H|H]; auto. discriminate.
Qed.

Lemma load_yields (f : list stmt) (m : mstate) : avoid m = false -> queued m = [] -> ~ raises f ->
  exists named,
    named_sims f named /\
    let found := map snd named ++
      flat_map (fun s => map (with_parameters s) (collect_params s)) (calls f) in
    snd (fst (iter_from_py replace_kw of_class f m)) = MState false [] /\
    (found <> [] -> fst (fst (iter_from_py replace_kw of_class f m)) = LYields (map replace_kw found)).
Proof.
  intros A Q NR. unfold iter_from_py. rewrite A, Q.
  destruct (exec_ok f [] (MState true []) NR eq_refl) as (ns&->&W&D). simpl.
  assert (dwf ns) as WN by (apply W; constructor).
  destruct (alphabetical_sub (members ns) (members_alpha ns WN)) as (named&E&AN&I).
  exists named. split.
  { split; auto. intros n s. rewrite I, members_in. assert (binding f n = dget n ns) as -> by (symmetry; apply (D n)).
    split; intros H; [now apply dget_in_wf|now apply dget_in]. }
  unfold sims_of. rewrite E.
  assert (map (fun q => with_parameters (fst q) (snd q))
    (flat_map (fun s => map (pair s) (collect_params s)) (calls f)) =
    flat_map (fun s => map (with_parameters s) (collect_params s)) (calls f)) as ->.
  { induction (calls f) as [|s l IH]; simpl; auto. rewrite map_app, IH, map_map. reflexivity. }
  set (found := map snd named ++ _). 
  destruct found as [|s0 l0]; simpl.
  - split; [|congruence]. destruct (map of_class (classes_of ns)); reflexivity.
  - auto.
Qed.

Lemma alphabetical_sub_classes (l : list (string * value)) :
  alphabetical (map fst l) ->
  exists named, flat_map (fun nv => match snd nv with VClass c => [c] | VSim _ => [] end) l = map snd named /\
    alphabetical (map fst named) /\
    forall n c, In (n, c) named <-> In (n, VClass c) l.
Proof.
  induction l as [|[n [s|c]] l IH]; intros A; cbn [map alphabetical fst snd flat_map] in *.
  - exists []. repeat split; auto.
  - destruct A as [F A]. destruct (IH A) as (nm&E&AN&I). exists nm. split; [exact E|]. split; auto.
    intros n' s'. simpl. rewrite I. split; [auto|]. intros [H|H]; auto. discriminate.
  - destruct A as [F A]. destruct (IH A) as (nm&E&AN&I). exists ((n, c) :: nm).
    cbn [map snd fst alphabetical app]. rewrite E. split; [reflexivity|]. split; [split; auto|].
    + rewrite Forall_forall in *. intros n' IN. apply in_map_iff in IN as ([n2 s2]&<-&IN).
      apply F. apply I in IN. apply in_map_iff. exists (n2, VClass s2). auto.
    + intros n' s'. simpl. rewrite I. split; intros [H|H]; auto; injection H as <- <-; auto.
Qed.

Lemma load_classes (f : list stmt) (m : mstate) : avoid m = false -> queued m = [] -> ~ raises f ->
  calls f = [] -> (forall n s, binding f n <> Some (VSim s)) ->
  exists named, named_classes f named /\
    fst (fst (iter_from_py replace_kw of_class f m)) =
    match named with
    | [] => LNothing
    | _ => LYields (map (fun nc => replace_kw (of_class (snd nc))) named)
    end.
Proof.
  intros A Q NR NC NS. unfold iter_from_py. rewrite A, Q.
  destruct (exec_ok f [] (MState true []) NR eq_refl) as (ns&->&W&D). simpl.
  assert (dwf ns) as WN by (apply W; constructor).
  assert (B : forall n, binding f n = dget n ns) by (intros n; symmetry; apply (D n)).
  destruct (alphabetical_sub_classes (members ns) (members_alpha ns WN)) as (named&E&AN&I).
  exists named. split.
  { split; auto. intros n s. rewrite I, members_in, B.
    split; intros H; [now apply dget_in_wf|now apply dget_in]. }
  rewrite NC. cbn [flat_map map]. rewrite app_nil_r.
  assert (S : sims_of ns = []).
  { destruct (alphabetical_sub (members ns) (members_alpha ns WN)) as (nm&E2&_&I2).
    unfold sims_of. rewrite E2. destruct nm as [|[n s] nm]; auto. exfalso.
    apply (NS n s). rewrite B. apply dget_in_wf; auto. rewrite <- members_in. apply I2. simpl. auto. }
  rewrite S. unfold classes_of. rewrite E. destruct named as [|[n c] named]; [reflexivity|].
  cbn [map snd fst]. now rewrite !map_map.
Qed.
End P.

Lemma existsb_str e l : existsb (String.eqb e) l = true <-> In e l.
Proof.
  rewrite existsb_exists. split.
  - intros (x & I & Q). apply String.eqb_eq in Q. now subst.
  - intros I. exists e. split; auto. apply String.eqb_refl.
Qed.

Lemma fold_extended l new : extended l new
  (fold_left (fun l e => if existsb (String.eqb e) l then l else l ++ [e]) new l).
Proof.
  induction new as [|e new IH] using rev_ind; [constructor|].
  rewrite fold_left_app. cbn [fold_left].
  destruct (existsb (String.eqb e) (fold_left _ new l)) eqn:X.
  - apply ext_old; auto. now apply existsb_str.
  - apply ext_new; auto. intros I. apply existsb_str in I. congruence.
Qed.
