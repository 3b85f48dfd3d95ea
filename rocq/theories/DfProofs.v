(** Proofs about the data frames of an environment: soil/environment.py:125-139 and soil/analysis.py:7-27. *)
From Coq Require Import ZArith List Bool Arith String Sorting.Sorted Permutation Lia.
From Verif Require Import Num PyDict RunModel DfModel DfSpec.
Import ListNotations.
Local Open Scope string_scope.
Local Open Scope list_scope.

Section Proofs.
Context {V : Type}.

Lemma dget_app {A} : forall (l1 l2 : dict string A) k, dget k (l1 ++ l2) = match dget k l1 with Some v => Some v | None => dget k l2 end.
Proof. induction l1 as [|[k' v] l1 IH]; intros l2 k; cbn; [reflexivity|]. destruct (eqb k k'); auto. Qed.
Lemma dset_skip {A} : forall (l1 l2 : dict string A) k v, ~ In k (map fst l1) -> dset k v (l1 ++ l2) = l1 ++ dset k v l2.
Proof.
  induction l1 as [|[k' v'] l1 IH]; intros l2 k v H; cbn; [reflexivity|]. destruct (eqb k k') eqn:E.
  - apply eqb_eq in E. subst. exfalso. apply H. left. reflexivity.
  - rewrite IH; [reflexivity|]. intros I. apply H. right. exact I.
Qed.
Lemma dset_fresh {A} : forall (l : dict string A) k v, ~ In k (map fst l) -> dset k v l = l ++ [(k, v)].
Proof. intros l k v H. rewrite <- (app_nil_r l) at 1. rewrite dset_skip by exact H. reflexivity. Qed.
Lemma dget_fresh {A} : forall (l : dict string A) k, ~ In k (map fst l) -> dget k l = None.
Proof.
  induction l as [|[k' v] l IH]; intros k H; cbn; [reflexivity|]. destruct (eqb k k') eqn:E.
  - apply eqb_eq in E. subst. exfalso. apply H. left. reflexivity.
  - apply IH. intros I. apply H. right. exact I.
Qed.
Lemma dget_in {A} : forall (l : dict string A) k v, NoDup (map fst l) -> In (k, v) l -> dget k l = Some v.
Proof.
  induction l as [|[k' v'] l IH]; intros k v N I; [destruct I|]. cbn. inversion N; subst. destruct I as [I|I].
  - inversion I; subst. rewrite eqb_refl. reflexivity.
  - destruct (eqb k k') eqn:E; [|auto]. apply eqb_eq in E. subst. exfalso. apply H1. apply (in_map fst) in I. exact I.
Qed.
Lemma dget_some_in {A} : forall (l : dict string A) k v, dget k l = Some v -> In (k, v) l.
Proof.
  induction l as [|[k' v'] l IH]; intros k v H; cbn in H; [discriminate|]. destruct (eqb k k') eqn:E.
  - apply eqb_eq in E. inversion H; subst. left. reflexivity.
  - right. auto.
Qed.

(** ** Columns. *)
Definition cols (reps : dict string rkind) (g : string -> list (cell V)) : dict string (list (cell V)) := map (fun p => (fst p, g (fst p))) reps.
Definition inv (c : dcol V) (g : string -> list (cell V)) : Prop := dc_vars c = cols (dc_reps c) g /\ NoDup (map fst (dc_reps c)).
Definition grown (reps : dict string rkind) (sn : snap V) (g : string -> list (cell V)) : string -> list (cell V) :=
  fun n => g n ++ [match dget n reps with Some k => report sn n k | None => CCount 0 end].
Lemma cols_keys : forall reps g, map fst (cols reps g) = map fst reps.
Proof. intros. unfold cols. rewrite map_map. apply map_ext. reflexivity. Qed.
Lemma cols_get : forall reps g k, dget k (cols reps g) = match dget k reps with Some _ => Some (g k) | None => None end.
Proof.
  induction reps as [|[k' v] reps IH]; intros g k; cbn; [reflexivity|]. destruct (eqb k k') eqn:E; [|apply IH].
  apply eqb_eq in E. subst. reflexivity.
Qed.
Lemma collect_fold : forall (sn : snap V) (all : dict string rkind) g rest pre, all = pre ++ rest -> NoDup (map fst all) ->
  fold_left (fun vars p => match dget (fst p) vars with Some col => dset (fst p) (col ++ [report sn (fst p) (snd p)]) vars | None => vars end)
    rest (cols pre (grown all sn g) ++ cols rest g) = cols all (grown all sn g).
Proof.
  intros sn all g. induction rest as [|[k r] rest IH]; intros pre E N.
  - cbn. rewrite app_nil_r in *. subst. reflexivity.
  - cbn [fold_left fst snd].
    assert (Np : ~ In k (map fst pre) /\ ~ In k (map fst rest)).
    { subst all. rewrite map_app in N. cbn in N. apply NoDup_remove_2 in N. rewrite in_app_iff in N. tauto. }
    destruct Np as [N1 N2].
    rewrite dget_app, (dget_fresh (cols pre _)) by (rewrite cols_keys; exact N1).
    cbn [cols map fst dget]. rewrite eqb_refl. rewrite dset_skip by (rewrite cols_keys; exact N1). cbn [dset]. rewrite eqb_refl.
    assert (G : grown all sn g k = g k ++ [report sn k r]).
    { unfold grown. rewrite (dget_in all k r N); [reflexivity|]. subst all. apply in_or_app. right. left. reflexivity. }
    rewrite <- G. assert (E' : all = (pre ++ [(k, r)]) ++ rest) by (rewrite <- app_assoc; exact E).
    pose proof (IH _ E' N) as IH'. unfold cols in IH' at 1. rewrite map_app in IH'. cbn [map fst] in IH'. rewrite <- app_assoc in IH'. exact IH'.
Qed.
Lemma collect_inv : forall c g sn, inv c g -> inv (dcollect c sn) (grown (dc_reps c) sn g).
Proof.
  intros c g sn [E N]. split; [|exact N]. cbn [dcollect dc_vars dc_reps]. rewrite E. exact (collect_fold sn (dc_reps c) g (dc_reps c) [] eq_refl N).
Qed.
Lemma dset_keys {A} : forall (l : dict string A) k v, NoDup (map fst l) -> NoDup (map fst (dset k v l)) /\ forall x, In x (map fst (dset k v l)) <-> x = k \/ In x (map fst l).
Proof.
  induction l as [|[k' v'] l IH]; intros k v N; cbn.
  - split; [constructor; [intros [] | constructor]|]. intros x. split; intros [->|[]]; auto.
  - inversion N; subst. destruct (eqb k k') eqn:E; cbn.
    + apply eqb_eq in E. subst. split; [constructor; assumption|]. intros x. split; [tauto|]. intros [->|H]; [left; reflexivity | exact H].
    + destruct (IH k v H2) as [A1 A2]. split.
      * constructor; [|exact A1]. rewrite A2. intros [H|H]; [|contradiction]. subst. rewrite eqb_refl in E. discriminate.
      * intros x. rewrite A2. tauto.
Qed.
Lemma add_inv : forall c g name k, inv c g -> inv (add_rep c name k) (fun n => if eqb name n then [] else g n).
Proof.
  intros c g name k [E N]. split; [|cbn [add_rep dc_reps]; apply dset_keys, N]. cbn [add_rep dc_vars dc_reps]. rewrite E. clear E.
  revert N. generalize (dc_reps c). intros l. induction l as [|[k' v'] l IH]; intros N; cbn.
  - rewrite eqb_refl. reflexivity.
  - inversion N; subst. destruct (eqb name k') eqn:E; cbn.
    + rewrite E. f_equal. unfold cols. apply map_ext_in. intros [x y] I. cbn. destruct (eqb name x) eqn:F; [|reflexivity].
      apply eqb_eq in E. apply eqb_eq in F. subst. exfalso. apply H1. apply (in_map fst) in I. exact I.
    + rewrite E. f_equal. apply IH, H2.
Qed.

Definition all_reps (mr : list string) : dict string rkind :=
  let reps := map (fun n => (n, KUser)) mr in
  let reps := if dhas "agent_count" reps then reps else reps ++ [("agent_count", KCount)] in
  if dhas "time" reps then reps else reps ++ [("time", KTime)].
Lemma dhas_in {A} : forall (l : dict string A) k, dhas k l = true <-> In k (map fst l).
Proof.
  intros l k. unfold dhas. rewrite existsb_exists, in_map_iff. split.
  - intros [p [I E]]. apply eqb_eq in E. exists p. auto.
  - intros [p [E I]]. exists p. split; [exact I|]. apply eqb_eq. auto.
Qed.
Lemma dhas_out {A} : forall (l : dict string A) k, dhas k l = false <-> ~ In k (map fst l).
Proof. intros l k. rewrite <- dhas_in. destruct (dhas k l); split; congruence. Qed.
Lemma NoDup_snoc {A} : forall (l : list A) x, NoDup l -> ~ In x l -> NoDup (l ++ [x]).
Proof.
  intros l x N H. apply NoDup_rev in N. rewrite <- (rev_involutive (l ++ [x])). apply NoDup_rev. rewrite rev_unit.
  constructor; [rewrite <- in_rev; exact H | exact N].
Qed.
Lemma all_reps_nodup : forall mr, NoDup mr -> NoDup (map fst (all_reps mr)).
Proof.
  intros mr N. unfold all_reps.
  assert (S : forall (l : dict string rkind) k v, NoDup (map fst l) -> NoDup (map fst (if dhas k l then l else l ++ [(k, v)]))).
  { intros l k v H. destruct (dhas k l) eqn:E; [exact H|]. rewrite map_app. apply NoDup_snoc; [exact H|]. apply dhas_out, E. }
  apply S, S. rewrite map_map. cbn. rewrite map_id. exact N.
Qed.
Lemma new_reps : forall (l : dict string rkind) c, NoDup (map fst l) -> (forall k, In k (map fst l) -> ~ In k (map fst (dc_reps c))) ->
  inv c (fun _ => []) ->
  let c' := fold_left (fun c p => add_rep c (fst p) (snd p)) l c in
  dc_reps c' = dc_reps c ++ l /\ inv c' (fun _ => []) /\ dc_areps c' = dc_areps c /\ dc_recs c' = dc_recs c.
Proof.
  induction l as [|[k r] l IH]; intros c N D I; cbn [fold_left fst snd].
  - rewrite app_nil_r. auto.
  - inversion N; subst. assert (F : ~ In k (map fst (dc_reps c))) by (apply D; left; reflexivity).
    destruct (IH (add_rep c k r) H2) as [A [B [C E]]].
    + intros k' I' J. cbn [add_rep dc_reps] in J. destruct I as [_ Nc]. apply (proj2 (dset_keys (dc_reps c) k r Nc)) in J. destruct J as [->|J]; [contradiction|].
      exact (D k' (or_intror I') J).
    + pose proof (add_inv c _ k r I) as [E N']. split; [|exact N']. rewrite E. unfold cols. apply map_ext. intros p. destruct (eqb k (fst p)); reflexivity.
    + cbv zeta. split; [|auto]. rewrite A. cbn [add_rep dc_reps]. rewrite dset_fresh by exact F. rewrite <- app_assoc. reflexivity.
Qed.
Lemma add_areps_ar : forall ar (c : dcol V), NoDup ar -> (forall r, In r ar -> ~ In r (dc_areps c)) ->
  let c' := fold_left add_arep ar c in dc_areps c' = dc_areps c ++ ar /\ dc_reps c' = dc_reps c /\ dc_vars c' = dc_vars c /\ dc_recs c' = dc_recs c.
Proof.
  induction ar as [|r ar IH]; intros c N D; cbn [fold_left]; [rewrite app_nil_r; auto|]. inversion N; subst.
  assert (E : existsb (String.eqb r) (dc_areps c) = false).
  { apply not_true_iff_false. rewrite existsb_exists. intros [x [I Q]]. apply String.eqb_eq in Q. subst. exact (D x (or_introl eq_refl) I). }
  destruct (IH (add_arep c r) H2) as [A [B [C F]]].
  - intros r' I J. cbn [add_arep dc_areps] in J. rewrite E in J. apply in_app_iff in J. destruct J as [J|[->|[]]]; [|contradiction].
    exact (D r' (or_intror I) J).
  - cbv zeta. split; [|auto]. rewrite A. cbn [add_arep dc_areps]. rewrite E, <- app_assoc. reflexivity.
Qed.
Lemma new_facts : forall mr ar, NoDup mr -> NoDup ar ->
  dc_reps (new_dcol (V := V) mr ar) = all_reps mr /\ inv (new_dcol mr ar) (fun _ => []) /\ dc_areps (new_dcol (V := V) mr ar) = ar /\ dc_recs (new_dcol (V := V) mr ar) = [].
Proof.
  intros mr ar N1 N2.
  set (c0 := fold_left (fun (c : dcol V) p => add_rep c (fst p) (snd p)) (all_reps mr) (DCol (V := V) [] [] [] [])).
  assert (X : new_dcol mr ar = fold_left add_arep ar c0) by reflexivity. rewrite X. clear X.
  destruct (new_reps (all_reps mr) (DCol (V := V) [] [] [] []) (all_reps_nodup mr N1)) as [A [[B B'] [C D]]].
  { intros k _ []. }
  { split; [reflexivity | constructor]. }
  fold c0 in A, B, B', C, D. cbn [dc_reps dc_areps dc_recs app] in A, C, D.
  destruct (add_areps_ar ar c0 N2) as [E [F [G H]]]; [intros r _ I; rewrite C in I; exact I|].
  cbv zeta in *. rewrite E, F, C, A, H, D. split; [reflexivity|]. split; [|auto]. split; [rewrite G, F; exact B | rewrite F; exact B'].
Qed.

Definition col_of (reps : dict string rkind) (sns : list (snap V)) (n : string) : list (cell V) :=
  map (fun sn => match dget n reps with Some k => report sn n k | None => CCount 0 end) sns.
Lemma inv_ext : forall c g g', (forall n, g n = g' n) -> inv c g -> inv c g'.
Proof. intros c g g' H [E N]. split; [|exact N]. rewrite E. unfold cols. apply map_ext. intros p. rewrite H. reflexivity. Qed.
Lemma collects_inv : forall sns c g, inv c g ->
  let c' := fold_left dcollect sns c in
  dc_reps c' = dc_reps c /\ dc_areps c' = dc_areps c /\ inv c' (fun n => g n ++ col_of (dc_reps c) sns n).
Proof.
  induction sns as [|sn sns IH]; intros c g I; cbn [fold_left].
  - cbv zeta. split; [reflexivity|]. split; [reflexivity|]. eapply inv_ext; [|exact I]. intros n. cbn. rewrite app_nil_r. reflexivity.
  - destruct (IH (dcollect c sn) _ (collect_inv c g sn I)) as [A [B C]]. cbv zeta in *. split; [exact A|]. split; [exact B|].
    eapply inv_ext; [|exact C]. intros n. cbn [dcollect dc_reps]. unfold grown. cbn [col_of map]. rewrite <- app_assoc. reflexivity.
Qed.
Lemma collected_inv : forall mr ar sns, NoDup mr -> NoDup ar ->
  let c := collected mr ar sns in dc_reps c = all_reps mr /\ dc_areps c = ar /\ inv c (col_of (all_reps mr) sns).
Proof.
  intros mr ar sns N1 N2. destruct (new_facts mr ar N1 N2) as [A [B [C D]]]. destruct (collects_inv sns _ _ B) as [E [F G]]. unfold collected. cbv zeta in *.
  rewrite E, F, A, C. split; [reflexivity|]. split; [reflexivity|]. rewrite A in G. exact G.
Qed.
Lemma all_reps_time : forall mr, ~ In "time" mr -> dget "time" (all_reps mr) = Some KTime.
Proof.
  intros mr H. unfold all_reps. set (l := if dhas "agent_count" _ then _ else _).
  assert (F : ~ In "time" (map fst l)).
  { subst l. destruct (dhas "agent_count" _); rewrite ?map_app, ?in_app_iff, map_map, map_id; [exact H|]. cbn. intros [I|[I|[]]]; [contradiction | discriminate]. }
  rewrite (proj2 (dhas_out l "time") F). rewrite dget_app, dget_fresh by exact F. reflexivity.
Qed.
Lemma all_reps_user : forall mr n, NoDup mr -> In n mr -> dget n (all_reps mr) = Some KUser.
Proof.
  intros mr n N I. apply dget_in; [apply all_reps_nodup, N|]. unfold all_reps.
  assert (J : In (n, KUser) (map (fun n => (n, KUser)) mr)) by (apply in_map_iff; exists n; auto).
  destruct (dhas "agent_count" _); destruct (dhas "time" _); rewrite ?in_app_iff; auto.
Qed.
Lemma all_reps_count : forall mr, ~ In "agent_count" mr -> dget "agent_count" (all_reps mr) = Some KCount.
Proof.
  intros mr H. unfold all_reps.
  assert (F : ~ In "agent_count" (map fst (map (fun n => (n, KUser)) mr))) by (rewrite map_map, map_id; exact H).
  rewrite (proj2 (dhas_out _ "agent_count") F).
  destruct (dhas "time" _); rewrite ?dget_app, (dget_fresh _ _ F); reflexivity.
Qed.
Lemma all_reps_keys : forall mr n, In n (map fst (all_reps mr)) <-> In n mr \/ n = "agent_count" \/ n = "time".
Proof.
  intros mr n. unfold all_reps.
  assert (S : forall (l : dict string rkind) k v, In n (map fst (if dhas k l then l else l ++ [(k, v)])) <-> In n (map fst l) \/ n = k).
  { intros l k v. destruct (dhas k l) eqn:E.
    - apply dhas_in in E. split; [auto|]. intros [H| ->]; auto.
    - rewrite map_app, in_app_iff. cbn. intuition. }
  rewrite S, S, map_map. cbn. rewrite map_id. tauto.
Qed.

Lemma vars_frame_ok : forall c g n, inv c g -> dc_reps c <> [] -> (forall k, List.length (g k) = n) ->
  model_vars_frame c = DOk (Frame None (map CCount (seq 0 n)) (cols (dc_reps c) g)).
Proof.
  intros c g n [E _] H L. unfold model_vars_frame. rewrite E. destruct (dc_reps c) as [|[k r] l]; [congruence|]. cbn [cols map fst].
  rewrite L. replace (forallb _ _) with true; [reflexivity|]. symmetry. apply forallb_forall. intros p I. apply in_map_iff in I.
  destruct I as [q [<- _]]. cbn. rewrite L. apply Nat.eqb_refl.
Qed.
Lemma vars_frame_bad : forall c g k k', inv c g -> In k (map fst (dc_reps c)) -> In k' (map fst (dc_reps c)) -> List.length (g k) <> List.length (g k') ->
  model_vars_frame c = DRaise EValue.
Proof.
  intros c g k k' [E _] I I' H. unfold model_vars_frame. rewrite E. destruct (dc_reps c) as [|[x r] l]; [destruct I|]. cbn [cols map fst] in *.
  destruct (forallb _ _) eqn:F; [|reflexivity]. exfalso. rewrite forallb_forall in F.
  assert (A : forall y, x = y \/ In y (map fst l) -> List.length (g y) = List.length (g x)).
  { intros y [->|J]; [reflexivity|]. apply in_map_iff in J. destruct J as [q [<- J]].
    specialize (F (fst q, g (fst q)) (in_map (fun p => (fst p, g (fst p))) _ _ J)). cbn in F. apply Nat.eqb_eq in F. exact F. }
  rewrite (A k I), (A k' I') in H. congruence.
Qed.
Lemma all_reps_ne : forall mr, all_reps mr <> [].
Proof. intros mr E. assert (In "time" (map fst (all_reps mr))) by (apply all_reps_keys; auto). rewrite E in H. destruct H. Qed.
Lemma collected_frame : forall mr ar sns, NoDup mr -> NoDup ar ->
  model_vars_frame (collected mr ar sns) = DOk (Frame None (map CCount (seq 0 (List.length sns))) (cols (all_reps mr) (col_of (all_reps mr) sns))).
Proof.
  intros mr ar sns N1 N2. destruct (collected_inv mr ar sns N1 N2) as [A [B C]]. cbv zeta in *.
  rewrite (vars_frame_ok _ _ (List.length sns) C); [rewrite A; reflexivity | rewrite A; apply all_reps_ne |].
  intros k. apply map_length.
Qed.

(** ** [model_df]. *)
Lemma ddel_get {A} : forall (l : dict string A) k k', k <> k' -> dget k (ddel k' l) = dget k l.
Proof.
  induction l as [|[x v] l IH]; intros k k' H; cbn; [reflexivity|]. destruct (eqb k' x) eqn:E.
  - apply eqb_eq in E. subst. destruct (eqb k x) eqn:F; [|reflexivity]. apply eqb_eq in F. congruence.
  - cbn. destruct (eqb k x); auto.
Qed.
Lemma ddel_keys {A} : forall (l : dict string A) k, NoDup (map fst l) -> forall x, In x (map fst (ddel k l)) <-> x <> k /\ In x (map fst l).
Proof.
  induction l as [|[y v] l IH]; intros k N x; cbn; [tauto|]. inversion N; subst. destruct (eqb k y) eqn:E.
  - apply eqb_eq in E. subst. split; [intros I; split; [intros ->; contradiction | auto] | intros [H [I|I]]; [congruence | exact I]].
  - cbn. rewrite (IH k H2 x). split; [|tauto]. intros [->|[? ?]]; [|tauto]. split; [intros ->; rewrite eqb_refl in E; discriminate | auto].
Qed.
Lemma model_df_ok : forall mr ar sns, NoDup mr -> NoDup ar -> ~ In "step" mr ->
  model_df false (collected mr ar sns) =
    DOk (Frame (Some "time") (col_of (all_reps mr) sns "time") (("step", map CCount (seq 0 (List.length sns))) :: ddel "time" (cols (all_reps mr) (col_of (all_reps mr) sns)))).
Proof.
  intros mr ar sns N1 N2 H. unfold model_df. rewrite collected_frame by assumption. cbn [dbind f_cols f_index].
  rewrite (proj2 (dhas_out _ "step")).
  - rewrite cols_get. destruct (dget "time" (all_reps mr)) eqn:E; [reflexivity|]. exfalso.
    assert (I : In "time" (map fst (all_reps mr))) by (apply all_reps_keys; auto). apply in_map_iff in I. destruct I as [[x r] [X I]]. cbn in X. subst.
    rewrite (dget_in _ _ _ (all_reps_nodup mr N1) I) in E. discriminate.
  - rewrite cols_keys, all_reps_keys. intros [I|[I|I]]; [contradiction | discriminate | discriminate].
Qed.

(** ** The records of the agents. *)
Definition recs_of (ar : list string) (sn : snap V) : list (nat * list V) := map (fun a => (a, map (sn_agent sn a) ar)) (sn_agents sn).
Lemma ndset_fresh {A} : forall (l : dict nat A) k v, ~ In k (map fst l) -> dset k v l = l ++ [(k, v)].
Proof.
  induction l as [|[k' v'] l IH]; intros k v H; cbn; [reflexivity|]. destruct (eqb k k') eqn:E.
  - apply eqb_eq in E. subst. exfalso. apply H. left. reflexivity.
  - rewrite IH; [reflexivity|]. intros I. apply H. right. exact I.
Qed.
Lemma collects_recs : forall sns (c : dcol V), dc_areps c <> [] -> NoDup (map sn_steps sns) -> (forall sn, In sn sns -> ~ In (sn_steps sn) (map fst (dc_recs c))) ->
  dc_recs (fold_left dcollect sns c) = dc_recs c ++ map (fun sn => (sn_steps sn, recs_of (dc_areps c) sn)) sns.
Proof.
  induction sns as [|sn sns IH]; intros c H N D; cbn [fold_left map]; [rewrite app_nil_r; reflexivity|]. inversion N; subst.
  assert (E : dc_recs (dcollect c sn) = dc_recs c ++ [(sn_steps sn, recs_of (dc_areps c) sn)]).
  { cbn [dcollect dc_recs]. destruct (dc_areps c) eqn:A; [congruence|]. rewrite <- A. apply ndset_fresh. apply D. left. reflexivity. }
  rewrite IH.
  - rewrite E, <- app_assoc. reflexivity.
  - exact H.
  - assumption.
  - intros sn' I J. rewrite E, map_app, in_app_iff in J. destruct J as [J|[J|[]]].
    + exact (D sn' (or_intror I) J).
    + cbn in J. apply H2. rewrite J. apply in_map, I.
Qed.
Definition raw_rows (ar : list string) (sn : snap V) : list (nat * nat * list (option V)) :=
  map (fun a => (sn_steps sn, a, map (fun r => Some (sn_agent sn a r)) ar)) (sn_agents sn).
Lemma collected_rows : forall mr ar sns, NoDup mr -> NoDup ar -> ar <> [] -> NoDup (map sn_steps sns) ->
  agent_rows (collected mr ar sns) = flat_map (raw_rows ar) sns /\
  dc_recs (collected mr ar sns) = map (fun sn => (sn_steps sn, recs_of ar sn)) sns.
Proof.
  intros mr ar sns N1 N2 H N3. destruct (collected_inv mr ar sns N1 N2) as [_ [B _]]. destruct (new_facts mr ar N1 N2) as [_ [_ [C D]]]. cbv zeta in *.
  assert (E : dc_recs (collected mr ar sns) = map (fun sn => (sn_steps sn, recs_of ar sn)) sns).
  { unfold collected. rewrite collects_recs; rewrite ?C, ?D; auto. }
  split; [|exact E]. unfold agent_rows. rewrite E, B. clear. induction sns as [|sn sns IH]; [reflexivity|]. cbn [map flat_map fst snd]. rewrite IH. f_equal.
  unfold recs_of, raw_rows. rewrite map_map. apply map_ext. intros a. cbn [fst snd]. rewrite map_length, Nat.sub_diag. cbn. rewrite app_nil_r, map_map. reflexivity.
Qed.
Lemma agent_vars_ok : forall mr ar sns, NoDup mr -> NoDup ar -> ar <> [] -> NoDup (map sn_steps sns) -> (exists sn, In sn sns /\ sn_agents sn <> []) ->
  agent_vars_rows (collected mr ar sns) = DOk (flat_map (raw_rows ar) sns).
Proof.
  intros mr ar sns N1 N2 H N3 [sn [I Ne]]. destruct (collected_rows mr ar sns N1 N2 H N3) as [A B]. destruct (collected_inv mr ar sns N1 N2) as [_ [C _]]. cbv zeta in *.
  unfold agent_vars_rows. rewrite A, B, C. destruct ar as [|r0 ar']; [congruence|]. set (ar := r0 :: ar') in *.
  destruct (sn_agents sn) as [|a l] eqn:S; [congruence|].
  assert (J : In (sn_steps sn, a, map (fun r => Some (sn_agent sn a r)) ar) (flat_map (raw_rows ar) sns)).
  { apply in_flat_map. exists sn. split; [exact I|]. unfold raw_rows. rewrite S. left. reflexivity. }
  destruct (flat_map (raw_rows ar) sns) eqn:F; [destruct J|].
  replace (existsb _ _) with true; [reflexivity|]. symmetry. apply existsb_exists. exists (sn_steps sn, recs_of ar sn). split.
  - apply in_map_iff. exists sn. auto.
  - cbn [snd]. apply existsb_exists. exists (a, map (sn_agent sn a) ar). split; [unfold recs_of; rewrite S; left; reflexivity|]. cbn [snd]. rewrite map_length. apply Nat.eqb_refl.
Qed.

(** ** Times. *)
Lemma sorted_nodup : forall l : list nat, StronglySorted lt l -> NoDup l.
Proof.
  induction 1; constructor; auto. intros I. rewrite Forall_forall in H0. specialize (H0 a I). lia.
Qed.
Lemma n_eqb_eq : forall x y, n_eqb x y = true -> x = y.
Proof. intros [a| | |] [b| | |] H; cbn in H; try discriminate; auto. apply Z.eqb_eq in H. congruence. Qed.
Lemma distinct_times : forall (veqb : V -> V -> bool) (ts : list num), NoDup ts -> distinct veqb (map (fun t => CTime t) ts) = true.
Proof.
  intros veqb. induction ts as [|t ts IH]; intros N; [reflexivity|]. inversion N; subst. cbn. rewrite IH by assumption. rewrite andb_true_r.
  apply negb_true_iff, not_true_iff_false. rewrite existsb_exists. intros [x [I E]]. apply in_map_iff in I. destruct I as [t' [<- I]]. cbn in E.
  apply n_eqb_eq in E. subst. contradiction.
Qed.
Lemma not_distinct : forall (veqb : V -> V -> bool) (a b : num) l1 l2 l3, n_eqb a b = true ->
  distinct veqb (map (fun t => CTime t) (l1 ++ a :: l2 ++ b :: l3)) = false.
Proof.
  intros veqb a b l1 l2 l3 E. induction l1 as [|t l1 IH]; cbn.
  - replace (existsb _ _) with true; [reflexivity|]. symmetry. apply existsb_exists. exists (CTime b). split; [|exact E].
    rewrite map_app. apply in_or_app. right. left. reflexivity.
  - rewrite IH. apply andb_false_r.
Qed.

Definition stamps (ar : list string) (sns : list (snap V)) : list nat := map (fun r => fst (fst r)) (flat_map (raw_rows ar) sns).
Lemma stamps_in : forall ar sns s, In s (stamps ar sns) <-> exists sn, In sn sns /\ sn_agents sn <> [] /\ sn_steps sn = s.
Proof.
  intros ar sns s. unfold stamps. rewrite in_map_iff. split.
  - intros [r [<- I]]. apply in_flat_map in I. destruct I as [sn [I J]]. unfold raw_rows in J. apply in_map_iff in J. destruct J as [a [<- J]].
    exists sn. split; [exact I|]. split; [intros E; rewrite E in J; destruct J | reflexivity].
  - intros [sn [I [Ne <-]]]. destruct (sn_agents sn) as [|a l] eqn:S; [congruence|].
    exists (sn_steps sn, a, map (fun r => Some (sn_agent sn a r)) ar). split; [reflexivity|]. apply in_flat_map. exists sn. split; [exact I|].
    unfold raw_rows. rewrite S. left. reflexivity.
Qed.
Lemma sorted_app_lt : forall l1 x l2, StronglySorted lt (l1 ++ x :: l2) -> (forall y, In y l1 -> y < x) /\ (forall y, In y l2 -> x < y).
Proof.
  induction l1 as [|z l1 IH]; intros x l2 H; cbn in H; inversion H; subst.
  - split; [intros y []|]. intros y I. rewrite Forall_forall in H3. auto.
  - destruct (IH _ _ H2) as [A B]. split; [|exact B]. intros y [->|I]; [|auto]. rewrite Forall_forall in H3. apply H3. apply in_or_app. right. left. reflexivity.
Qed.
Lemma NoDup_front {A} : forall l1 l2 : list A, NoDup (l1 ++ l2) -> NoDup l1.
Proof. induction l1 as [|x l1 IH]; intros l2 H; [constructor|]. inversion H; subst. constructor; [|eauto]. intros I. apply H2, in_or_app. auto. Qed.
Lemma place_ok : forall ar sns0 pre sn post, Forall (fun sn => sn_agents sn = []) sns0 -> peopled (pre ++ sn :: post) -> StronglySorted lt (map sn_steps (pre ++ sn :: post)) ->
  place (stamps ar (sns0 ++ pre ++ sn :: post)) (sn_steps sn) = List.length pre.
Proof.
  intros ar sns0 pre sn post Z P S. unfold place. rewrite <- (map_length sn_steps pre). apply Permutation_length.
  rewrite map_app in S. cbn in S. destruct (sorted_app_lt _ _ _ S) as [A B]. apply NoDup_Permutation.
  - apply NoDup_nodup.
  - apply sorted_nodup in S. exact (NoDup_front _ _ S).
  - intros x. rewrite nodup_In, filter_In, stamps_in, Nat.ltb_lt. split.
    + intros [[sn' [I [Ne <-]]] L]. rewrite !in_app_iff in I. destruct I as [I|[I|[I|I]]].
      * rewrite Forall_forall in Z. rewrite (Z sn' I) in Ne. congruence.
      * apply in_map, I.
      * subst. lia.
      * specialize (B (sn_steps sn') (in_map _ _ _ I)). lia.
    + intros I. split; [|apply A, I]. apply in_map_iff in I. destruct I as [sn' [<- I]]. exists sn'. unfold peopled in P. rewrite Forall_forall in P.
      assert (J : In sn' (pre ++ sn :: post)) by (apply in_or_app; auto). split; [apply in_or_app; auto|]. split; [apply P, J | reflexivity].
Qed.
Lemma levels_few : forall ar (sns : list (snap V)), List.length (nodup Nat.eq_dec (stamps ar sns)) <= List.length sns.
Proof.
  intros ar sns. rewrite <- (map_length sn_steps sns). apply NoDup_incl_length; [apply NoDup_nodup|]. intros s I. rewrite nodup_In, stamps_in in I.
  destruct I as [sn [I [_ <-]]]. apply in_map, I.
Qed.
Lemma skipn_1 {A} : forall n (l : list A), skipn (S n) l = skipn 1 (skipn n l).
Proof. induction n as [|n IH]; intros [|x l]; auto. change (skipn (S (S n)) (x :: l)) with (skipn (S n) l). rewrite IH. reflexivity. Qed.
Lemma relabel : forall ar ts sns0 suf pre, Forall (fun sn => sn_agents sn = []) sns0 -> peopled (pre ++ suf) -> StronglySorted lt (map sn_steps (pre ++ suf)) ->
  List.length (pre ++ suf) <= List.length ts ->
  map (fun r => (nth (place (stamps ar (sns0 ++ pre ++ suf)) (fst (fst r))) (map (fun t => CTime t) ts) (CCount 0), snd (fst r), snd r)) (flat_map (raw_rows ar) suf) =
  flat_map (fun p => rows_at ar (fst p) (snd p)) (combine suf (skipn (List.length pre) ts)).
Proof.
  intros ar ts sns0. induction suf as [|sn suf IH]; intros pre Z P S L; [reflexivity|].
  cbn [flat_map]. rewrite map_app.
  assert (Lt : List.length pre < List.length ts) by (rewrite app_length in L; cbn in L; lia).
  destruct (skipn (List.length pre) ts) as [|t ts'] eqn:K.
  { apply (f_equal (@List.length _)) in K. rewrite skipn_length in K. cbn in K. lia. }
  cbn [combine flat_map fst snd]. f_equal.
  - unfold raw_rows, rows_at. rewrite map_map. apply map_ext. intros a. cbn [fst snd].
    rewrite place_ok by assumption. do 2 f_equal. rewrite <- (firstn_skipn (List.length pre) ts), map_app, app_nth2; rewrite map_length, firstn_length_le by lia; [|lia].
    rewrite Nat.sub_diag, K. reflexivity.
  - specialize (IH (pre ++ [sn])). rewrite <- app_assoc in IH. cbn [app] in IH. rewrite IH; auto.
    f_equal. f_equal. rewrite app_length. cbn. rewrite Nat.add_comm. cbn.
    replace ts' with (skipn 1 (skipn (List.length pre) ts)) by (rewrite K; reflexivity). apply skipn_1.
Qed.

Lemma col_time : forall mr sns, ~ In "time" mr -> col_of (all_reps mr) sns "time" = map (fun t => CTime t) (map sn_time sns).
Proof. intros mr sns H. unfold col_of. rewrite all_reps_time by exact H. rewrite map_map. apply map_ext. reflexivity. Qed.

Lemma agent_df_shift : forall (veqb : V -> V -> bool) mr ar (sns0 sns1 : list (snap V)), NoDup mr -> NoDup ar -> ar <> [] -> ~ In "time" mr ->
  regular (sns0 ++ sns1) -> Forall (fun sn => sn_agents sn = []) sns0 -> peopled sns1 -> sns1 <> [] ->
  agent_df veqb false (collected mr ar (sns0 ++ sns1)) =
    DOk (AFrame ("time", "agent_id") ar (flat_map (fun p => rows_at ar (fst p) (snd p)) (combine sns1 (map sn_time (sns0 ++ sns1))))).
Proof.
  intros veqb mr ar sns0 sns1 N1 N2 Ne T (S & D & _) Z P Ne1.
  assert (Nd : NoDup (map sn_steps (sns0 ++ sns1))) by (apply sorted_nodup, S).
  destruct (collected_inv mr ar (sns0 ++ sns1) N1 N2) as [_ [B _]]. cbv zeta in B.
  unfold agent_df. rewrite agent_vars_ok; auto.
  2:{ destruct sns1 as [|sn l]; [congruence|]. exists sn. split; [apply in_or_app; right; left; reflexivity|]. inversion P; subst. apply H1. }
  cbn [dbind]. rewrite collected_frame by assumption. cbn [dbind f_cols]. rewrite cols_get, all_reps_time by exact T. rewrite col_time by exact T.
  rewrite distinct_times by exact D. cbn [andb]. rewrite !map_length.
  replace (Nat.leb _ _) with true by (symmetry; apply Nat.leb_le; apply (levels_few ar)). rewrite B. do 2 f_equal.
  rewrite flat_map_app.
  replace (flat_map (raw_rows ar) sns0) with (@nil (nat * nat * list (option V))).
  2:{ clear -Z. induction Z as [|sn l E Z IH]; [reflexivity|]. cbn. rewrite <- IH. unfold raw_rows. rewrite E. reflexivity. }
  cbn [app].
  replace (map (fun r : nat * nat * list (option V) => fst (fst r)) (flat_map (raw_rows ar) sns1)) with (stamps ar (sns0 ++ [] ++ sns1)).
  2:{ unfold stamps. rewrite flat_map_app. replace (flat_map (raw_rows ar) sns0) with (@nil (nat * nat * list (option V))); [reflexivity|].
      clear -Z. induction Z as [|sn l E Z IH]; [reflexivity|]. cbn. rewrite <- IH. unfold raw_rows. rewrite E. reflexivity. }
  rewrite (relabel ar (map sn_time (sns0 ++ sns1)) sns0 sns1 []); auto.
  - cbn [app]. rewrite map_app in S. clear -S. revert S. induction (map sn_steps sns0) as [|x l IH]; intros S; [exact S|]. inversion S; auto.
  - cbn [app]. rewrite map_length, app_length. lia.
Qed.
Lemma combine_self : forall ar (sns : list (snap V)),
  flat_map (fun p => rows_at ar (fst p) (snd p)) (combine sns (map sn_time sns)) = flat_map (fun sn => rows_at ar sn (sn_time sn)) sns.
Proof. intros ar. induction sns as [|sn sns IH]; [reflexivity|]. cbn. rewrite IH. reflexivity. Qed.

Lemma agent_df_same_time : forall (veqb : V -> V -> bool) mr ar sns1 a sns2 b sns3, NoDup mr -> NoDup ar -> ~ In "time" mr -> n_eqb (sn_time a) (sn_time b) = true ->
  forall af, agent_df veqb false (collected mr ar (sns1 ++ a :: sns2 ++ b :: sns3)) <> DOk af.
Proof.
  intros veqb mr ar sns1 a sns2 b sns3 N1 N2 T E af H. unfold agent_df in H. destruct (agent_vars_rows _); [|discriminate]. cbn [dbind] in H.
  rewrite collected_frame in H by assumption. cbn [dbind f_cols] in H. rewrite cols_get, all_reps_time in H by exact T. rewrite col_time in H by exact T.
  replace (map sn_time (sns1 ++ a :: sns2 ++ b :: sns3)) with (map sn_time sns1 ++ sn_time a :: map sn_time sns2 ++ sn_time b :: map sn_time sns3) in H
    by (rewrite map_app; cbn [map]; rewrite map_app; reflexivity).
  rewrite not_distinct in H by exact E. discriminate.
Qed.

(** A late reporter. *)
Lemma late_reporter : forall mr ar (sns1 sns2 : list (snap V)) name, NoDup mr -> NoDup ar -> sns1 <> [] ->
  model_vars_frame (fold_left dcollect sns2 (add_rep (collected mr ar sns1) name KUser)) = DRaise EValue.
Proof.
  intros mr ar sns1 sns2 name N1 N2 Ne. destruct (collected_inv mr ar sns1 N1 N2) as [A [B C]]. cbv zeta in *.
  pose proof (add_inv _ _ name KUser C) as D. destruct (collects_inv sns2 _ _ D) as [E [_ F]]. cbv zeta in *.
  assert (K : forall n, In n (map fst (dc_reps (add_rep (collected mr ar sns1) name KUser))) <-> n = name \/ In n (map fst (all_reps mr))).
  { intros n. cbn [add_rep dc_reps]. rewrite A. apply dset_keys, all_reps_nodup, N1. }
  assert (O : exists k', k' <> name /\ (k' = "agent_count" \/ k' = "time")).
  { destruct (string_dec name "time") as [->|H]; [exists "agent_count" | exists "time"]; split; auto; discriminate. }
  destruct O as [k' [H1 H2]].
  apply (vars_frame_bad _ _ name k' F); rewrite ?E.
  - apply K. auto.
  - apply K. right. apply all_reps_keys. auto.
  - rewrite eqb_refl. replace (eqb name k') with false by (symmetry; apply eqb_neq; auto). unfold col_of. cbn [app]. rewrite app_length, !map_length.
    destruct sns1; [congruence|]. cbn [List.length]. lia.
Qed.

(** ** Drawings. *)
Lemma same_entry_false : forall (veqb : V -> V -> bool) (rows : list (cell V * nat * list (option V))),
  (forall l1 r l2 r' l3, rows = l1 ++ r :: l2 ++ r' :: l3 -> cell_eqb veqb (fst (fst r)) (fst (fst r')) = true -> snd (fst r) <> snd (fst r')) ->
  same_entry veqb rows = false.
Proof.
  intros veqb. induction rows as [|r rows IH]; intros H; [reflexivity|]. cbn. apply orb_false_iff. split.
  - apply not_true_iff_false. rewrite existsb_exists. intros [r' [I E]]. apply andb_true_iff in E. destruct E as [E1 E2]. apply Nat.eqb_eq in E2.
    apply in_split in I. destruct I as [l2 [l3 ->]]. exact (H [] r l2 r' l3 eq_refl E1 E2).
  - apply IH. intros l1 r1 l2 r2 l3 -> E. apply (H (r :: l1) r1 l2 r2 l3 eq_refl E).
Qed.
(** In the rows of regular collections an entry of the index stands once. *)
Definition key (r : cell V * nat * list (option V)) : cell V * nat := fst r.
Lemma rows_keys : forall ar (sns : list (snap V)), map key (flat_map (fun sn => rows_at ar sn (sn_time sn)) sns) =
  flat_map (fun sn => map (fun a => (CTime (sn_time sn), a)) (sn_agents sn)) sns.
Proof.
  intros ar. induction sns as [|sn sns IH]; [reflexivity|]. cbn. rewrite map_app, IH. f_equal. unfold rows_at. rewrite map_map. reflexivity.
Qed.
Lemma NoDup_app_intro {A} : forall l1 l2 : list A, NoDup l1 -> NoDup l2 -> (forall x, In x l1 -> ~ In x l2) -> NoDup (l1 ++ l2).
Proof.
  induction l1 as [|x l1 IH]; intros l2 H1 H2 D; [exact H2|]. inversion H1; subst. cbn. constructor.
  - rewrite in_app_iff. intros [I|I]; [contradiction|]. exact (D x (or_introl eq_refl) I).
  - apply IH; auto. intros y I. apply D. right. exact I.
Qed.
Lemma NoDup_app_parts {A} : forall l1 l2 : list A, NoDup (l1 ++ l2) -> NoDup l1 /\ NoDup l2.
Proof.
  induction l1 as [|x l1 IH]; intros l2 N; [split; [constructor|exact N]|]. inversion N; subst. destruct (IH l2 H2) as [A1 A2]. split; [|exact A2].
  constructor; [|exact A1]. intros I. apply H1. apply in_or_app. now left.
Qed.
Lemma keys_nodup : forall sns : list (snap V), NoDup (map sn_time sns) -> peopled sns ->
  NoDup (flat_map (fun sn => map (fun a => (@CTime V (sn_time sn), a)) (sn_agents sn)) sns).
Proof.
  induction sns as [|sn sns IH]; intros D P; [constructor|]. inversion D; subst. inversion P; subst. cbn. apply NoDup_app_intro.
  - destruct H3 as [_ H3]. clear -H3. induction H3; cbn; constructor; auto. rewrite in_map_iff. intros [y [E I]]. inversion E; subst. contradiction.
  - apply IH; assumption.
  - intros [t a] I J. apply in_map_iff in I. destruct I as [a' [E _]]. inversion E; subst. apply in_flat_map in J. destruct J as [sn' [J K]].
    apply in_map_iff in K. destruct K as [a' [E' _]]. inversion E'; subst. apply H1. rewrite <- H0. apply in_map, J.
Qed.
Lemma rows_single : forall (veqb : V -> V -> bool) ar sns, NoDup (map sn_time sns) -> peopled sns ->
  same_entry veqb (flat_map (fun sn => rows_at ar sn (sn_time sn)) sns) = false.
Proof.
  intros veqb ar sns D P. apply same_entry_false. intros l1 r l2 r' l3 E C H.
  assert (T : forall x, In x (flat_map (fun sn => rows_at ar sn (sn_time sn)) sns) -> exists t, fst (fst x) = CTime t).
  { intros x I. apply in_flat_map in I. destruct I as [sn [_ I]]. unfold rows_at in I. apply in_map_iff in I. destruct I as [a [<- _]]. eexists. reflexivity. }
  destruct (T r) as [t Ht]; [rewrite E; apply in_or_app; right; left; reflexivity|].
  destruct (T r') as [t' Ht']; [rewrite E; apply in_or_app; right; right; apply in_or_app; right; left; reflexivity|].
  rewrite Ht, Ht' in C. cbn in C. apply n_eqb_eq in C. subst t'.
  pose proof (keys_nodup sns D P) as N. rewrite <- (rows_keys ar), E, map_app in N. cbn [map] in N. apply NoDup_remove_2 in N. apply N.
  apply in_or_app. right. rewrite map_app. apply in_or_app. right. left. unfold key. destruct r as [[x y] z], r' as [[x' y'] z']. cbn in *. congruence.
Qed.
Lemma n_eqb_refl : forall t, t <> NaN -> n_eqb t t = true.
Proof. intros [z| | |] H; cbn; try reflexivity; try congruence. apply Z.eqb_refl. Qed.
Lemma counts_right : forall (veqb : V -> V -> bool) ar sns sn v, NoDup (map sn_time sns) -> Forall (fun sn => sn_time sn <> NaN) sns -> In sn sns ->
  counts_of veqb (AFrame ("time", "agent_id") ar (flat_map (fun sn => rows_at ar sn (sn_time sn)) sns)) (CTime (sn_time sn)) v = cells_with veqb ar sn v.
Proof.
  intros veqb ar sns sn v D F I. unfold counts_of, cells_with. cbn [af_rows].
  assert (G : forall l, (forall sn', In sn' l -> sn_time sn' <> sn_time sn) ->
            flat_map (fun r => if cell_eqb veqb (CTime (sn_time sn)) (fst (fst r)) then snd r else []) (flat_map (fun sn => rows_at ar sn (sn_time sn)) l) = []).
  { induction l as [|x l IH]; intros H; [reflexivity|]. cbn [flat_map]. rewrite flat_map_app, IH by (intros y J; apply H; right; exact J). rewrite app_nil_r.
    unfold rows_at. generalize (sn_agents x) as m. induction m as [|a m IHm]; [reflexivity|]. cbn [map flat_map fst snd cell_eqb].
    destruct (n_eqb (sn_time sn) (sn_time x)) eqn:E; [|exact IHm]. apply n_eqb_eq in E. exfalso. apply (H x (or_introl eq_refl)). auto. }
  apply in_split in I. destruct I as [l1 [l2 ->]]. rewrite map_app in D. cbn in D. apply NoDup_remove_2 in D. rewrite in_app_iff in D.
  rewrite flat_map_app. cbn [flat_map]. rewrite !flat_map_app.
  rewrite (G l1), (G l2); [| intros y J E; apply D; right; rewrite <- E; apply in_map, J | intros y J E; apply D; left; rewrite <- E; apply in_map, J].
  rewrite app_nil_r. cbn [app].
  assert (R : n_eqb (sn_time sn) (sn_time sn) = true).
  { apply n_eqb_refl. rewrite Forall_forall in F. apply F. apply in_or_app. right. left. reflexivity. }
  unfold rows_at. generalize (sn_agents sn) as m. induction m as [|a m IHm]; [reflexivity|]. cbn [map flat_map fst snd cell_eqb]. rewrite R.
  rewrite !filter_app, !app_length. f_equal; [|exact IHm]. generalize ar as rs. induction rs as [|r rs IHr]; [reflexivity|]. cbn. destruct (veqb v (sn_agent sn a r)); cbn; rewrite IHr; reflexivity.
Qed.

Lemma plot_steps_raises : forall (veqb : V -> V -> bool) mr ar adf (sns : list (snap V)) ignore, NoDup mr -> NoDup ar ->
  exists e, plot veqb (collected mr ar sns) adf None true ignore = DRaise e.
Proof.
  intros veqb mr ar adf sns ignore N1 N2. unfold plot. destruct (in_dec string_dec "step" mr) as [I|I].
  - unfold model_df. rewrite collected_frame by assumption. cbn [dbind f_cols].
    rewrite (proj2 (dhas_in _ "step")) by (rewrite cols_keys, all_reps_keys; auto). eexists. reflexivity.
  - rewrite model_df_ok by assumption. cbn [dbind f_cols]. exists EKey.
    replace (forallb _ _) with false; [reflexivity|]. symmetry. apply not_true_iff_false. intros H. rewrite forallb_forall in H.
    specialize (H "time" ltac:(apply in_or_app; right; left; reflexivity)). rewrite dhas_in in H. cbn [map fst] in H. destruct H as [H|H]; [discriminate|].
    apply ddel_keys in H; [destruct H as [H _]; congruence|]. rewrite cols_keys. apply all_reps_nodup, N1.
Qed.
Lemma dget_filter {A} : forall (l : dict string A) f k, dget k (filter (fun p => f (fst p)) l) = if f k then dget k l else None.
Proof.
  induction l as [|[x v] l IH]; intros f k; cbn; [destruct (f k); reflexivity|]. destruct (f x) eqn:E; cbn.
  - destruct (eqb k x) eqn:F; [apply eqb_eq in F; subst; rewrite E; reflexivity | apply IH].
  - rewrite IH. destruct (eqb k x) eqn:F; [apply eqb_eq in F; subst; rewrite E; reflexivity | reflexivity].
Qed.
Lemma plot_ok : forall (veqb : V -> V -> bool) mr ar (sns : list (snap V)), NoDup mr -> NoDup ar -> ~ In "time" mr -> ~ In "step" mr -> regular sns -> peopled sns -> sns <> [] ->
  exists d, plot veqb (collected mr ar sns) None None false ["agent_count"] = DOk d /\
    dr_x d = map (fun sn => CTime (sn_time sn)) sns /\
    (forall n, dget n (dr_lines d) = if in_dec string_dec n (remove string_dec "agent_count" mr) then Some (map (fun sn => CUser (sn_model sn n)) sns) else None) /\
    match dr_counts d with
    | None => ar = []
    | Some k => forall sn v, In sn sns -> k (CTime (sn_time sn)) v = cells_with veqb ar sn v
    end.
Proof.
  intros veqb mr ar sns N1 N2 T St R P Ne. unfold plot. rewrite model_df_ok by assumption. cbn [dbind f_cols f_index].
  replace (forallb _ _) with true.
  2:{ symmetry. apply forallb_forall. intros n [<-|[<-|[]]]; [|reflexivity]. apply dhas_in. right. apply ddel_keys; [rewrite cols_keys; apply all_reps_nodup, N1|].
      split; [discriminate|]. rewrite cols_keys. apply all_reps_keys. auto. }
  set (lines := filter _ _).
  assert (L : forall n, dget n lines = if in_dec string_dec n (remove string_dec "agent_count" mr) then Some (map (fun sn => CUser (sn_model sn n)) sns) else None).
  { intros n. subst lines. rewrite (dget_filter _ (fun k => negb (existsb (String.eqb k) (["agent_count"] ++ ["step"])))). cbn [app existsb].
    destruct (String.eqb n "agent_count") eqn:E1; [apply String.eqb_eq in E1; subst; cbn; destruct (in_dec _ _ _) as [I|I]; [apply remove_In in I; destruct I | reflexivity]|].
    destruct (String.eqb n "step") eqn:E2.
    { apply String.eqb_eq in E2. subst. cbn. destruct (in_dec _ _ _) as [I|I]; [apply in_remove in I; destruct I; contradiction | reflexivity]. }
    cbn [orb negb]. cbn [dget]. replace (eqb n "step") with false by (symmetry; exact E2).
    apply String.eqb_neq in E1. destruct (string_dec n "time") as [->|E3].
    { destruct (in_dec _ _ _) as [I|I]; [apply in_remove in I; destruct I; contradiction|]. apply dget_fresh. rewrite ddel_keys by (rewrite cols_keys; apply all_reps_nodup, N1). intros [H _]. congruence. }
    rewrite ddel_get by exact E3. rewrite cols_get. destruct (in_dec _ _ _) as [I|I].
    - apply in_remove in I. destruct I as [I _]. unfold col_of. rewrite all_reps_user by assumption. reflexivity.
    - destruct (dget n (all_reps mr)) as [k|] eqn:G; [|reflexivity]. exfalso. apply dget_some_in in G. apply (in_map fst) in G. apply all_reps_keys in G. cbn [fst] in G.
      destruct G as [G|[G|G]]; [|congruence|congruence]. apply I. apply in_in_remove; assumption. }
  destruct ar as [|r0 ar'].
  - assert (E : agent_df veqb false (collected mr [] sns) = DRaise EUserWarning).
    { unfold agent_df, agent_vars_rows. destruct (collected_inv mr [] sns N1 (NoDup_nil _)) as [_ [B _]]. cbv zeta in B. rewrite B. reflexivity. }
    rewrite E. eexists. split; [reflexivity|]. cbn [dr_x dr_lines dr_counts]. rewrite col_time, map_map by exact T. auto.
  - set (ar := r0 :: ar') in *.
    pose proof (agent_df_shift veqb mr ar [] sns N1 N2 ltac:(discriminate) T R (Forall_nil _) P Ne) as A. cbn [app] in A. rewrite combine_self in A. rewrite A.
    destruct R as (S & D & F). unfold draw_agents. cbn [af_rows].
    destruct (flat_map (fun sn => rows_at ar sn (sn_time sn)) sns) as [|row rows] eqn:Q.
    { exfalso. destruct sns as [|sn sns]; [congruence|]. inversion P; subst. destruct H1 as [H1 _]. cbn in Q. apply app_eq_nil in Q. destruct Q as [Q _]. unfold rows_at in Q. apply map_eq_nil in Q. contradiction. }
    rewrite <- Q. rewrite rows_single by assumption. eexists. split; [reflexivity|]. cbn [dr_x dr_lines dr_counts]. rewrite col_time, map_map by exact T.
    split; [reflexivity|]. split; [exact L|]. intros sn v I. apply counts_right; assumption.
Qed.
End Proofs.
