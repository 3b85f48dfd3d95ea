(** C226: the page that shows a model in a notebook (soil/visualization.py:17-110). *)
From Coq Require Import List Bool Arith String Lia.
From Verif Require Import PyDict VizModel VizProofs.
Import ListNotations.
Local Open Scope string_scope.
Local Open Scope list_scope.

(** C226 is false with the default measures, None: all renders fail... *)
Theorem C226_measures_refuted : forall V M W F veq (make : dict string V -> W -> W * M) (d : drawer F) p w,
  snd (render veq make d None p w) = None.
Proof. intros V M W F veq make d p w. unfold render. destruct (use_model veq make p w) as [[p' w'] m]. reflexivity. Qed.
Print Assumptions C226_measures_refuted.
(** ... if two parameters are changed before the page is rendered again, the first of them gets its old value back... *)
Theorem C226_two_changes_refuted : forall V M W F veq (make : dict string V -> W -> W * M) steps_of advance (d : drawer F) measures p w n1 v1 n2 v2,
  n1 <> n2 ->
  let '(p', _) := happen_all veq make steps_of advance d measures [Change n1 v1; Change n2 v2] (p, w) in
  dget n1 (pg_params p') = dget n1 (pg_seen p) /\ dget n2 (pg_params p') = Some v2.
Proof.
  intros V M W F veq make steps_of advance d measures p w n1 v1 n2 v2 N. cbn [happen_all fold_left happen pg_params pg_seen]. split.
  - now rewrite dget_set_other.
  - now rewrite dget_set_same.
Qed.
Print Assumptions C226_two_changes_refuted.
(** ... and JupyterViz does not take the argument controller. *)
Theorem C226_controller_refuted : forall V M (p : page V M) keywords, In "controller" keywords -> jupyter_viz keywords p = None.
Proof.
  intros V M p keywords I. unfold jupyter_viz. replace (existsb (String.eqb "controller") keywords) with true; [reflexivity|].
  symmetry. apply existsb_exists. exists "controller". split; [exact I|reflexivity].
Qed.
Print Assumptions C226_controller_refuted.

(** C226, what holds.  Whatever happened before, a render with measures shows one model in all drawings: that of the controller, made with
    values that are equal to those of the page for all parameters. *)
Theorem C226_shown_partial : forall V M W F veq (make : dict string V -> W -> W * M) steps_of advance (d : drawer F) l fixed user hs w,
  (forall n v, In (Change n v) hs -> In n (dkeys (dupdate fixed user))) ->
  let '(p, w) := happen_all veq make steps_of advance d (Some l) hs (open_page fixed user, w) in
  let '(p', _, drawings) := render veq make d (Some l) p w in
  exists m ps w0 drawn, pg_controller p' = Some m /\ m = snd (make ps w0) /\
    (forall n, match dget n ps, dget n (pg_params p) with Some x, Some y => veq x y = true \/ x = y | None, None => True | _, _ => False end) /\
    drawings = Some drawn /\
    drawn = match d with Default => [SpaceMatplotlib m] | Custom f => [DrawnBy f m] | NoSpace => [] end ++
            map (fun x => match x with Callable f => DrawnBy f m | Attribute n => Plotted m n end) l.
Proof.
  intros V M W F veq make steps_of advance d l fixed user hs w N.
  assert (K := happen_all_kept veq make steps_of advance d (Some l) _ hs (open_page fixed user) w (open_kept make fixed user) N).
  destruct (happen_all veq make steps_of advance d (Some l) hs (open_page fixed user, w)) as [p w1]. cbn [fst] in K.
  unfold render. assert (X := use_kept veq make _ p w1 K). destruct (use_model veq make p w1) as [[p' w'] m].
  destruct X as ((K1 & _ & K3) & E & _ & _ & old & Em & S). destruct (K3 _ _ _ Em) as [C (ps & w0 & P1 & P2 & P3)].
  exists m, ps, w0. eexists. split; [exact C|]. split; [exact P3|]. split; [|split; reflexivity].
  assert (Q : dkeys ps = dkeys (pg_params p)) by (rewrite P1, <- K1, E; reflexivity).
  assert (T : Forall2 (fun x y => veq x y = true \/ x = y) (dvalues ps) (dvalues (pg_params p))).
  { rewrite P2. destruct S as [S| ->].
    - apply same_deps_iff in S. clear -S. induction S; constructor; auto.
    - clear. induction (dvalues (pg_params p)); constructor; auto. }
  clear -Q T. revert Q T. generalize (pg_params p). intros q. revert q. induction ps as [|[k x] ps IH]; intros [|[k' y] q] Q T n; cbn in *; try discriminate; auto.
  injection Q as -> Q. inversion T as [|? ? ? ? T1 T2]; subst. destruct (string_dec n k') as [->|D].
  - rewrite eqb_refl. exact T1.
  - destruct (eqb n k') eqn:B; [apply eqb_eq in B; congruence|]. now apply (IH q).
Qed.
Print Assumptions C226_shown_partial.

(** If the page is rendered after each change, its parameters are those that the user has chosen. *)
Fixpoint prompt {V} (hs : list (happening V)) : Prop :=
  match hs with
  | [] => True
  | Change _ _ :: hs' => match hs' with Render :: hs'' => prompt hs'' | _ => False end
  | _ :: hs' => prompt hs'
  end.
Definition choice {V} (ps : dict string V) (h : happening V) : dict string V := match h with Change n v => dset n v ps | _ => ps end.
Theorem C226_changes_partial : forall V M W F veq (make : dict string V -> W -> W * M) steps_of advance (d : drawer F) measures fixed user hs w,
  prompt hs ->
  let '(p, _) := happen_all veq make steps_of advance d measures hs (open_page fixed user, w) in
  pg_params p = fold_left choice hs (dupdate fixed user).
Proof.
  intros V M W F veq make steps_of advance d measures fixed user hs w P.
  assert (U : forall p w, let '(p', _, _) := use_model veq make p w in pg_params p' = pg_params p /\ pg_seen p' = pg_params p).
  { clear. intros p w. unfold use_model. destruct (pg_memo p) as [[[old r] m]|]; [destruct (_ && _)|]; try (destruct (make (pg_params p) w)); cbn; auto. }
  assert (G : forall k hs, List.length hs <= k -> prompt hs -> forall (p : page V M) w, pg_seen p = pg_params p ->
    let '(p', _) := happen_all veq make steps_of advance d measures hs (p, w) in pg_params p' = fold_left choice hs (pg_params p)).
  { clear -U. induction k as [|k IH]; intros [|h hs] L P p w S; cbn [List.length] in L; try lia; try reflexivity.
    destruct h as [n v| | |].
    - destruct hs as [|[| | |] hs]; try contradiction. cbn [happen_all fold_left].
      assert (X := U (Page (dset n v (pg_seen p)) (pg_seen p) (pg_reset p) (pg_memo p) (pg_step p) (pg_controller p)) w).
      cbn [happen]. unfold render.
      destruct (use_model veq make _ w) as [[p' w'] m]. cbn [pg_params] in X. destruct X as [X1 X2].
      specialize (IH hs). cbn [List.length] in L. specialize (IH ltac:(lia) P p' w' ltac:(congruence)). cbn [choice]. rewrite X1, S in IH. exact IH.
    - apply (IH hs ltac:(lia) P (Page (pg_params p) (pg_seen p) (Datatypes.S (pg_reset p)) (pg_memo p) (pg_step p) (pg_controller p)) w S).
    - cbn [happen_all fold_left happen choice]. destruct (pg_memo p) as [[[old r] m]|] eqn:E; [|apply (IH hs ltac:(lia) P p w S)].
      rewrite <- E. apply (IH hs ltac:(lia) P (Page (pg_params p) (pg_seen p) (pg_reset p) (pg_memo p) (steps_of m (advance m w)) (pg_controller p)) (advance m w) S).
    - cbn [happen_all fold_left happen choice]. unfold render. assert (X := U p w).
      destruct (use_model veq make p w) as [[p' w'] m]. destruct X as [X1 X2]. rewrite <- X1.
      apply (IH hs ltac:(lia) P p' w'). congruence. }
  apply (G _ hs (le_n _) P (open_page fixed user) w eq_refl).
Qed.
Print Assumptions C226_changes_partial.

(** A model is kept until something changes: rendering again does nothing.  After a reset, or after a change to a value that is not equal,
    a new model is made from the parameters, and the step shown is 0. *)
Theorem C226_kept_partial : forall V M W F veq (make : dict string V -> W -> W * M) steps_of advance (d : drawer F) measures p w,
  (Forall (fun v => veq v v = true) (dvalues (pg_params p)) ->
     let '(p1, w1) := happen veq make steps_of advance d measures (p, w) Render in
     happen veq make steps_of advance d measures (p1, w1) Render = (p1, w1)) /\
  (forall old r m, pg_memo p = Some (old, r, m) -> r <= pg_reset p ->
     let '(p2, w2) := happen_all veq make steps_of advance d measures [Reset; Render] (p, w) in
     w2 = fst (make (pg_params p) w) /\ pg_controller p2 = Some (snd (make (pg_params p) w)) /\ pg_step p2 = 0) /\
  (forall ps r m n x v, pg_memo p = Some (dvalues ps, r, m) -> dkeys ps = dkeys (pg_seen p) -> dget n ps = Some x -> veq x v = false ->
     let '(p2, w2) := happen_all veq make steps_of advance d measures [Change n v; Render] (p, w) in
     let ps' := dset n v (pg_seen p) in
     w2 = fst (make ps' w) /\ pg_controller p2 = Some (snd (make ps' w)) /\ pg_step p2 = 0).
Proof.
  intros V M W F veq make steps_of advance d measures p w. split; [|split].
  - intros R. cbn [happen]. unfold render.
    assert (D : same_deps veq (dvalues (pg_params p)) (dvalues (pg_params p)) = true).
    { apply same_deps_iff. clear -R. induction R; constructor; auto. }
    unfold use_model at 1. destruct (pg_memo p) as [[[old r] m]|] eqn:E.
    + destruct (same_deps veq old (dvalues (pg_params p)) && (r =? pg_reset p)%nat) eqn:S.
      * unfold use_model. cbn [pg_memo pg_params pg_reset]. rewrite S. reflexivity.
      * destruct (make (pg_params p) w) as [w1 m1]. unfold use_model. cbn [pg_memo pg_params pg_reset]. rewrite D, Nat.eqb_refl. reflexivity.
    + destruct (make (pg_params p) w) as [w1 m1]. unfold use_model. cbn [pg_memo pg_params pg_reset]. rewrite D, Nat.eqb_refl. reflexivity.
  - intros old r m E L. cbn [happen_all fold_left happen]. unfold render, use_model. cbn [pg_memo pg_params pg_reset]. rewrite E.
    destruct (Nat.eqb_spec r (S (pg_reset p))) as [Z|Z]; [lia|]. rewrite andb_false_r. destruct (make (pg_params p) w) as [w1 m1]. auto.
  - intros ps r m n x v E K G N. cbn [happen_all fold_left happen]. unfold render, use_model. cbn [pg_memo pg_params pg_reset]. rewrite E.
    assert (D : same_deps veq (dvalues ps) (dvalues (dset n v (pg_seen p))) = false).
    { clear E. revert K. generalize (pg_seen p). intros q. revert q. induction ps as [|[k y] ps IH]; intros [|[k' z] q] K; cbn in G, K; try discriminate.
      injection K as -> K. cbn [dset]. destruct (eqb n k') eqn:B.
      - injection G as ->. cbn. now rewrite N.
      - cbn [dvalues map snd same_deps]. fold (dvalues ps) (dvalues (dset n v q)). change (map snd ps) with (dvalues ps). change (map snd (dset n v q)) with (dvalues (dset n v q)).
        rewrite (IH G q K). apply andb_false_r. }
    rewrite D. cbn [andb]. destruct (make (dset n v (pg_seen p)) w) as [w1 m1]. auto.
Qed.
Print Assumptions C226_kept_partial.

(** Models are numbered, with the parameters they were made with. *)
Definition pg_make (ps : dict string nat) (w : nat) : nat * (nat * dict string nat) := (S w, (w, ps)).
Definition pg_happen := happen_all (F := nat) Nat.eqb pg_make (fun _ _ => 5) (fun _ w => w) Default (Some [Attribute "Gini"; Callable 3]).
Definition pg_start : page nat (nat * dict string nat) := open_page [("width", 10)] [("N", 50); ("rate", 2)].
Example C226_case :
  let '(p, w) := pg_happen [Render; Change "N" 60; Render; Step; Render] (pg_start, 0) in
  w = 2 /\ pg_step p = 5 /\ pg_controller p = Some (1, [("width", 10); ("N", 60); ("rate", 2)]) /\
  snd (render Nat.eqb pg_make Default (Some [Attribute "Gini"; Callable 3]) p w) =
    Some (let m := (1, [("width", 10); ("N", 60); ("rate", 2)]) in [SpaceMatplotlib m; Plotted m "Gini"; DrawnBy 3 m]) /\
  pg_controller (fst (pg_happen [Change "rate" 3; Change "N" 70; Render] (p, w))) = Some (2, [("width", 10); ("N", 70); ("rate", 2)]) /\
  snd (pg_happen [Render; Reset; Render] (p, w)) = 3.
Proof. vm_compute. repeat split. Qed.
Example C226_prompt : prompt [Render; Change "N" 60; Render; Step; Render].
Proof. exact I. Qed.
