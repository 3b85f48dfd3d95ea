(** Proofs about ReportModel. *)
From Coq Require Import List Bool Arith String Lia.
From Verif Require Import PyDict ReportModel ReportSpec.
Import ListNotations.
Local Open Scope string_scope.

Section A.
Context {A T V : Type}.
Variable none : V.
Variable isinstance : A -> T -> bool.
Variable getattr : A -> string -> result V.
Notation reporter := (reporter A T V).

(** What the reporter of a name is. *)
Definition describes (e : env A T V) (name : string) (g : given A V) (t : option T) (r : reporter) : Prop :=
  match t with
  | None => r = (if falsy (as_reporter g : reporter) then PStr name else as_reporter g)
  | Some t => exists c, r = PLambda c t /\ nth_error (e_cells e) c = Some (PLambda c t)
  end.

Lemma after_snoc l x : after (l ++ [x]) = let '(name, g, t) := x in add_agent_reporter name (as_reporter g) t (after l : env A T V).
Proof. unfold after. rewrite fold_left_app. simpl. now destruct x as [[name g] t]. Qed.
Lemma last_snoc (name k : string) (g : given A V) (t : option T) l :
  last_call name (l ++ [(k, g, t)]) = if String.eqb k name then Some (g, t) else last_call name l.
Proof.
  induction l as [|[[k1 g1] t1] l IH]; simpl.
  - now destruct (String.eqb k name).
  - rewrite IH. now destruct (String.eqb k name).
Qed.

Lemma after_describes l : forall name,
  match last_call name l with
  | None => dget name (e_reporters (after l : env A T V)) = None
  | Some (g, t) => exists r, dget name (e_reporters (after l)) = Some r /\ describes (after l) name g t r
  end.
Proof.
  induction l as [|[[k g] t] l IH] using rev_ind; intros name; [reflexivity|].
  rewrite last_snoc, after_snoc. destruct (String.eqb k name) eqn:E.
  - apply String.eqb_eq in E. subst k. unfold add_agent_reporter. cbn [e_reporters]. rewrite dget_set_same.
    eexists. split; [reflexivity|]. destruct t as [t|]; simpl.
    + exists (List.length (e_cells (after l : env A T V))). split; auto.
      rewrite nth_error_app2, Nat.sub_diag by lia. reflexivity.
    + reflexivity.
  - apply String.eqb_neq in E. specialize (IH name). unfold add_agent_reporter. cbn [e_reporters].
    rewrite dget_set_other by auto. destruct (last_call name l) as [[g0 t0]|]; [|exact IH].
    destruct IH as (r & D & H). exists r. split; auto. destruct t0 as [t0|]; [|exact H].
    destruct H as (c & -> & N). exists c. split; auto. cbn [e_cells].
    rewrite nth_error_app1; auto. apply nth_error_Some. congruence.
Qed.

Lemma lambda_loops cells c t a : nth_error cells c = Some (PLambda c t : reporter) -> isinstance a t = true ->
  forall limit, call none isinstance limit cells (PLambda c t) a = RecursionError.
Proof.
  intros N I limit. induction limit as [|n IH]; cbn [call]; rewrite I; auto.
  now rewrite (nth_error_nth _ _ PNone N).
Qed.

Lemma restricted_loops l name g t : last_call name l = Some (g, Some t) ->
  exists r, dget name (e_reporters (after l)) = Some r /\
    forall limit a, evaluate none isinstance getattr limit (e_cells (after l)) r a =
      if isinstance a t then RecursionError else Value none.
Proof.
  intros L. pose proof (after_describes l name) as D. rewrite L in D. destruct D as (r & D & c & -> & N).
  exists (PLambda c t). split; auto. intros limit a. cbn [evaluate]. destruct (isinstance a t) eqn:I.
  - now apply lambda_loops.
  - destruct limit; cbn [call]; now rewrite I.
Qed.
Lemma unrestricted l name g : last_call name l = Some (g, None) ->
  exists r, dget name (e_reporters (after l : env A T V)) = Some r /\
    forall limit a, evaluate none isinstance getattr limit (e_cells (after l)) r a = expected none getattr name g a.
Proof.
  intros L. pose proof (after_describes l name) as D. rewrite L in D. destruct D as (r & D & ->).
  eexists. split; [exact D|]. intros limit a. destruct g as [|s|f]; cbn [as_reporter falsy expected].
  - reflexivity.
  - destruct s; reflexivity.
  - destruct limit; reflexivity.
Qed.

Lemma each_value {X Y} (f : X -> result Y) l : forall ys, each f l = Value ys ->
  forall x, In x l -> exists y, f x = Value y /\ In y ys.
Proof.
  induction l as [|z l IH]; intros ys H x I; [destruct I|]. simpl in H.
  destruct (f z) as [y| | | |] eqn:E; try discriminate. destruct (each f l) as [r| | | |]; try discriminate.
  injection H as <-. destruct I as [->|I].
  - exists y. simpl. auto.
  - destruct (IH r eq_refl x I) as (y' & F & J). exists y'. simpl. auto.
Qed.
Lemma each_ok {X Y} (f : X -> result Y) (g : X -> Y) l : (forall x, In x l -> f x = Value (g x)) -> each f l = Value (List.map g l).
Proof.
  induction l as [|x l IH]; intros H; [reflexivity|]. simpl. rewrite H by (simpl; auto).
  rewrite IH; auto. intros y I. apply H. simpl. auto.
Qed.

Lemma no_record l name g t agents a limit : last_call name l = Some (g, Some t) -> In a agents -> isinstance a t = true ->
  forall rows, record none isinstance getattr limit (after l) agents <> Value rows.
Proof.
  intros L I T' rows H. unfold record in H. destruct (restricted_loops l name g t L) as (r & D & E).
  destruct (each_value _ _ _ H a I) as (y & F & _). apply dget_in in D.
  destruct (each_value _ _ _ F (name, r) D) as (z & G & _). cbn [snd] in G. rewrite E, T' in G. discriminate.
Qed.
End A.

Section M.
Context {M V : Type}.
Variable none : V.
Notation mro := (list (dict string (attr M V))).

Lemma lookup_dir (c : mro) k a : lookup c k = Some a -> In k (dir c).
Proof.
  unfold dir. rewrite nodup_In. induction c as [|ns c IH]; [discriminate|]. simpl. rewrite in_app_iff.
  destruct (dget k ns) eqn:E; auto. intros _. left. apply dhas_in. now rewrite dhas_get, E.
Qed.

Lemma fold_marked (c : mro) l : forall (r : dict string (source M V)) k,
  dget k (fold_left (fun r k => match lookup c k with
                        | Some a => if marked a then add_model_reporter k (Some (SName k)) r else r
                        | None => r
                        end) l r) =
  if existsb (String.eqb k) l && match lookup c k with Some a => marked a | None => false end
  then Some (SName k) else dget k r.
Proof.
  induction l as [|x l IH]; intros r k; [reflexivity|]. simpl. rewrite IH.
  destruct (String.eqb k x) eqn:E.
  - apply String.eqb_eq in E. subst x. cbn [orb]. destruct (lookup c k) as [a|] eqn:L.
    + destruct (marked a) eqn:B.
      * cbn [andb]. rewrite andb_true_r. destruct (existsb (String.eqb k) l); auto. apply dget_set_same.
      * now rewrite !andb_false_r.
    + now rewrite !andb_false_r.
  - cbn [orb]. destruct (existsb (String.eqb k) l && _); auto.
    destruct (lookup c x) as [a|]; auto. destruct (marked a); auto. apply dget_set_other. now apply String.eqb_neq.
Qed.
Lemma add_marked_get (c : mro) (r : dict string (source M V)) k :
  dget k (add_marked c r) = if match lookup c k with Some a => marked a | None => false end then Some (SName k) else dget k r.
Proof.
  unfold add_marked. rewrite fold_marked. destruct (lookup c k) as [a|] eqn:L; [|now rewrite andb_false_r].
  destruct (marked a); [|now rewrite andb_false_r]. rewrite andb_true_r.
  assert (existsb (String.eqb k) (dir c) = true) as ->; auto.
  apply existsb_exists. exists k. split; [now apply (lookup_dir c k a)|apply String.eqb_refl].
Qed.

Lemma row_get (c : mro) r m d : row none c r m = Value d ->
  forall k s, dget k r = Some s -> exists x, value_of none c m s = Value x /\ dget k d = Some x.
Proof.
  unfold row. revert d. induction r as [|[k0 s0] r IH]; intros d H k s G; [discriminate|]. cbn [each fst snd] in H; cbn [dget] in G.
  destruct (value_of none c m s0) as [x| | | |] eqn:E; try discriminate.
  destruct (each _ r) as [d'| | | |]; try discriminate. injection H as <-.
  destruct (eqb k k0) eqn:Q.
  - injection G as <-. exists x. split; auto. cbn [dget]. now rewrite Q.
  - destruct (IH d' eq_refl k s G) as (y & F & D). exists y. split; auto. cbn [dget]. now rewrite Q.
Qed.
Lemma row_none (c : mro) r m d : row none c r m = Value d -> forall k, dget k r = None -> dget k d = None.
Proof.
  unfold row. revert d. induction r as [|[k0 s0] r IH]; intros d H k G.
  - injection H as <-. reflexivity.
  - cbn [each fst snd] in H; cbn [dget] in G. destruct (value_of none c m s0) as [x| | | |]; try discriminate.
    destruct (each _ r) as [d'| | | |]; try discriminate. injection H as <-.
    cbn [dget]. destruct (eqb k k0); [discriminate|]. now apply IH.
Qed.
End M.
