(** Proofs for VizProps.v. *)
From Coq Require Import List Bool Arith String Lia.
From Verif Require Import PyDict VizModel.
Import ListNotations.

Section Proofs.
Context {V M W F : Type} (veq : V -> V -> bool) (make : dict string V -> W -> W * M) (steps_of : M -> W -> nat) (advance : M -> W -> W).
Context (d : drawer F) (measures : option (list (measure F))).
Notation page := (page V M).
Notation happen := (happen veq make steps_of advance d measures).
Notation happen_all := (happen_all veq make steps_of advance d measures).
Notation render := (render veq make d measures).
Notation use_model := (use_model veq make).

Lemma same_deps_iff a b : same_deps veq a b = true <-> Forall2 (fun x y => veq x y = true) a b.
Proof.
  split.
  - revert b. induction a as [|x a IH]; intros [|y b] E; cbn in E; try discriminate; constructor.
    + now apply andb_true_iff in E.
    + apply IH. now apply andb_true_iff in E.
  - induction 1 as [|x y a b E _ IH]; cbn; auto. now rewrite E, IH.
Qed.

(** The model that is kept was made with values in the order of the keys, and is that of the controller. *)
Definition kept (keys : list string) (p : page) : Prop :=
  dkeys (pg_params p) = keys /\ dkeys (pg_seen p) = keys /\
  forall old r m, pg_memo p = Some (old, r, m) -> pg_controller p = Some m /\ exists ps w0, dkeys ps = keys /\ dvalues ps = old /\ m = snd (make ps w0).
Lemma dkeys_dset_in (k : string) (v : V) (m : dict string V) : In k (dkeys m) -> dkeys (dset k v m) = dkeys m.
Proof. intros I. rewrite dkeys_set. apply dhas_in in I. now rewrite I. Qed.
Lemma use_kept keys p w : kept keys p -> let '(p', w', m) := use_model p w in
  kept keys p' /\ pg_params p' = pg_params p /\ pg_seen p' = pg_params p /\ pg_reset p' = pg_reset p /\
  exists old, pg_memo p' = Some (old, pg_reset p, m) /\ (same_deps veq old (dvalues (pg_params p)) = true \/ old = dvalues (pg_params p)).
Proof.
  intros (K1 & K2 & K3). unfold VizModel.use_model. set (fresh := let '(w0, m) := make (pg_params p) w in _).
  assert (X : let '(p', w', m) := fresh in
    kept keys p' /\ pg_params p' = pg_params p /\ pg_seen p' = pg_params p /\ pg_reset p' = pg_reset p /\
    exists old, pg_memo p' = Some (old, pg_reset p, m) /\ (same_deps veq old (dvalues (pg_params p)) = true \/ old = dvalues (pg_params p))).
  { subst fresh. destruct (make (pg_params p) w) as [w1 m] eqn:E. split; [|cbn; repeat split; eauto].
    split; [exact K1|split; [exact K1|]]. cbn. intros old r m' Z. injection Z as <- <- <-. split; auto.
    exists (pg_params p), w. repeat split; auto. now rewrite E. }
  destruct (pg_memo p) as [[[old r] m]|] eqn:E; [|exact X].
  destruct (same_deps veq old (dvalues (pg_params p)) && (r =? pg_reset p)) eqn:S; [|exact X].
  apply andb_true_iff in S as [S R]. apply Nat.eqb_eq in R. subst r. split; [|cbn; repeat split; eauto].
  split; [exact K1|split; [exact K1|]]. cbn. intros old' r' m' Z. injection Z as <- <- <-. now apply (K3 old (pg_reset p) m).
Qed.
Lemma happen_kept keys h p w : kept keys p -> (forall n v, h = Change n v -> In n keys) -> kept keys (fst (happen (p, w) h)).
Proof.
  intros K N. destruct h as [n v| | |].
  - destruct K as (K1 & K2 & K3). cbn [VizModel.happen fst]. split; [|split; auto]. cbn [pg_params]. rewrite dkeys_dset_in; auto. rewrite K2. now apply (N n v).
  - exact K.
  - cbn. destruct (pg_memo p) as [[[old r] m]|] eqn:E; [|exact K]. destruct K as (K1 & K2 & K3). split; auto. split; auto.
    cbn. intros old' r' m' Z. rewrite <- E in Z. now apply (K3 old' r').
  - cbn. unfold VizModel.render. assert (X := use_kept keys p w K). destruct (use_model p w) as [[p' w'] m]. now destruct X as [X _].
Qed.
Lemma happen_all_kept keys hs : forall p w, kept keys p -> (forall n v, In (Change n v) hs -> In n keys) -> kept keys (fst (happen_all hs (p, w))).
Proof.
  induction hs as [|h hs IH]; intros p w K N; cbn [VizModel.happen_all fold_left]; [exact K|].
  assert (X := happen_kept keys h p w K). destruct (happen (p, w) h) as [p' w']. apply IH.
  - apply X. intros n v ->. apply (N n v). now left.
  - intros n v I. apply (N n v). now right.
Qed.
Lemma open_kept fixed user : kept (dkeys (dupdate fixed user)) (open_page (M := M) fixed user).
Proof. repeat split. - cbn in H. discriminate. - cbn in H. discriminate. Qed.
End Proofs.
