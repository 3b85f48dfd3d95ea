(** Proofs about the construction of agents. *)
From Coq Require Import List Bool Arith String Lia.
From Verif Require Import PyDict ConstructModel ConstructSpec.
Import ListNotations.
Local Open Scope list_scope.

Ltac fin NI := unfold has_inbox, has_node, has_state in *; cbn in *;
  solve [ auto | eauto | intros [?|?]; [discriminate|first [solve [auto]|match goal with H : ?P -> _ |- _ => apply H; assumption end]] | intros ? [?|?]; [discriminate|auto]
        | intros Q; apply NI; intros ?; apply Q; now right | intros Q; elim Q; now left ].
Ltac parts NI := repeat (split; [fin NI|]); fin NI.

Section Proofs.
Variable states : list string.
Variable default : option string.
Variable self : nat.
Variable pick : cworld -> nat.
Variable user_init : obj -> cworld -> out.
Notation construct := (construct states default self pick user_init).

(** The constructors without [init]. *)
Lemma quiet m : forall s n o w, exists r, construct m (Args (Some false) s n) o w = (r, []) /\
  forall w' o', r = (w', inl o') ->
  o_base o' = true /\ o_alive o' = true /\ has_inbox m o' /\ has_node m o' /\ has_state m default s o' /\
  (~ In PEvent m -> o_inbox o' = o_inbox o) /\
  (In PFsm m -> match s with Some x => In x states | None => True end) /\
  (forall x, In PNet m -> n = Some x -> o_node o' = Some x).
Proof.
  induction m as [|p m IH]; intros s n o w; cbn [ConstructModel.construct a_state a_node a_init].
  - eexists. split; [reflexivity|]. cbn. intros w' o' X. injection X as <- <-. cbn.
    split; [reflexivity|]. split; [reflexivity|]. split; [intros []|]. split; [intros []|]. split; [intros []|].
    split; [reflexivity|]. split; [intros []|intros x []].
  - destruct p.
    + destruct (IH s None o w) as (r & -> & H). unfold finish. destruct r as [w1 [o1|e]]; [|eexists; split; [reflexivity|discriminate]].
      destruct (H _ _ eq_refl) as (B & A & HI & HN & HS & NI & SV & _). unfold set_up_node. cbn [a_node a_init].
      assert (G : forall k (w2 : cworld), exists r : out, (((w2, inl (Obj (o_base o1) (o_alive o1) (o_inbox o1) (o_state o1) (Some k))) : out), []) = (r, @nil obj) /\
        forall (w' : cworld) o', r = ((w', inl o') : out) ->
        o_base o' = true /\ o_alive o' = true /\ has_inbox (PNet :: m) o' /\ has_node (PNet :: m) o' /\ has_state (PNet :: m) default s o' /\
        (~ In PEvent (PNet :: m) -> o_inbox o' = o_inbox o) /\
        (In PFsm (PNet :: m) -> match s with Some x => In x states | None => True end) /\ o_node o' = Some k).
      { intros k w2. eexists. split; [reflexivity|]. intros w' o' X. injection X as <- <-. cbn.
        parts NI. }
      destruct n as [n|].
      * destruct (dhas n (cw_nodes w1)); [|eexists; split; [reflexivity|discriminate]].
        destruct (G n (CWorld (dset n (Some self) (cw_nodes w1)) (cw_sched w1))) as (r & E & K). exists r. split; [exact E|]. intros w' o' X. destruct (K w' o' X) as (K1 & K2 & K3 & K4 & K5 & K6 & K7 & K8).
        repeat split; auto. intros x _ Y. injection Y as <-. exact K8.
      * destruct (G (pick w1) (CWorld (dset (pick w1) (Some self) (cw_nodes w1)) (cw_sched w1))) as (r & E & K). exists r. split; [exact E|]. intros w' o' X. destruct (K w' o' X) as (K1 & K2 & K3 & K4 & K5 & K6 & K7 & K8).
        repeat split; auto. discriminate.
    + destruct (IH None n o w) as (r & -> & H). unfold finish. destruct r as [w1 [o1|e]]; [|eexists; split; [reflexivity|discriminate]].
      destruct (H _ _ eq_refl) as (B & A & HI & HN & HS & NI & SV & HX). unfold set_up_state. cbn [a_state a_init].
      assert (G : forall cur, cur = match s with Some x => Some x | None => default end ->
        match s with Some x => In x states | None => True end -> exists r : out,
        match
          (if (1 <? Datatypes.length states) && match cur with Some _ => false | None => true end
           then (w1, inr CValueError)
           else (w1, inl (Obj (o_base o1) (o_alive o1) (o_inbox o1) cur (o_node o1)))) : out
        with
        | (w', inl o') => ((w', inl o') : out, @nil obj)
        | (w', inr e) => ((w', inr e), [])
        end = (r, []) /\
        forall w' o', r = (w', inl o') ->
        o_base o' = true /\ o_alive o' = true /\ has_inbox (PFsm :: m) o' /\ has_node (PFsm :: m) o' /\ has_state (PFsm :: m) default s o' /\
        (~ In PEvent (PFsm :: m) -> o_inbox o' = o_inbox o) /\
        (In PFsm (PFsm :: m) -> match s with Some x => In x states | None => True end) /\
        (forall x, In PNet (PFsm :: m) -> n = Some x -> o_node o' = Some x)).
      { intros cur EC IS. destruct (_ && _); [eexists; split; [reflexivity|discriminate]|]. eexists. split; [reflexivity|].
        intros w' o' X. injection X as <- <-. cbn. parts NI. }
      destruct s as [s|].
      * destruct (existsb (String.eqb s) states) eqn:EX; [|eexists; split; [reflexivity|discriminate]].
        refine (G (Some s) eq_refl _). apply existsb_exists in EX as (y & Y & EQ). apply String.eqb_eq in EQ. now subst.
      * exact (G default eq_refl I).
    + destruct (IH s n o w) as (r & -> & H). destruct r as [w1 [o1|e]]; [|eexists; split; [reflexivity|discriminate]].
      destruct (H _ _ eq_refl) as (B & A & HI & HN & HS & NI & SV & HX). eexists. split; [reflexivity|].
      intros w' o' X. injection X as <- <-. cbn. parts NI.
    + destruct (IH s n o w) as (r & -> & H). eexists. split; [reflexivity|]. intros w' o' X.
      destruct (H _ _ X) as (B & A & HI & HN & HS & NI & SV & HX).
      parts NI.
Qed.

(** The constructors with [init], up to the first one that calls it. *)
Lemma split_mro m : exists pre rest, m = pre ++ rest /\ Forall passes_on pre /\
  match rest with p :: _ => p = PNet \/ p = PFsm | [] => True end.
Proof.
  induction m as [|p m (pre & rest & -> & F & H)].
  - exists [], []. auto.
  - destruct p.
    + exists [], (PNet :: pre ++ rest). auto.
    + exists [], (PFsm :: pre ++ rest). auto.
    + exists (PEvent :: pre), rest. repeat split; auto. constructor; auto. now left.
    + exists (PPlain :: pre), rest. repeat split; auto. constructor; auto. now right.
Qed.
(** A constructor that passes its arguments on. *)
Lemma passed pre m a o w : Forall passes_on pre ->
  snd (construct (pre ++ m) a o w) = snd (construct m a o w) /\
  match fst (construct m a o w) with
  | (w', inr e) => fst (construct (pre ++ m) a o w) = (w', inr e)
  | (w', inl o') => fst (construct (pre ++ m) a o w) =
      (w', inl (Obj (o_base o') (o_alive o') (has PEvent pre || o_inbox o') (o_state o') (o_node o')))
  end.
Proof.
  induction 1 as [|p pre [->| ->] F [IH1 IH2]]; cbn [app ConstructModel.construct].
  - split; auto. destruct (fst _) as [w' [[b a' i s n]|e]]; reflexivity.
  - destruct (construct (pre ++ m) a o w) as [[w1 [o1|e1]] t]; cbn [fst snd] in *; split; auto.
    + destruct (fst (construct m a o w)) as [w' [o'|e]]; [|discriminate]. injection IH2 as -> ->. reflexivity.
    + destruct (fst (construct m a o w)) as [w' [o'|e]]; [discriminate|]. exact IH2.
  - split; auto.
Qed.
(** What [init] finds. *)
Definition complete m s n (o o0 : obj) : Prop :=
  o_base o = true /\ o_alive o = true /\ has_inbox m o /\ has_node m o /\ has_state m default s o /\
  (~ In PEvent m -> o_inbox o = o_inbox o0) /\
  (In PFsm m -> match s with Some x => In x states | None => True end) /\
  (forall x, In PNet m -> n = Some x -> o_node o = Some x).
Lemma as_if_false m b s n o w : match m with p :: _ => p = PNet \/ p = PFsm | [] => True end -> b <> Some false ->
  let '(r, t) := construct m (Args b s n) o w in
  let '(r0, _) := construct m (Args (Some false) s n) o w in
  match r0 with
  | (w', inr e) => r = (w', inr e) /\ t = []
  | (w', inl o') => r = user_init o' w' /\ t = [o']
  end.
Proof.
  intros H NB.
  assert (NBB : match b with Some b => b | None => true end = true) by (destruct b as [[]|]; congruence).
  destruct m as [|p m]; cbn [ConstructModel.construct a_state a_node a_init].
  - unfold finish. cbn [a_init]. rewrite NBB. cbn. auto.
  - destruct H as [->| ->]; cbn [ConstructModel.construct a_state a_node].
    + destruct (quiet m s None o w) as (r & -> & _). unfold finish. cbn [a_init]. destruct r as [w1 [o1|e]]; auto.
      replace (set_up_node self pick (Args b s n) o1 w1) with (set_up_node self pick (Args (Some false) s n) o1 w1) by reflexivity.
      destruct (set_up_node _ _ _ _ _) as [w2 [o2|e]]; auto. now rewrite NBB.
    + destruct (quiet m None n o w) as (r & -> & _). unfold finish. cbn [a_init]. destruct r as [w1 [o1|e]]; auto.
      replace (set_up_state states default (Args b s n) o1 w1) with (set_up_state states default (Args (Some false) s n) o1 w1) by reflexivity.
      destruct (set_up_state _ _ _ _ _) as [w2 [o2|e]]; auto. now rewrite NBB.
Qed.
Lemma quiet_world m : forall s n o w, let w' := fst (fst (construct m (Args (Some false) s n) o w)) in
  cw_sched w' = cw_sched w /\ (dwf (cw_nodes w) -> dwf (cw_nodes w')).
Proof.
  induction m as [|p m IH]; intros s n o w; cbn [ConstructModel.construct a_state a_node a_init].
  - cbn. auto.
  - destruct p.
    + destruct (quiet m s None o w) as (r & E & _). specialize (IH s None o w). rewrite E in *. unfold finish. cbn [fst] in IH.
      destruct r as [w1 [o1|e]]; cbn [fst] in *; auto. unfold set_up_node. cbn [a_node a_init]. destruct IH as [I1 I2].
      destruct n as [n|]; [destruct (dhas n (cw_nodes w1))|]; cbn [fst cw_sched cw_nodes]; auto; split; auto; intros W; apply dset_wf; auto.
    + destruct (quiet m None n o w) as (r & E & _). specialize (IH None n o w). rewrite E in *. unfold finish. cbn [fst] in IH.
      destruct r as [w1 [o1|e]]; cbn [fst] in *; auto. unfold set_up_state. cbn [a_state a_init].
      destruct s as [s|]; [destruct (existsb _ _)|]; try destruct (_ && _); cbn [fst]; auto.
    + specialize (IH s n o w). destruct (construct m _ o w) as [[w1 [o1|e]] t]; cbn [fst] in *; auto.
    + apply IH.
Qed.
Lemma quiet_keys m k : forall s n o w, dget k (cw_nodes w) <> None ->
  let r := construct m (Args (Some false) s n) o w in
  dget k (cw_nodes (fst (fst r))) <> None /\ (n = None \/ n = Some k -> forall w' e, fst r = (w', inr e) -> e = CValueError).
Proof.
  induction m as [|p m IH]; intros s n o w HK; cbn [ConstructModel.construct a_state a_node a_init].
  - cbn. split; auto. discriminate.
  - destruct p.
    + destruct (quiet m s None o w) as (r & E & _). destruct (IH s None o w HK) as [I1 I2]. rewrite E in *. unfold finish. cbn [fst] in I1, I2.
      destruct r as [w1 [o1|e]]; cbn [fst] in *.
      2:{ split; auto. intros _ w' e' X. injection X as <- <-. eapply I2; eauto. }
      unfold set_up_node. cbn [a_node a_init].
      assert (G : forall j w', dget k (dset j w' (cw_nodes w1)) <> None).
      { intros j w'. rewrite dget_set. destruct (eqb k j); [discriminate|auto]. }
      destruct n as [n|]; [destruct (dhas n (cw_nodes w1)) eqn:D|]; cbn [fst cw_nodes]; (split; [auto|]); intros NN w' e' X; try discriminate X.
      destruct NN as [NN|NN]; [discriminate|]. injection NN as ->. rewrite dhas_get in D. destruct (dget k (cw_nodes w1)); [discriminate|now elim I1].
    + destruct (quiet m None n o w) as (r & E & _). destruct (IH None n o w HK) as [I1 I2]. rewrite E in *. unfold finish. cbn [fst] in I1, I2.
      destruct r as [w1 [o1|e]]; cbn [fst] in *.
      2:{ split; [exact I1|exact I2]. }
      unfold set_up_state. cbn [a_state a_init].
      destruct s as [s|]; [destruct (existsb _ _)|]; try destruct (_ && _); cbn [fst]; (split; [auto|]); intros _ w' e' X; congruence.
    + destruct (IH s n o w HK) as [I1 I2]. destruct (construct m _ o w) as [[w1 [o1|e]] t]; cbn [fst] in *; (split; [exact I1|]); [discriminate|exact I2].
    + apply IH, HK.
Qed.
Lemma in_app_pre pre m p : Forall passes_on pre -> p = PNet \/ p = PFsm -> In p (pre ++ m) <-> In p m.
Proof.
  intros F P. rewrite in_app_iff. split; auto. intros [I|I]; auto. rewrite Forall_forall in F. destruct (F p I) as [->| ->], P; discriminate.
Qed.
Lemma with_init pre m b s n w : Forall passes_on pre -> match m with p :: _ => p = PNet \/ p = PFsm | [] => True end ->
  b <> Some false ->
  let '(r, t) := construct (pre ++ m) (Args b s n) blank w in
  (t = [] /\ exists w' e, r = (w', inr e) /\ fst (construct m (Args (Some false) s n) blank w) = (w', inr e)) \/
  exists o w', t = [o] /\ complete m s n o blank /\ fst (construct m (Args (Some false) s n) blank w) = (w', inl o) /\
    r = match user_init o w' with
        | (w2, inl o2) => (w2, inl (Obj (o_base o2) (o_alive o2) (has PEvent pre || o_inbox o2) (o_state o2) (o_node o2)))
        | x => x
        end.
Proof.
  intros F H NB. destruct (passed pre m (Args b s n) blank w F) as [P1 P2].
  destruct (construct (pre ++ m) (Args b s n) blank w) as [r t]. cbn [fst snd] in P1, P2. subst t.
  pose proof (as_if_false m b s n blank w H NB) as Q. destruct (construct m (Args b s n) blank w) as [r1 t1].
  destruct (quiet m s n blank w) as (r0 & E0 & K). rewrite E0 in Q. cbn [fst snd] in *.
  destruct r0 as [w0 [o0|e0]].
  - destruct Q as [-> ->]. right. exists o0, w0. split; [reflexivity|]. split; [exact (K _ _ eq_refl)|]. split; [now rewrite E0|].
    destruct (user_init o0 w0) as [w2 [o2|e2]]; auto.
  - destruct Q as [-> ->]. left. split; [reflexivity|]. subst r. rewrite E0. cbn [fst]. eauto.
Qed.

Lemma new_agent_cases mro b s n w r t : new_agent mro states default self pick user_init (Args b s n) w = (r, t) ->
  exists pre m, mro = pre ++ m /\ Forall passes_on pre /\
  match m with p :: _ => p = PNet \/ p = PFsm | [] => True end /\
  (b = Some false -> t = []) /\
  (b <> Some false ->
   (t = [] /\ exists w' e, r = (w', inr e) /\ fst (construct m (Args (Some false) s n) blank w) = (w', inr e)) \/
   exists o w', t = [o] /\ complete m s n o blank /\ fst (construct m (Args (Some false) s n) blank w) = (w', inl o) /\
    r = match user_init o w' with
        | (w2, inl o2) => (w2, inl (Obj (o_base o2) (o_alive o2) (has PEvent pre || o_inbox o2) (o_state o2) (o_node o2)))
        | x => x
        end).
Proof.
  unfold new_agent. intros E. destruct (split_mro mro) as (pre & m & -> & F & H). exists pre, m. split; [auto|].
  split; [auto|]. split; [auto|]. split.
  - intros ->. destruct (quiet (pre ++ m) s n blank w) as (r0 & Q & _). rewrite Q in E. congruence.
  - intros NB. pose proof (with_init pre m b s n w F H NB) as W. now rewrite E in W.
Qed.
Lemma complete_all pre m s n o : Forall passes_on pre -> complete m s n o blank ->
  o_base o = true /\ o_alive o = true /\ has_node (pre ++ m) o /\ has_state (pre ++ m) default s o.
Proof.
  intros F (B & A & _ & N & ST & _). split; [auto|]. split; [auto|]. split; [intros I; apply N|intros I; apply ST]; apply (in_app_pre pre m) in I; auto.
Qed.
Lemma plain_pre pre0 p rest pre m : Forall (eq PPlain) pre0 -> p = PNet \/ p = PFsm -> pre0 ++ p :: rest = pre ++ m ->
  Forall passes_on pre -> match m with p :: _ => p = PNet \/ p = PFsm | [] => True end -> ~ In PEvent pre.
Proof.
  intros P0 NP. revert pre. induction P0 as [|q pre0 <- P0 IH]; intros [|x pre] E F H I; cbn in *; auto.
  - injection E as <- E. inversion F as [|? ? [->| ->] _]; subst; destruct NP; discriminate.
  - injection E as <- E. inversion F; subst. destruct I as [I|I]; [discriminate|]. eapply IH; eauto.
Qed.
Lemma event_first pre0 rest pre m : Forall (eq PPlain) pre0 -> ~ In PEvent rest -> pre0 ++ PEvent :: rest = pre ++ m ->
  match m with p :: _ => p = PNet \/ p = PFsm | [] => True end -> ~ In PEvent m.
Proof.
  intros P0 NR. revert pre. induction P0 as [|q pre0 <- P0 IH]; intros [|x pre] E H I; cbn in *.
  - subst m. destruct H; discriminate.
  - injection E as <- E. apply NR. rewrite E. apply in_or_app. now right.
  - subst m. destruct H; discriminate.
  - injection E as <- E. eapply IH; eauto.
Qed.
Lemma has_in p m : In p m -> has p m = true.
Proof. intros I. apply existsb_exists. exists p. split; auto. now destruct p. Qed.
End Proofs.

(** *** Dying *)
Lemma die_rest self m : forall o w o' w', o_node o = None -> o_alive o = true -> die_from self m o w = (o', w') ->
  cw_nodes w' = cw_nodes w /\ o_alive o' = false.
Proof.
  induction m as [|p m IH]; intros o w o' w' N A; cbn [die_from].
  - intros X. injection X as <- <-. auto.
  - destruct p; try (intros X; exact (IH o w o' w' N A X)). rewrite A, N. intros X. apply (IH _ _ _ _) in X; auto.
Qed.
Lemma die_alive self m : forall o w o' w', o_alive o = true -> die_from self m o w = (o', w') -> o_alive o' = false.
Proof.
  induction m as [|p m IH]; intros o w o' w' A; cbn [die_from].
  - intros X. injection X as <- <-. auto.
  - destruct p; try (intros X; exact (IH o w o' w' A X)). rewrite A. intros X. apply (IH _ _ _ _) in X; auto.
Qed.
Lemma die_net self m : forall o w o' w' n, In PNet m -> o_node o = Some n -> o_alive o = true -> dwf (cw_nodes w) ->
  die_from self m o w = (o', w') -> dget n (cw_nodes w') = None /\ o_alive o' = false.
Proof.
  induction m as [|p m IH]; intros o w o' w' n I N A W; [destruct I|]. cbn [die_from].
  destruct p; cbn [In] in I; try (destruct I as [I|I]; [discriminate|]; intros X; eauto).
  rewrite A, N. intros X. apply die_rest in X; auto. destruct X as [-> X]. split; auto. cbn [cw_nodes].
  rewrite dget_del by auto. now rewrite eqb_refl.
Qed.

