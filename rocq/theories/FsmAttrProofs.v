(** Proofs about the attributes of state machines. *)
From Coq Require Import ZArith List Bool Arith String Ascii.
From Verif Require Import Num PyDict AgentModel FsmModel FsmAttrModel FsmAttrSpec.
Import ListNotations.
Local Open Scope string_scope.

Section P.
Context {F V : Type}.
Notation table := (dict string (state F)).

(** * The table of states *)

Definition named (t : table) : Prop := dwf t /\ forall k st, In (k, st) t -> st_name st = k.

Lemma named_set t st : named t -> named (dset (st_name st) st t).
Proof.
  intros [W N]. split; [now apply dset_wf|]. intros k st' I.
  assert (G : dget k (dset (st_name st) st t) = Some st').
  { apply dget_in_wf; auto. now apply dset_wf. }
  rewrite dget_set in G. destruct (eqb k (st_name st)) eqn:E.
  - apply eqb_eq in E. injection G as <-. auto.
  - apply N. now apply dget_in.
Qed.

Lemma inherit_fold (t : table) : forall acc,
  (forall k st, In (k, st) t -> st_name st = k) ->
  named (fst acc) ->
  named (fst (fold_left (fun acc kv =>
                   (dset (fst kv) (snd kv) (fst acc),
                    if st_default (snd kv) then Some (snd kv) else snd acc)) t acc)).
Proof.
  induction t as [|[k st] t IH]; intros acc H N; simpl; auto.
  apply IH.
  - intros k' st' I. apply H. now right.
  - simpl. rewrite <- (H k st); [|now left]. now apply named_set.
Qed.

Lemma own_fold (ns : list (string * entry F V)) : forall acc,
  named (fst acc) -> named (fst (fold_left own_state ns acc)).
Proof.
  induction ns as [|[k e] ns IH]; intros acc N; simpl; auto.
  apply IH. unfold own_state. simpl. destruct e; auto. simpl. now apply named_set.
Qed.

Lemma class_states_named (bases : list (base F V)) ns :
  (forall b, In (BFsm b) bases -> named (fc_states b)) ->
  named (fst (class_states bases ns)).
Proof.
  intros H. unfold class_states. apply own_fold.
  assert (G : forall acc, named (fst acc) -> named (fst (fold_left (@inherit F V) bases acc))).
  { induction bases as [|b bases IH]; intros acc N; simpl; auto.
    apply IH.
    - intros c I. apply H. now right.
    - destruct b; simpl; auto. apply inherit_fold; auto. apply (H c). now left. }
  apply G. split; simpl; [constructor|contradiction].
Qed.

Lemma made_named (ad : V -> option (dict string V)) (c : fcls F V) : made ad c -> named (fc_states c).
Proof.
  induction 1 as [bases ns c H IH W N].
  unfold new_class in N. destruct (class_states bases ns) as [states dflt] eqn:E.
  destruct (place_all ad ns (fold_left inherit_defaults bases [], [])) as [[df nm]|]; [|discriminate].
  injection N as <-. simpl. replace states with (fst (class_states bases ns)) by now rewrite E.
  now apply class_states_named.
Qed.

(** The table after the states of the class body. *)
Lemma own_other (ns : list (string * entry F V)) k : forall acc,
  no_state ns k -> dget k (fst (fold_left own_state ns acc)) = dget k (fst acc).
Proof.
  induction ns as [|[a e] ns IH]; intros acc N; simpl; auto.
  rewrite IH.
  - unfold own_state. simpl. destruct e as [st| | |]; auto. simpl.
    apply dget_set_other. intros ->. apply (N a st); auto. now left.
  - intros b st I. apply (N b st). now right.
Qed.

Lemma own_last (ns : list (string * entry F V)) k st acc :
  last_state ns k st -> dget k (fst (fold_left own_state ns acc)) = Some st.
Proof.
  intros (l1&a&l2&->&E&N). rewrite fold_left_app. simpl. rewrite own_other; auto.
  unfold own_state at 1. simpl. rewrite <- E. apply dget_set_same.
Qed.

Lemma new_class_states ad bases ns (c : fcls F V) :
  new_class ad bases ns = Some c -> fc_states c = fst (class_states bases ns).
Proof.
  unfold new_class. destruct (class_states bases ns) as [states dflt].
  destruct (place_all ad ns (fold_left inherit_defaults bases [], [])) as [[df nm]|]; [|discriminate].
  now intros [= <-].
Qed.

Lemma new_class_last ad bases ns (c : fcls F V) k st :
  new_class ad bases ns = Some c -> last_state ns k st -> dget k (fc_states c) = Some st.
Proof. intros N L. rewrite (new_class_states _ _ _ _ N). unfold class_states. now apply own_last. Qed.

(** The same table as in [FsmModel.meta]. *)
Definition state_of (p : string * entry F V) : option (state F) :=
  match snd p with EState st => Some st | _ => None end.

Lemma class_states_meta i (trees : list (cls (option (state F)))) (cs : list (fcls F V)) ns :
  Forall2 (fun t c => fc_states c = fst (meta t)) trees cs ->
  class_states (map BFsm cs) ns = meta (Cls i trees (map state_of ns)).
Proof.
  intros H. unfold class_states. simpl.
  assert (A : forall ns acc, fold_left (@own_state F V) ns acc =
    fold_left (fun acc o => match o with Some st => add_state acc st | None => acc end)
      (map state_of ns) acc).
  { clear. induction ns as [|[k e] ns IH]; intros acc; simpl; auto.
    rewrite IH. f_equal. unfold own_state, state_of. simpl. now destruct e. }
  rewrite A. f_equal. generalize (@nil (string * state F), @None (state F)) as acc.
  induction H as [|t c trees cs E H IH]; intros acc; simpl; auto.
  rewrite IH. now rewrite E.
Qed.

(** * The names of the class *)

Lemma states_in_class (t : table) : dwf t -> forall (d : dict string (entry F V)) k,
  dget k (fold_left (fun d kv => dset (fst kv) (EState (snd kv)) d) t d) =
  match dget k t with Some st => Some (EState st) | None => dget k d end.
Proof.
  induction t as [|[k0 st] t IH]; intros W d k; simpl; auto.
  inversion W as [|x l N1 N2]; subst. rewrite IH; auto.
  rewrite dget_set. destruct (eqb k k0) eqn:E; auto.
  apply eqb_eq in E. subst. now rewrite (proj2 (dget_none k0 t)).
Qed.

Lemma made_class_state (ad : V -> option (dict string V)) (c : fcls F V) k st :
  made ad c -> dget k (fc_states c) = Some st -> dget k (fc_dict c) = Some (EState st).
Proof.
  intros M G. pose proof (made_named _ _ M) as [W _]. destruct M as [bases ns c _ _ N].
  unfold new_class in N. destruct (class_states bases ns) as [states dflt].
  destruct (place_all ad ns (fold_left inherit_defaults bases [], [])) as [[df nm]|]; [|discriminate].
  injection N as <-. simpl in *. rewrite states_in_class; auto. now rewrite G.
Qed.

(** Names that are not those of states. *)
Lemma place_all_names ad (ns : list (string * entry F V)) k : forall df nm df' nm',
  dwf ns -> place_all ad ns (df, nm) = Some (df', nm') ->
  dget k nm' = match dget k ns with
               | Some (EFun f) => Some (EFun f)
               | Some EProp => Some EProp
               | Some e => if private k then Some e else dget k nm
               | None => dget k nm
               end.
Proof.
  induction ns as [|[a e] ns IH]; intros df nm df' nm' W P; cbn [place_all] in P.
  - injection P as <- <-. reflexivity.
  - inversion W as [|x l N1 N2]; subst.
    assert (NN : dget a ns = None) by now apply dget_none.
    destruct (place ad (df, nm) (a, e)) as [[df1 nm1]|] eqn:E; [|discriminate].
    specialize (IH df1 nm1 df' nm' N2 P).
    assert (X : forall e', dget k (dset a e' nm) = if eqb k a then Some e' else dget k nm)
      by (intros; apply dget_set).
    simpl. destruct (eqb k a) eqn:EK.
    + apply eqb_eq in EK. subst k. rewrite NN in IH. rewrite IH.
      unfold place in E. destruct (String.eqb a "step") eqn:ES.
      * destruct e; try discriminate. injection E as <- <-. apply dget_set_same.
      * destruct e.
        -- destruct (private a) eqn:EP; [injection E as <- <-; apply dget_set_same|].
           destruct (String.eqb a "defaults"); [discriminate|]. now injection E as <- <-.
        -- injection E as <- <-. apply dget_set_same.
        -- injection E as <- <-. apply dget_set_same.
        -- destruct (private a) eqn:EP; [injection E as <- <-; apply dget_set_same|].
           destruct (String.eqb a "defaults"); [|now injection E as <- <-].
           destruct (ad v); [|discriminate]. now injection E as <- <-.
    + assert (Y : dget k nm1 = dget k nm).
      { unfold place in E. destruct (String.eqb a "step").
        - destruct e; try discriminate. injection E as <- <-. apply X.
        - destruct e.
          + destruct (private a); [injection E as <- <-; apply X|].
            destruct (String.eqb a "defaults"); [discriminate|]. now injection E as <- <-.
          + injection E as <- <-. apply X.
          + injection E as <- <-. apply X.
          + destruct (private a); [injection E as <- <-; apply X|].
            destruct (String.eqb a "defaults"); [|now injection E as <- <-].
            destruct (ad v); [|discriminate]. now injection E as <- <-. }
      now rewrite Y in IH.
Qed.

Lemma new_class_name ad bases ns (c : fcls F V) k :
  dwf ns -> new_class ad bases ns = Some c -> dwf (fc_states c) ->
  dget k (fc_states c) = None ->
  dget k (fc_dict c) = match dget k ns with
               | Some (EFun f) => Some (EFun f)
               | Some EProp => Some EProp
               | Some e => if private k then Some e else None
               | None => None
               end.
Proof.
  intros W N WS G. unfold new_class in N. destruct (class_states bases ns) as [states dflt].
  destruct (place_all ad ns (fold_left inherit_defaults bases [], [])) as [[df nm]|] eqn:P; [|discriminate].
  injection N as <-. simpl in *. rewrite states_in_class; auto. rewrite G.
  exact (place_all_names ad ns k _ _ _ _ W P).
Qed.

(** * The attributes of agents *)

Variable none : V -> bool.
Variable pn : string -> bool.
Variable mro : list (dict string (entry F V)).

Notation get := (getattr mro).

Lemma setattr_some d k (v : attr F V) d' : setattr mro d k v = Some d' ->
  d' = dset k v d /\ find mro k <> Some EProp.
Proof.
  unfold setattr. destruct (find mro k) as [[| | |]|] eqn:E; try discriminate;
    intros [= <-]; split; auto; discriminate.
Qed.

Lemma setattr_get d k (v : attr F V) d' k' : setattr mro d k v = Some d' ->
  get d' k' = if eqb k' k then Some v else get d k'.
Proof.
  intros E. apply setattr_some in E as [-> N]. unfold getattr. rewrite dget_set.
  destruct (eqb k' k) eqn:EK; auto. apply eqb_eq in EK. subst k'.
  destruct (find mro k) as [[| | |]|]; try reflexivity. now contradiction N.
Qed.

Lemma bind_all_other (t : table) k : forall d d',
  named t -> bind_all (V := V) mro t d = Some d' -> dget k t = None -> get d' k = get d k.
Proof.
  induction t as [|[k0 st] t IH]; intros d d' N B G; simpl in B.
  - now injection B as <-.
  - destruct N as [W N]. inversion W as [|x l N1 N2]; subst.
    assert (EN : st_name st = k0) by (apply N; now left).
    destruct (setattr mro d (st_name st) (ABound st)) as [d1|] eqn:E1; [|discriminate].
    destruct (setattr mro d1 k0 (ABound st)) as [d2|] eqn:E2; [|discriminate].
    simpl in G. destruct (eqb k k0) eqn:EK; [discriminate|].
    rewrite (IH d2 d'); auto.
    + rewrite (setattr_get _ _ _ _ k E2), EK, (setattr_get _ _ _ _ k E1), EN, EK. reflexivity.
    + split; auto. intros k1 st1 I. apply N. now right.
Qed.

Lemma bind_all_state (t : table) k st : forall d d',
  named t -> bind_all (V := V) mro t d = Some d' -> dget k t = Some st ->
  get d' k = Some (ABound st).
Proof.
  induction t as [|[k0 st0] t IH]; intros d d' N B G; simpl in B; [discriminate|].
  destruct N as [W N]. inversion W as [|x l N1 N2]; subst.
  assert (NT : named t) by (split; auto; intros k1 st1 I; apply N; now right).
  destruct (setattr mro d (st_name st0) (ABound st0)) as [d1|] eqn:E1; [|discriminate].
  destruct (setattr mro d1 k0 (ABound st0)) as [d2|] eqn:E2; [|discriminate].
  simpl in G. destruct (eqb k k0) eqn:EK.
  - injection G as ->. apply eqb_eq in EK. subst k0.
    rewrite (bind_all_other t k d2 d' NT B); [|now apply dget_none].
    now rewrite (setattr_get _ _ _ _ k E2), eqb_refl.
  - eapply IH; eauto.
Qed.

Lemma from_kwargs_other kw k : forall d d',
  from_kwargs mro kw d = Some d' -> dget k kw = None -> get d' k = get d k.
Proof.
  induction kw as [|[k0 v] kw IH]; intros d d' B G; simpl in B.
  - now injection B as <-.
  - destruct (setattr mro d k0 v) as [d1|] eqn:E1; [|discriminate].
    simpl in G. destruct (eqb k k0) eqn:EK; [discriminate|].
    rewrite (IH d1 d'); auto. now rewrite (setattr_get _ _ _ _ k E1), EK.
Qed.

Lemma from_kwargs_given kw k v : forall d d', dwf kw ->
  from_kwargs mro kw d = Some d' -> dget k kw = Some v -> get d' k = Some v.
Proof.
  induction kw as [|[k0 v0] kw IH]; intros d d' W B G; simpl in B; [discriminate|].
  inversion W as [|x l N1 N2]; subst.
  destruct (setattr mro d k0 v0) as [d1|] eqn:E1; [|discriminate].
  simpl in G. destruct (eqb k k0) eqn:EK.
  - injection G as ->. apply eqb_eq in EK. subst k0.
    rewrite (from_kwargs_other kw k d1 d' B); [|now apply dget_none].
    now rewrite (setattr_get _ _ _ _ k E1), eqb_refl.
  - eapply IH; eauto.
Qed.

Lemma from_model_other model ks k : forall d d',
  from_model mro model ks d = Some d' -> model k = None -> get d' k = get d k.
Proof.
  induction ks as [|k0 ks IH]; intros d d' B G; simpl in B.
  - now injection B as <-.
  - destruct (model k0) as [v|] eqn:EM; [|now apply IH].
    destruct (setattr mro d k0 v) as [d1|] eqn:E1; [|discriminate].
    rewrite (IH d1 d'); auto. rewrite (setattr_get _ _ _ _ k E1).
    destruct (eqb k k0) eqn:EK; auto. apply eqb_eq in EK. subst. congruence.
Qed.

(** An attribute that is there is not replaced by a default, one that is not there gets
    it. *)
Lemma from_defaults_kept ds k a : forall d d',
  from_defaults none pn mro ds d = Some d' ->
  get d k = Some a -> is_none_attr none pn k a = false -> get d' k = Some a.
Proof.
  induction ds as [|[k0 e] ds IH]; intros d d' B G NA; simpl in B.
  - now injection B as <-.
  - destruct (match get d k0 with None => true | Some a0 => is_none_attr none pn k0 a0 end) eqn:C.
    + destruct (setattr mro d k0 (AEntry e)) as [d1|] eqn:E1; [|discriminate].
      apply (IH d1 d'); auto. rewrite (setattr_get _ _ _ _ k E1).
      destruct (eqb k k0) eqn:EK; auto. apply eqb_eq in EK. subst.
      rewrite G in C. congruence.
    + apply (IH d d'); auto.
Qed.

Lemma from_defaults_missing ds k e : forall d d', dwf ds ->
  from_defaults none pn mro ds d = Some d' -> get d k = None ->
  dget k ds = Some e -> get d' k = Some (AEntry e).
Proof.
  induction ds as [|[k0 e0] ds IH]; intros d d' W B G D; simpl in B; [discriminate|].
  inversion W as [|x l N1 N2]; subst. simpl in D. destruct (eqb k k0) eqn:EK.
  - injection D as ->. apply eqb_eq in EK. subst k0. rewrite G in B.
    destruct (setattr mro d k (AEntry e)) as [d1|] eqn:E1; [|discriminate].
    assert (G1 : get d1 k = Some (AEntry e)) by now rewrite (setattr_get _ _ _ _ k E1), eqb_refl.
    clear IH. revert d1 d' E1 G1 B.
    assert (Z : forall ds d d', ~ In k (dkeys ds) -> from_defaults none pn mro ds d = Some d' ->
              get d' k = get d k).
    { clear. induction ds as [|[k0 e0] ds IH]; intros d d' N B; simpl in B.
      - now injection B as <-.
      - assert (NK : eqb k k0 = false).
        { apply eqb_neq. intros ->. apply N. now left. }
        assert (NI : ~ In k (dkeys ds)) by (intros I; apply N; now right).
        destruct (match get d k0 with None => true | Some a0 => is_none_attr none pn k0 a0 end).
        + destruct (setattr mro d k0 (AEntry e0)) as [d1|] eqn:E1; [|discriminate].
          rewrite (IH d1 d'); auto. now rewrite (setattr_get _ _ _ _ k E1), NK.
        + now apply IH. }
    intros d1 d' _ G1 B. now rewrite (Z ds d1 d').
  - destruct (match get d k0 with None => true | Some a0 => is_none_attr none pn k0 a0 end).
    + destruct (setattr mro d k0 (AEntry e0)) as [d1|] eqn:E1; [|discriminate].
      apply (IH d1 d'); auto. now rewrite (setattr_get _ _ _ _ k E1), EK.
    + apply (IH d d'); auto.
Qed.

Lemma create_parts c model d0 kw sid d cur :
  create none pn mro c model d0 kw sid = Some (d, cur) ->
  exists d1 d2 d3,
    from_model mro model (dkeys (fc_defaults c)) d0 = Some d1 /\
    from_defaults none pn mro (fc_defaults c) d1 = Some d2 /\
    from_kwargs mro kw d2 = Some d3 /\
    bind_all mro (fc_states c) d3 = Some d /\
    set_state (fc_states c) (fc_default c) sid = Some cur.
Proof.
  unfold create.
  destruct (from_model mro model (dkeys (fc_defaults c)) d0) as [d1|] eqn:E1; [|discriminate].
  destruct (from_defaults none pn mro (fc_defaults c) d1) as [d2|] eqn:E2; [|discriminate].
  destruct (from_kwargs mro kw d2) as [d3|] eqn:E3; [|discriminate].
  destruct (set_state (fc_states c) (fc_default c) sid) as [o|] eqn:E4; [|discriminate].
  destruct ((1 <? List.length (fc_states c))%nat && match o with None => true | _ => false end);
    [discriminate|].
  destruct (bind_all mro (fc_states c) d3) as [d4|] eqn:E5; [|discriminate].
  intros [= <- <-]. exists d1, d2, d3. auto.
Qed.

(** Defaults have unique names. *)
Definition dflt_ok (b : base F V) : Prop :=
  match b with BFsm c => dwf (fc_defaults c) | BAgent e => dwf e | BOther => True end.
End P.

Section D.
Context {F V : Type} (ad : V -> option (dict string V)).

Lemma place_all_dwf (ns : list (string * entry F V)) : forall df nm df' nm',
  dwf df -> place_all ad ns (df, nm) = Some (df', nm') -> dwf df'.
Proof.
  induction ns as [|[a e] ns IH]; intros df nm df' nm' W P; cbn [place_all] in P.
  - now injection P as <- <-.
  - destruct (place ad (df, nm) (a, e)) as [[df1 nm1]|] eqn:E; [|discriminate].
    apply (IH df1 nm1 df' nm'); auto. unfold place in E.
    destruct (String.eqb a "step").
    + destruct e; try discriminate. now injection E as <- <-.
    + destruct e.
      * destruct (private a); [now injection E as <- <-|].
        destruct (String.eqb a "defaults"); [discriminate|]. injection E as <- <-. now apply dset_wf.
      * now injection E as <- <-.
      * now injection E as <- <-.
      * destruct (private a); [now injection E as <- <-|].
        destruct (String.eqb a "defaults"); [|injection E as <- <-; now apply dset_wf].
        destruct (ad v); [|discriminate]. injection E as <- <-. now apply dupdate_wf.
Qed.

Lemma inherit_defaults_dwf (bases : list (base F V)) : forall d,
  dwf d -> dwf (fold_left inherit_defaults bases d).
Proof.
  induction bases as [|b bases IH]; intros d W; simpl; auto.
  apply IH. destruct b; simpl; auto; now apply dupdate_wf.
Qed.

Lemma made_defaults_dwf (c : fcls F V) : made ad c -> dwf (fc_defaults c).
Proof.
  intros [bases ns c' _ _ N]. unfold new_class in N.
  destruct (class_states bases ns) as [states dflt].
  destruct (place_all ad ns (fold_left inherit_defaults bases [], [])) as [[df nm]|] eqn:P; [|discriminate].
  injection N as <-. simpl. eapply place_all_dwf; [|exact P].
  apply inherit_defaults_dwf. constructor.
Qed.

(** A state of the body whose function has another name is a default under that name,
    unless a later entry of the body is [defaults]. *)
Lemma place_all_default (ns : list (string * entry F V)) k st : forall df nm df' nm',
  dwf ns -> place_all ad ns (df, nm) = Some (df', nm') ->
  dget k ns = Some (EState st) -> private k = false -> dget "defaults" ns = None ->
  dget k df' = Some (EState st).
Proof.
  assert (K : forall (ns : list (string * entry F V)) df nm df' nm', dwf ns ->
            place_all ad ns (df, nm) = Some (df', nm') -> dget k ns = None ->
            dget "defaults" ns = None -> dget k df' = dget k df).
  { clear ns. induction ns as [|[a e] ns IH]; intros df nm df' nm' W P D ND; cbn [place_all] in P.
    - now injection P as <- <-.
    - inversion W as [|x l N1 N2]; subst.
      destruct (place ad (df, nm) (a, e)) as [[df1 nm1]|] eqn:E; [|discriminate].
      cbn [dget] in D, ND. destruct (eqb k a) eqn:EK; [discriminate|].
      destruct (eqb "defaults" a) eqn:ED; [discriminate|].
      rewrite (IH df1 nm1 df' nm'); auto. unfold place in E.
      assert (ED' : String.eqb a "defaults" = false) by (rewrite String.eqb_sym; exact ED).
      rewrite ED' in E.
      assert (X : forall e', dget k (dset a e' df) = dget k df).
      { intros e'. now rewrite dget_set, EK. }
      destruct (String.eqb a "step").
      + destruct e; try discriminate. now injection E as <- <-.
      + destruct e; try (now injection E as <- <-); destruct (private a);
          injection E as <- <-; auto. }
  induction ns as [|[a e] ns IH]; intros df nm df' nm' W P D PK ND; cbn [place_all] in P; [discriminate|].
  inversion W as [|x l N1 N2]; subst.
  destruct (place ad (df, nm) (a, e)) as [[df1 nm1]|] eqn:E; [|discriminate].
  cbn [dget] in D, ND. destruct (eqb "defaults" a) eqn:ED; [discriminate|].
  destruct (eqb k a) eqn:EK.
  - apply eqb_eq in EK. subst a. injection D as ->.
    rewrite (K ns df1 nm1 df' nm'); auto; [|now apply dget_none].
    unfold place in E. assert (ED' : String.eqb k "defaults" = false)
      by (rewrite String.eqb_sym; exact ED).
    rewrite ED', PK in E. destruct (String.eqb k "step"); [discriminate|].
    injection E as <- <-. apply dget_set_same.
  - eapply IH; eauto.
Qed.
End D.
