(** C266: the values in the bodies of classes of state machines, on [FsmAttrModel]. *)
From Coq Require Import ZArith List Bool Arith String Ascii.
From Verif Require Import Num PyDict AgentModel FsmModel FsmAttrModel FsmAttrSpec FsmAttrProofs.
Import ListNotations.
Local Open Scope string_scope.

(** The values that a base has for its agents ([_defaults] of the class). *)
Definition values_of {F V} (b : base F V) : dict string (entry F V) :=
  match b with BFsm c => fc_defaults c | BAgent e => e | BOther => [] end.
(** A value of a class body, and not a function or a property. *)
Definition is_value {F V} (e : entry F V) : bool := match e with EState _ | EVal _ => true | _ => false end.

Section Lemmas.
Context {F V : Type} (ad : V -> option (dict string V)).

Lemma place_all_kept k (ns : list (string * entry F V)) : forall df nm df' nm', dwf ns ->
  place_all ad ns (df, nm) = Some (df', nm') -> dget k ns = None -> dget "defaults" ns = None -> dget k df' = dget k df.
Proof.
  induction ns as [|[a e] ns IH]; intros df nm df' nm' W P D ND; cbn [place_all] in P; [now injection P as <- <-|].
  inversion W as [|x l N1 N2]; subst.
  destruct (place ad (df, nm) (a, e)) as [[df1 nm1]|] eqn:E; [|discriminate].
  cbn [dget] in D, ND. destruct (eqb k a) eqn:EK; [discriminate|]. destruct (eqb "defaults" a) eqn:ED; [discriminate|].
  rewrite (IH df1 nm1 df' nm'); auto. unfold place in E.
  assert (ED' : String.eqb a "defaults" = false) by (rewrite String.eqb_sym; exact ED). rewrite ED' in E.
  assert (X : forall e', dget k (dset a e' df) = dget k df) by (intros e'; now rewrite dget_set, EK).
  destruct (String.eqb a "step").
  - destruct e; try discriminate. now injection E as <- <-.
  - destruct e; try (now injection E as <- <-); destruct (private a); injection E as <- <-; auto.
Qed.
Lemma place_all_value k e (ns : list (string * entry F V)) : forall df nm df' nm', dwf ns ->
  place_all ad ns (df, nm) = Some (df', nm') -> dget k ns = Some e -> is_value e = true -> private k = false -> dget "defaults" ns = None ->
  dget k df' = Some e.
Proof.
  induction ns as [|[a e0] ns IH]; intros df nm df' nm' W P D IV PK ND; cbn [place_all] in P; [discriminate|].
  inversion W as [|x l N1 N2]; subst.
  destruct (place ad (df, nm) (a, e0)) as [[df1 nm1]|] eqn:E; [|discriminate].
  cbn [dget] in D, ND. destruct (eqb "defaults" a) eqn:ED; [discriminate|]. destruct (eqb k a) eqn:EK.
  - apply eqb_eq in EK. subst a. injection D as ->.
    rewrite (place_all_kept k ns df1 nm1 df' nm'); auto; [|now apply dget_none].
    unfold place in E. assert (ED' : String.eqb k "defaults" = false) by (rewrite String.eqb_sym; exact ED).
    rewrite ED', PK in E. destruct (String.eqb k "step"); destruct e; try discriminate; injection E as <- <-; apply dget_set_same.
  - eapply IH; eauto.
Qed.
Lemma inherited k (bases : list (base F V)) : (forall b, In b bases -> dwf (values_of b)) -> forall d,
  dget k (fold_left inherit_defaults bases d) =
  fold_left (fun o b => match dget k (values_of b) with Some e => Some e | None => o end) bases (dget k d).
Proof.
  induction bases as [|b bases IH]; intros W d; auto. cbn [fold_left]. rewrite IH by (intros b' I; apply W; now right). f_equal.
  assert (Wb := W b (or_introl eq_refl)). destruct b as [c|e|]; cbn [inherit_defaults values_of] in *; auto; now rewrite dget_update_wf.
Qed.
Lemma new_class_defaults bases ns (c : fcls F V) : new_class ad bases ns = Some c ->
  exists nm, place_all ad ns (fold_left inherit_defaults bases [], []) = Some (fc_defaults c, nm).
Proof.
  unfold new_class. destruct (class_states bases ns) as [states dflt].
  destruct (place_all ad ns (fold_left inherit_defaults bases [], [])) as [[df nm]|]; [|discriminate]. intros [= <-]. now exists nm.
Qed.
(** What an agent gets of a value of its class. *)
Lemma agent_value none pn (c : fcls F V) mro model d0 kw sid d cur k e :
  made ad c -> dwf kw -> create none pn mro c model d0 kw sid = Some (d, cur) -> dget k (fc_defaults c) = Some e ->
  dget k (fc_states c) = None -> find mro k = None -> dget k d0 = None ->
  (forall v, model k = Some v -> is_none_attr none pn k v = false) ->
  getattr mro d k = Some (match dget k kw with Some v => v | None => match model k with Some v => v | None => AEntry e end end).
Proof.
  intros M WK C D NS FN D0 MN. pose proof (made_named _ _ M) as NM. apply create_parts in C as (d1&d2&d3&C1&C2&C3&C4&_).
  rewrite (bind_all_other _ _ k _ _ NM C4 NS). destruct (dget k kw) as [v|] eqn:KW; [exact (from_kwargs_given _ kw k v _ _ WK C3 KW)|].
  rewrite (from_kwargs_other _ kw k _ _ C3 KW). destruct (model k) as [v|] eqn:MK.
  - apply (from_defaults_kept none pn _ _ k _ _ _ C2); auto. assert (I : In k (dkeys (fc_defaults c))) by (apply dget_in in D; now apply in_map with (f := fst) in D).
    clear - C1 I MK FN. revert d0 C1. induction (dkeys (fc_defaults c)) as [|k0 ks IH]; intros d0 C1; [contradiction|]. cbn [from_model] in C1.
    destruct (in_dec String.string_dec k ks) as [J|J].
    + destruct (model k0) as [v0|]; [destruct (setattr mro d0 k0 v0); [|discriminate]|]; eauto.
    + destruct I as [->|I]; [|contradiction]. rewrite MK in C1. destruct (setattr mro d0 k v) as [d'|] eqn:E; [|discriminate].
      assert (G : forall ks d', ~ In k ks -> from_model mro model ks d' = Some d1 -> getattr mro d1 k = getattr mro d' k).
      { clear. induction ks as [|k0 ks IH]; intros d' J C; cbn in C; [now injection C as <-|]. destruct (model k0) as [v0|].
        - destruct (setattr mro d' k0 v0) as [d2|] eqn:E; [|discriminate]. rewrite (IH d2) by (auto; intros I; apply J; now right).
          rewrite (setattr_get _ _ _ _ _ k E). destruct (eqb k k0) eqn:EK; auto. apply eqb_eq in EK. subst. elim J. now left.
        - apply IH; auto. intros I; apply J; now right. }
      rewrite (G ks d' J C1), (setattr_get _ _ _ _ _ k E). now rewrite eqb_refl.
  - apply (from_defaults_missing none pn _ _ k _ _ _ (made_defaults_dwf ad c M) C2); auto.
    rewrite (from_model_other _ _ _ k _ _ C1 MK). unfold getattr. now rewrite FN, D0.
Qed.
Lemma public_name k : (forall r, k <> String "_" r) -> private k = false.
Proof. destruct k as [|a k]; auto. intros H. cbn. destruct (Ascii.eqb_spec a "_") as [->|]; auto. now destruct (H k). Qed.
Lemma place_all_private r (ns : list (string * entry F V)) : forall df nm df' nm',
  place_all ad ns (df, nm) = Some (df', nm') -> dget "defaults" ns = None -> dget (String "_" r) df' = dget (String "_" r) df.
Proof.
  induction ns as [|[a e] ns IH]; intros df nm df' nm' P ND; cbn [place_all] in P; [now injection P as <- <-|].
  destruct (place ad (df, nm) (a, e)) as [[df1 nm1]|] eqn:E; [|discriminate].
  cbn [dget] in ND. destruct (eqb "defaults" a) eqn:ED; [discriminate|].
  rewrite (IH df1 nm1 df' nm'); auto. unfold place in E.
  assert (ED' : String.eqb a "defaults" = false) by (rewrite String.eqb_sym; exact ED). rewrite ED' in E.
  assert (X : private a = false -> forall e', dget (String "_" r) (dset a e' df) = dget (String "_" r) df).
  { intros PA e'. rewrite dget_set. destruct (eqb (String "_" r) a) eqn:EK; auto. apply eqb_eq in EK. subst a. discriminate. }
  destruct (String.eqb a "step").
  - destruct e; try discriminate. now injection E as <- <-.
  - destruct e; try (now injection E as <- <-); destruct (private a); injection E as <- <-; auto.
Qed.
Lemma from_model_unnamed (mro : list (dict string (entry F V))) model k ks : forall d d',
  ~ In k ks -> from_model mro model ks d = Some d' -> getattr mro d' k = getattr mro d k.
Proof.
  induction ks as [|k0 ks IH]; intros d d' J C; cbn in C; [now injection C as <-|]. destruct (model k0) as [v0|].
  - destruct (setattr mro d k0 v0) as [d2|] eqn:E; [|discriminate]. rewrite (IH d2 d') by (auto; intros I; apply J; now right).
    rewrite (setattr_get _ _ _ _ _ k E). destruct (eqb k k0) eqn:EK; auto. apply eqb_eq in EK. subst. elim J. now left.
  - apply IH; auto. intros I; apply J; now right.
Qed.
Lemma from_defaults_unnamed none pn (mro : list (dict string (entry F V))) k ds : forall d d',
  ~ In k (dkeys ds) -> from_defaults none pn mro ds d = Some d' -> getattr mro d' k = getattr mro d k.
Proof.
  induction ds as [|[k0 e] ds IH]; intros d d' J C; cbn [from_defaults] in C; [now injection C as <-|].
  assert (J' : ~ In k (dkeys ds)) by (intros I; apply J; now right).
  destruct (match getattr mro d k0 with None => true | Some a => is_none_attr none pn k0 a end); [|now apply IH].
  destruct (setattr mro d k0 (AEntry e)) as [d2|] eqn:E; [|discriminate]. rewrite (IH d2 d' J' C).
  rewrite (setattr_get _ _ _ _ _ k E). destruct (eqb k k0) eqn:EK; auto. apply eqb_eq in EK. subst. elim J. now left.
Qed.
End Lemmas.

(** C266: a value of the class body is an attribute of the agents, unless there is a keyword argument with its name or the model has such an attribute that
    is not None; the keyword argument wins. *)
Theorem C266_own_values : forall F V none pn (ad : V -> option (dict string V)) bases ns (c : fcls F V) tail model d0 kw sid d cur k e,
  (forall b, In (BFsm b) bases -> made ad b) -> dwf ns -> dwf kw -> new_class ad bases ns = Some c ->
  create none pn (fc_dict c :: tail) c model d0 kw sid = Some (d, cur) ->
  dget k ns = Some e -> is_value e = true -> (forall r, k <> String "_" r) -> dget "defaults" ns = None ->
  dget k (fc_states c) = None -> find tail k = None -> dget k d0 = None ->
  (forall v, model k = Some v -> is_none_attr none pn k v = false) ->
  getattr (fc_dict c :: tail) d k = Some (match dget k kw with Some v => v | None => match model k with Some v => v | None => AEntry e end end).
Proof.
  intros F V none pn ad bases ns c tail model d0 kw sid d cur k e HB W WK N C D IV PK' ND NS FT D0 MN.
  assert (PK : private k = false) by (now apply public_name).
  assert (M : made ad c) by (eapply Made; eauto). destruct (new_class_defaults _ _ _ _ N) as [nm P].
  eapply (agent_value ad); eauto.
  - eapply place_all_value; eauto.
  - cbn [find]. rewrite (new_class_name ad bases ns c k W N (proj1 (made_named _ _ M)) NS), D, PK. destruct e; try discriminate IV; exact FT.
Qed.
Print Assumptions C266_own_values.

(** C266: a value of the class body whose name begins with an underscore stays in the class: it is what the agents have, whatever the model has under that
    name, unless there is a keyword argument with its name. *)
Theorem C266_private_values : forall F V none pn (ad : V -> option (dict string V)) bases ns (c : fcls F V) tail model d0 kw sid d cur r e,
  (forall b, In (BFsm b) bases -> made ad b) -> (forall b, In b bases -> dwf (values_of b)) -> (forall b, In b bases -> dget (String "_" r) (values_of b) = None) ->
  dwf ns -> dwf kw -> new_class ad bases ns = Some c ->
  create none pn (fc_dict c :: tail) c model d0 kw sid = Some (d, cur) ->
  dget (String "_" r) ns = Some e -> is_value e = true -> dget "defaults" ns = None ->
  dget (String "_" r) (fc_states c) = None -> dget (String "_" r) d0 = None ->
  dget (String "_" r) (fc_dict c) = Some e /\
  getattr (fc_dict c :: tail) d (String "_" r) = Some (match dget (String "_" r) kw with Some v => v | None => AEntry e end).
Proof.
  intros F V none pn ad bases ns c tail model d0 kw sid d cur r e HB WB NB W WK N C D IV ND NS D0.
  assert (M : made ad c) by (eapply Made; eauto). destruct (new_class_defaults _ _ _ _ N) as [nm P].
  pose proof (made_named _ _ M) as NM.
  assert (G : dget (String "_" r) (fc_dict c) = Some e).
  { rewrite (new_class_name ad bases ns c _ W N (proj1 NM) NS), D. destruct e; try discriminate IV; reflexivity. }
  split; [exact G|].
  assert (K : ~ In (String "_" r) (dkeys (fc_defaults c))).
  { apply dget_none. rewrite (place_all_private ad r ns _ _ _ _ P ND), inherited by exact WB. cbn [dget].
    clear - NB. induction bases as [|b bases IH]; auto. cbn [fold_left]. rewrite (NB b (or_introl eq_refl)). apply IH. intros b' I. apply NB. now right. }
  apply create_parts in C as (d1&d2&d3&C1&C2&C3&C4&_). rewrite (bind_all_other _ _ _ _ _ NM C4 NS).
  destruct (dget (String "_" r) kw) as [v|] eqn:KW; [exact (from_kwargs_given _ kw _ v _ _ WK C3 KW)|].
  rewrite (from_kwargs_other _ kw _ _ _ C3 KW), (from_defaults_unnamed none pn _ _ _ _ _ K C2), (from_model_unnamed _ model _ _ _ _ K C1).
  unfold getattr. cbn [find]. rewrite G, D0. destruct e; try discriminate IV; reflexivity.
Qed.
Print Assumptions C266_private_values.

(** C266: if the body does not have the name, it is the value of the last of the bases that have one. *)
Theorem C266_inherited_values : forall F V none pn (ad : V -> option (dict string V)) l1 b l2 ns (c : fcls F V) tail model d0 kw sid d cur k e,
  (forall b', In (BFsm b') (l1 ++ b :: l2) -> made ad b') -> (forall b', In b' (l1 ++ b :: l2) -> dwf (values_of b')) -> dwf ns -> dwf kw ->
  new_class ad (l1 ++ b :: l2) ns = Some c -> create none pn (fc_dict c :: tail) c model d0 kw sid = Some (d, cur) ->
  dget k (values_of b) = Some e -> (forall b', In b' l2 -> dget k (values_of b') = None) ->
  dget k ns = None -> dget "defaults" ns = None ->
  dget k (fc_states c) = None -> find tail k = None -> dget k d0 = None ->
  (forall v, model k = Some v -> is_none_attr none pn k v = false) ->
  getattr (fc_dict c :: tail) d k = Some (match dget k kw with Some v => v | None => match model k with Some v => v | None => AEntry e end end).
Proof.
  intros F V none pn ad l1 b l2 ns c tail model d0 kw sid d cur k e HB WB W WK N C DB L D ND NS FT D0 MN.
  assert (M : made ad c) by (eapply Made; eauto). destruct (new_class_defaults _ _ _ _ N) as [nm P].
  eapply (agent_value ad); eauto.
  - rewrite (place_all_kept ad k ns _ _ _ _ W P D ND), inherited by exact WB. rewrite fold_left_app. cbn [fold_left]. rewrite DB.
    clear - L. induction l2 as [|b' l2 IH]; auto. cbn [fold_left]. rewrite (L b' (or_introl eq_refl)). apply IH. intros b0 I. apply L. now right.
  - cbn [find]. rewrite (new_class_name ad _ ns c k W N (proj1 (made_named _ _ M)) NS), D. exact FT.
Qed.
Print Assumptions C266_inherited_values.

(** C266: the state [dead] of the class [FSM] is that of the agents of all its subclasses that do not have a state with that name;
    it is not a default state. *)
Theorem C266_dead : forall F V none pn (ad : V -> option (dict string V)) bases names dead (f c : fcls F V) ns tail model d0 kw sid d cur,
  (forall b, In (BFsm b) bases -> made ad b) -> dwf (fsm_body names dead) -> new_class ad bases (fsm_body names dead) = Some f ->
  dwf ns -> no_state ns "dead" -> new_class ad [BFsm f] ns = Some c ->
  create none pn (fc_dict c :: tail) c model d0 kw sid = Some (d, cur) ->
  getattr (fc_dict c :: tail) d "dead" = Some (ABound (State dead "dead" false)).
Proof.
  intros F V none pn ad bases names dead f c ns tail model d0 kw sid d cur HB WF NF W NS N C.
  assert (MF : made ad f) by (eapply Made; [exact HB|exact WF|exact NF]).
  assert (GF : dget "dead" (fc_states f) = Some (State dead "dead" false)).
  { eapply new_class_last; [exact NF|]. exists names, "dead", []. split; [reflexivity|]. split; [reflexivity|]. intros b st' []. }
  assert (M : made ad c). { eapply Made; [|exact W|exact N]. intros b [X|[]]. now injection X as <-. }
  assert (GC : dget "dead" (fc_states c) = Some (State dead "dead" false)).
  { rewrite (new_class_states _ _ _ _ N). unfold class_states. rewrite own_other; auto. simpl.
    assert (Z : forall (t : dict string (state F)) acc, dwf t ->
      dget "dead" (fst (fold_left (fun acc kv => (dset (fst kv) (snd kv) (fst acc), if st_default (snd kv) then Some (snd kv) else snd acc)) t acc))
      = match dget "dead" t with Some st => Some st | None => dget "dead" (fst acc) end).
    { clear. induction t as [|[k0 s0] t IH]; intros acc W; auto.
      inversion W as [|x l N1 N2]; subst. cbn [fold_left]. rewrite IH; auto. cbn [fst snd dget].
      rewrite dget_set. destruct (eqb "dead" k0) eqn:E; auto. apply eqb_eq in E. subst. now rewrite (proj2 (dget_none "dead" t)). }
    rewrite Z, GF; auto. exact (proj1 (made_named _ _ MF)). }
  apply create_parts in C as (d1&d2&d3&_&_&_&B&_). exact (bind_all_state _ _ _ _ _ _ (made_named _ _ M) B GC).
Qed.
Print Assumptions C266_dead.

(** Classes: [A] with speed 4 and colour 2, [B] with speed 5, [C(A, B)] with size 6 and _mode 1. *)
Definition d_none (v : nat) : bool := Nat.eqb v 0.
Definition d_dict (v : nat) : option (dict string nat) := None.
Definition d_fsm : option (fcls nat nat) := new_class d_dict [BAgent [("level", EVal 8)]] (fsm_body [("step", EFun 1); ("state_id", EProp)] 9).
Definition d_attr (model : string -> option (attr nat nat)) (kw : dict string (attr nat nat)) (k : string) : option (option (attr nat nat)) :=
  match d_fsm with
  | None => None
  | Some f =>
      match new_class d_dict [BFsm f] [("speed", EVal 4); ("colour", EVal 2)], new_class d_dict [BFsm f] [("speed", EVal 5)] with
      | Some a, Some b =>
          match new_class d_dict [BFsm a; BFsm b] [("size", EVal 6); ("_mode", EVal 1)] with
          | Some c =>
              let mro := [fc_dict c; fc_dict a; fc_dict b; fc_dict f] in
              match create d_none (fun _ => false) mro c model [] kw PNone with
              | Some (d, _) => Some (getattr mro d k)
              | None => None
              end
          | None => None
          end
      | _, _ => None
      end
  end.
Example C266_case :
  let none := fun _ : string => @None (attr nat nat) in
  let with_size := fun k => if String.eqb k "size" then Some (AEntry (F := nat) (EVal 7)) else None in
  d_attr none [] "size" = Some (Some (AEntry (EVal 6))) /\ d_attr none [] "speed" = Some (Some (AEntry (EVal 5))) /\
  d_attr none [] "colour" = Some (Some (AEntry (EVal 2))) /\ d_attr none [] "level" = Some (Some (AEntry (EVal 8))) /\
  d_attr with_size [] "size" = Some (Some (AEntry (EVal 7))) /\ d_attr with_size [("size", AEntry (EVal 3))] "size" = Some (Some (AEntry (EVal 3))) /\
  d_attr none [] "_mode" = Some (Some (AEntry (EVal 1))) /\
  d_attr (fun k => Some (AEntry (EVal 7))) [] "_mode" = Some (Some (AEntry (EVal 1))) /\ d_attr none [("_mode", AEntry (EVal 3))] "_mode" = Some (Some (AEntry (EVal 3))) /\
  d_attr none [] "dead" = Some (Some (ABound (State 9 "dead" false))).
Proof. repeat split; reflexivity. Qed.
