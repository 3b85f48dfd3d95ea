(** The attributes of state machines (C260-C263). *)
From Coq Require Import ZArith List Bool Arith String Ascii.
From Verif Require Import Num PyDict AgentModel FsmModel FsmAttrModel FsmAttrSpec FsmAttrProofs.
Import ListNotations.
Local Open Scope string_scope.

(** * C260: the states of an agent are its attributes *)

(** Whatever the model has, whatever the keyword arguments and the other classes are:
    [self.k] is the state called [k] of the class, bound to the agent, and [C.k] is that
    state. *)
Theorem C260_states_are_attributes : forall F V none pn (ad : V -> option (dict string V))
  (c : fcls F V) tail model d0 kw sid d cur k st,
  made ad c ->
  create none pn (fc_dict c :: tail) c model d0 kw sid = Some (d, cur) ->
  dget k (fc_states c) = Some st ->
  getattr (fc_dict c :: tail) d k = Some (ABound st)
  /\ find (fc_dict c :: tail) k = Some (EState st)
  /\ st_name st = k.
Proof.
  intros F V none pn ad c tail model d0 kw sid d cur k st M C G.
  pose proof (made_named _ _ M) as N.
  apply create_parts in C as (d1&d2&d3&_&_&_&B&_). split; [|split].
  - exact (bind_all_state _ _ _ _ _ _ N B G).
  - simpl. now rewrite (made_class_state _ _ _ _ M G).
  - apply (proj2 N). now apply dget_in.
Qed.

(** Returning [self.k] or [(self.k, t)] from a state function is the same as returning
    ["k"] or [("k", t)], and [self.k.delay(n)] is a pair with that state. *)
Theorem C260_as_good_as_the_name : forall F V none pn (ad : V -> option (dict string V))
  (c : fcls F V) tail model d0 kw sid d cur k st,
  made ad c ->
  create none pn (fc_dict c :: tail) c model d0 kw sid = Some (d, cur) ->
  dget k (fc_states c) = Some st ->
  exists a, getattr (fc_dict c :: tail) d k = Some a
    /\ delay_state a = Some st
    /\ (forall now, set_state (fc_states c) now (returned a) = Some (Some st))
    /\ (forall now, set_state (fc_states c) now (PStr k) = Some (Some st)).
Proof.
  intros F V none pn ad c tail model d0 kw sid d cur k st M C G.
  destruct (C260_states_are_attributes _ _ _ _ _ _ _ _ _ _ _ _ _ _ _ M C G) as (A&_&_).
  exists (ABound st). split; [auto|]. split; [auto|]. split; intros now; simpl; auto.
  now rewrite G.
Qed.

(** The states of the class body are among them: the last one with each name. *)
Theorem C260_own_states : forall F V none pn (ad : V -> option (dict string V)) bases ns
  (c : fcls F V) tail model d0 kw sid d cur k st,
  (forall b, In (BFsm b) bases -> made ad b) -> dwf ns ->
  new_class ad bases ns = Some c ->
  last_state ns k st ->
  create none pn (fc_dict c :: tail) c model d0 kw sid = Some (d, cur) ->
  getattr (fc_dict c :: tail) d k = Some (ABound st).
Proof.
  intros F V none pn ad bases ns c tail model d0 kw sid d cur k st HB W N L C.
  assert (M : made ad c) by (eapply Made; eauto).
  eapply C260_states_are_attributes; eauto. eapply new_class_last; eauto.
Qed.

(** The table of states is the one of [FsmModel], so that the theorems on runs are about
    these agents. *)
Theorem C260_same_table : forall F V (ad : V -> option (dict string V)) i trees
  (cs : list (fcls F V)) ns c,
  Forall2 (fun t c => fc_states c = fst (meta t)) trees cs ->
  new_class ad (map BFsm cs) ns = Some c ->
  (fc_states c, fc_default c) = meta (Cls i trees (map state_of ns)).
Proof.
  intros F V ad i trees cs ns c H N. rewrite <- (class_states_meta i trees cs ns H).
  unfold new_class in N. destruct (class_states (map BFsm cs) ns) as [states dflt].
  destruct (place_all ad ns (fold_left inherit_defaults (map BFsm cs) [], [])) as [[df nm]|];
    [|discriminate].
  now injection N as <-.
Qed.

(** ** Concrete classes *)

Definition ex_none (v : nat) : bool := Nat.eqb v 0.
Definition ex_dict (v : nat) : option (dict string nat) := None.
Definition ex_pn (k : string) : bool := false.

(** The class [FSM], with its step (function 1) and the property [state_id]. *)
Definition ex_fsm : option (fcls nat nat) :=
  new_class ex_dict [BAgent []] (fsm_body [("step", EFun 1); ("state_id", EProp)] 9).
Definition ex_new (b : option (fcls nat nat)) (ns : dict string (entry nat nat))
  : option (fcls nat nat) :=
  match b with Some c => new_class ex_dict [BFsm c] ns | None => None end.
(** The attribute [k] of an agent of a class made from [ns], with no keyword arguments
    but [kw]. *)
Definition ex_attr (ns : dict string (entry nat nat)) (kw : dict string (attr nat nat))
  (k : string) : option (option (attr nat nat)) :=
  match ex_fsm with
  | None => None
  | Some f =>
      match new_class ex_dict [BFsm f] ns with
      | None => None
      | Some c =>
          let mro := [fc_dict c; fc_dict f] in
          match create ex_none ex_pn mro c (fun _ => None) [] kw PNone with
          | None => None
          | Some (d, _) => Some (getattr mro d k)
          end
      end
  end.

Definition ex_root := State 2 "original" true.
Definition ex_other := State 3 "other" false.
(** @default_state @state("original") def root ...; @state def other ...; speed = 4 *)
Definition ex_ns : dict string (entry nat nat) :=
  [("root", EState ex_root); ("other", EState ex_other); ("speed", EVal 4)].

Example C260_case :
  (* Agent(other=5) still has the state *)
  ex_attr ex_ns [("other", AEntry (EVal 5))] "other" = Some (Some (ABound ex_other))
  /\ ex_attr ex_ns [] "original" = Some (Some (ABound ex_root))
  /\ ex_attr ex_ns [] "dead" = Some (Some (ABound (State 9 "dead" false)))
  /\ ex_attr ex_ns [("speed", AEntry (EVal 5))] "speed" = Some (Some (AEntry (EVal 5)))
  /\ ex_attr ex_ns [] "speed" = Some (Some (AEntry (EVal 4))).
Proof. repeat split; reflexivity. Qed.

Lemma ex_fsm_made c : ex_fsm = Some c -> made ex_dict c.
Proof.
  intros E. eapply Made with (3 := E).
  - intros b [X|[]]. discriminate.
  - repeat constructor; simpl; intuition discriminate.
Qed.

(** * C261: a state can be used under the name of its function *)

(** The function [root] with the decorator [state("original")]: [self.root] is neither
    bound to the agent nor can it be delayed. *)
Theorem C261_function_name_refuted :
  ~ (forall F V none pn (ad : V -> option (dict string V)) bases ns
       (c : fcls F V) tail model d0 kw sid d cur k st,
       (forall b, In (BFsm b) bases -> made ad b) -> dwf ns ->
       new_class ad bases ns = Some c -> dget k ns = Some (EState st) ->
       model k = None -> dget k d0 = None -> dget k kw = None ->
       create none pn (fc_dict c :: tail) c model d0 kw sid = Some (d, cur) ->
       exists a, getattr (fc_dict c :: tail) d k = Some a /\ delay_state a = Some st).
Proof.
  intros H. destruct ex_fsm as [f|] eqn:EF; [|vm_compute in EF; discriminate].
  pose proof (ex_fsm_made f EF) as MF.
  assert (HB : forall b, In (BFsm b) [BFsm f] -> made ex_dict b)
    by (intros b [X|[]]; now injection X as <-).
  assert (W : dwf ex_ns) by (repeat constructor; simpl; intuition discriminate).
  vm_compute in EF. injection EF as EF. subst f.
  match type of HB with forall b, In _ [BFsm ?f] -> _ =>
    destruct (new_class ex_dict [BFsm f] ex_ns) as [c|] eqn:EN; [|vm_compute in EN; discriminate];
    destruct (create ex_none ex_pn [fc_dict c; fc_dict f] c (fun _ => None) [] [] PNone)
      as [[d cur]|] eqn:EC;
      [|vm_compute in EN; injection EN as <-; vm_compute in EC; discriminate];
    destruct (H nat nat ex_none ex_pn ex_dict [BFsm f] ex_ns c [fc_dict f] (fun _ => None) [] []
                PNone d cur "root" ex_root HB W EN eq_refl eq_refl eq_refl eq_refl EC)
      as (a&G&D)
  end.
  vm_compute in EN. injection EN as <-. vm_compute in EC. injection EC as <- <-.
  vm_compute in G. injection G as <-. discriminate D.
Qed.

Example C261_case :
  ex_attr ex_ns [] "root" = Some (Some (AEntry (EState ex_root)))
  /\ @delay_state nat nat (AEntry (EState ex_root)) = None.
Proof. split; reflexivity. Qed.

(** If it is also the name of the state, it can be used. *)
Theorem C261_same_name_partial : forall F V none pn (ad : V -> option (dict string V)) bases ns
  (c : fcls F V) tail model d0 kw sid d cur st,
  (forall b, In (BFsm b) bases -> made ad b) -> dwf ns ->
  new_class ad bases ns = Some c -> last_state ns (st_name st) st ->
  create none pn (fc_dict c :: tail) c model d0 kw sid = Some (d, cur) ->
  exists a, getattr (fc_dict c :: tail) d (st_name st) = Some a /\ delay_state a = Some st.
Proof.
  intros F V none pn ad bases ns c tail model d0 kw sid d cur st HB W N L C.
  exists (ABound st). split; auto. eapply C260_own_states; eauto.
Qed.

(** Otherwise it is a copy of the state that is not bound to the agent: returning it moves
    the agent to the state, but it has no [delay] and no [at]; and the class has no
    attribute with that name. *)
Theorem C261_other_name_partial : forall F V none pn (ad : V -> option (dict string V)) bases ns
  (c : fcls F V) tail model d0 kw sid d cur k st,
  (forall b, In (BFsm b) bases -> made ad b) -> dwf ns ->
  new_class ad bases ns = Some c -> dget k ns = Some (EState st) ->
  private k = false -> dget "defaults" ns = None -> dget k (fc_states c) = None ->
  find tail k = None ->
  model k = None -> dget k d0 = None -> dget k kw = None ->
  create none pn (fc_dict c :: tail) c model d0 kw sid = Some (d, cur) ->
  find (fc_dict c :: tail) k = None
  /\ exists a, getattr (fc_dict c :: tail) d k = Some a
     /\ delay_state a = None
     /\ forall now, set_state (fc_states c) now (returned a) = Some (Some st).
Proof.
  intros F V none pn ad bases ns c tail model d0 kw sid d cur k st HB W N D P ND NS FT MK D0 KW C.
  assert (M : made ad c) by (eapply Made; eauto).
  pose proof (made_named _ _ M) as NM.
  assert (FN : find (fc_dict c :: tail) k = None).
  { simpl. rewrite (new_class_name ad bases ns c k W N (proj1 NM) NS), D, P. exact FT. }
  split; auto.
  assert (DF : dget k (fc_defaults c) = Some (EState st)).
  { pose proof N as N'. unfold new_class in N'. destruct (class_states bases ns) as [states dflt].
    destruct (place_all ad ns (fold_left inherit_defaults bases [], [])) as [[df nm]|] eqn:PA;
      [|discriminate].
    injection N' as <-. simpl. exact (place_all_default ad ns k st _ _ _ _ W PA D P ND). }
  apply create_parts in C as (d1&d2&d3&C1&C2&C3&C4&_).
  exists (AEntry (EState st)). split; [|split]; auto.
  rewrite (bind_all_other _ _ k _ _ NM C4 NS).
  rewrite (from_kwargs_other _ kw k _ _ C3 KW).
  apply (from_defaults_missing none pn _ _ k _ _ _ (made_defaults_dwf ad c M) C2); auto.
  rewrite (from_model_other _ _ _ k _ _ C1 MK).
  unfold getattr. rewrite FN, D0. reflexivity.
Qed.

(** * C262: a method of a subclass replaces the inherited state of the same name *)

(** It never does: agents of the subclass keep the state. *)
Theorem C262_method_does_not_replace_refuted : forall F V none pn
  (ad : V -> option (dict string V)) b ns (c : fcls F V) tail model d0 kw sid d cur k st e,
  made ad b -> dwf ns ->
  new_class ad [BFsm b] ns = Some c ->
  dget k (fc_states b) = Some st -> no_state ns k -> dget k ns = Some e ->
  create none pn (fc_dict c :: tail) c model d0 kw sid = Some (d, cur) ->
  getattr (fc_dict c :: tail) d k = Some (ABound st)
  /\ find (fc_dict c :: tail) k = Some (EState st)
  /\ forall now, set_state (fc_states c) now (PStr k) = Some (Some st).
Proof.
  intros F V none pn ad b ns c tail model d0 kw sid d cur k st e MB W N G NS _ C.
  assert (M : made ad c).
  { eapply Made; [|exact W|exact N]. intros b' [X|[]]. now injection X as <-. }
  assert (GC : dget k (fc_states c) = Some st).
  { rewrite (new_class_states _ _ _ _ N). unfold class_states.
    rewrite own_other; auto. simpl.
    assert (Z : forall (t : dict string (state F)) acc, dwf t ->
      dget k (fst (fold_left (fun acc kv => (dset (fst kv) (snd kv) (fst acc),
                    if st_default (snd kv) then Some (snd kv) else snd acc)) t acc))
      = match dget k t with Some st => Some st | None => dget k (fst acc) end).
    { clear. induction t as [|[k0 s0] t IH]; intros acc W; auto.
      inversion W as [|x l N1 N2]; subst. cbn [fold_left]. rewrite IH; auto. cbn [fst snd dget].
      rewrite dget_set. destruct (eqb k k0) eqn:E; auto. apply eqb_eq in E. subst.
      now rewrite (proj2 (dget_none k0 t)). }
    rewrite Z, G; auto. exact (proj1 (made_named _ _ MB)). }
  destruct (C260_states_are_attributes _ _ _ _ _ _ _ _ _ _ _ _ _ _ _ M C GC) as (A&B&_).
  split; auto. split; auto. intros now. simpl. now rewrite GC.
Qed.

(** Only a state of that name does. *)
Theorem C262_state_replaces_partial : forall F V none pn
  (ad : V -> option (dict string V)) b ns (c : fcls F V) tail model d0 kw sid d cur k st,
  made ad b -> dwf ns ->
  new_class ad [BFsm b] ns = Some c -> last_state ns k st ->
  create none pn (fc_dict c :: tail) c model d0 kw sid = Some (d, cur) ->
  getattr (fc_dict c :: tail) d k = Some (ABound st).
Proof.
  intros F V none pn ad b ns c tail model d0 kw sid d cur k st MB W N L C.
  eapply C260_own_states; eauto. intros b' [X|[]]. now injection X as <-.
Qed.

Example C262_case :
  (* class Sub(FSM): def dead(self): ... and dead = 3 change nothing *)
  ex_attr [("dead", EFun 7)] [] "dead" = Some (Some (ABound (State 9 "dead" false)))
  /\ ex_attr [("dead", EVal 3)] [] "dead" = Some (Some (ABound (State 9 "dead" false)))
  (* @state def dead(self): ... does *)
  /\ ex_attr [("dead", EState (State 7 "dead" true))] [] "dead"
     = Some (Some (ABound (State 7 "dead" true))).
Proof. repeat split; reflexivity. Qed.

(** * C263: a state can have any name *)

(** A function called [step] cannot be a state: the class cannot be created. *)
Theorem C263_function_called_step_refuted : forall F V (ad : V -> option (dict string V)) bases
  (ns : dict string (entry F V)) st,
  In ("step", EState st) ns -> new_class ad bases ns = None.
Proof.
  intros F V ad bases ns st I. unfold new_class. destruct (class_states bases ns) as [states dflt].
  assert (Z : forall acc, place_all ad ns acc = None).
  { induction ns as [|p ns IH]; intros acc; [contradiction|]. cbn [place_all].
    destruct I as [->|I].
    - destruct acc. reflexivity.
    - destruct (place ad acc p); auto. }
  now rewrite Z.
Qed.

(** A state that is given the name [step] replaces the step of its agents, which cannot be
    activated. *)
Theorem C263_state_called_step_refuted : forall F V none pn (ad : V -> option (dict string V))
  (c : fcls F V) tail model d0 kw sid d cur st,
  made ad c ->
  dget "step" (fc_states c) = Some st ->
  create none pn (fc_dict c :: tail) c model d0 kw sid = Some (d, cur) ->
  step_fun (fc_dict c :: tail) d = None.
Proof.
  intros F V none pn ad c tail model d0 kw sid d cur st M G C.
  unfold step_fun.
  destruct (C260_states_are_attributes _ _ _ _ _ _ _ _ _ _ _ _ _ _ _ M C G) as (A&_&_).
  now rewrite A.
Qed.

(** Functions with all other names but [defaults] can be states. *)
Theorem C263_class_can_be_made_partial : forall F V (ad : V -> option (dict string V)) bases
  (ns : dict string (entry F V)),
  (forall k e, In (k, e) ns -> k = "step" -> exists f, e = EFun f) ->
  (forall e, ~ In ("defaults", e) ns) ->
  exists c, new_class ad bases ns = Some c.
Proof.
  intros F V ad bases ns HS HD. unfold new_class.
  destruct (class_states bases ns) as [states dflt].
  assert (Z : forall acc, exists r, place_all ad ns acc = Some r).
  { induction ns as [|[k e] ns IH]; intros acc; cbn [place_all]; [eauto|].
    assert (P : exists r, place ad acc (k, e) = Some r).
    { destruct acc as [df nm]. unfold place. destruct (String.eqb k "step") eqn:E.
      - apply String.eqb_eq in E. destruct (HS k e) as [f ->]; auto; [now left|]. eauto.
      - assert (ED : String.eqb k "defaults" = false).
        { apply String.eqb_neq. intros ->. apply (HD e). now left. }
        rewrite ED. destruct e; eauto; destruct (private k); eauto. }
    destruct P as [r ->]. apply IH.
    - intros k' e' I. apply HS. now right.
    - intros e' I. apply (HD e'). now right. }
  destruct (Z (fold_left inherit_defaults bases [], [])) as [[df nm] ->]. eauto.
Qed.

(** States hide nothing but what has their name: keyword arguments with other names are
    attributes, and functions of the class with other names can be called (unless the
    model, the constructor of mesa or a keyword argument sets that attribute); in
    particular the step. *)
Theorem C263_other_names_partial : forall F V none pn (ad : V -> option (dict string V))
  (c : fcls F V) tail model d0 kw sid d cur k,
  made ad c -> dwf kw ->
  create none pn (fc_dict c :: tail) c model d0 kw sid = Some (d, cur) ->
  dget k (fc_states c) = None ->
  (forall v, dget k kw = Some v -> getattr (fc_dict c :: tail) d k = Some v)
  /\ (forall f, dget k kw = None -> dget k d0 = None -> model k = None ->
      find (fc_dict c :: tail) k = Some (EFun f) ->
      getattr (fc_dict c :: tail) d k = Some (AEntry (EFun f))).
Proof.
  intros F V none pn ad c tail model d0 kw sid d cur k M WK C NS.
  pose proof (made_named _ _ M) as NM.
  apply create_parts in C as (d1&d2&d3&C1&C2&C3&C4&_).
  rewrite (bind_all_other _ _ k _ _ NM C4 NS). split.
  - intros v KW. exact (from_kwargs_given _ kw k v _ _ WK C3 KW).
  - intros f KW D0 MK FN. rewrite (from_kwargs_other _ kw k _ _ C3 KW).
    apply (from_defaults_kept none pn _ _ k _ _ _ C2); auto.
    rewrite (from_model_other _ _ _ k _ _ C1 MK).
    unfold getattr. now rewrite FN, D0.
Qed.

Theorem C263_step_partial : forall F V none pn (ad : V -> option (dict string V))
  (c : fcls F V) tail model d0 kw sid d cur f,
  made ad c -> dwf kw ->
  create none pn (fc_dict c :: tail) c model d0 kw sid = Some (d, cur) ->
  dget "step" (fc_states c) = None ->
  dget "step" kw = None -> dget "step" d0 = None -> model "step" = None ->
  find (fc_dict c :: tail) "step" = Some (EFun f) ->
  step_fun (fc_dict c :: tail) d = Some f.
Proof.
  intros F V none pn ad c tail model d0 kw sid d cur f M WK C NS KW D0 MK FN. unfold step_fun.
  destruct (C263_other_names_partial _ _ _ _ _ _ _ _ _ _ _ _ _ "step" M WK C NS) as [_ X].
  now rewrite (X f).
Qed.

Example C263_case :
  ex_attr ex_ns [] "step" = Some (Some (AEntry (EFun 1)))
  /\ ex_new ex_fsm [("step", EState ex_root)] = None
  /\ ex_attr [("root", EState (State 2 "step" true))] [] "step"
     = Some (Some (ABound (State 2 "step" true))).
Proof. repeat split; reflexivity. Qed.

Print Assumptions C260_states_are_attributes.
Print Assumptions C260_as_good_as_the_name.
Print Assumptions C260_own_states.
Print Assumptions C260_same_table.
Print Assumptions C261_function_name_refuted.
Print Assumptions C261_same_name_partial.
Print Assumptions C261_other_name_partial.
Print Assumptions C262_method_does_not_replace_refuted.
Print Assumptions C262_state_replaces_partial.
Print Assumptions C263_function_called_step_refuted.
Print Assumptions C263_state_called_step_refuted.
Print Assumptions C263_class_can_be_made_partial.
Print Assumptions C263_other_names_partial.
Print Assumptions C263_step_partial.
