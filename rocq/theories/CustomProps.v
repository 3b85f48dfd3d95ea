(** C212 to C216: classes made from other classes (soil/agents/__init__.py:162-163 and 691-693), and the names of classes of agents
    (soil/agents/__init__.py:368-382). *)
From Coq Require Import ZArith List Bool Arith Ascii String Lia.
From Verif Require Import PyDict AgentSpec AgentProofs FsmModel SerialModel SerialSpec SerialProofs SerialProps.
From Verif Require Import AgentModel CustomModel CustomSpec CustomProofs.
Import ListNotations.
Local Open Scope string_scope.
Local Open Scope list_scope.

(** * C212: the arguments of w reach the agents *)
(** C212 is false if the model has an attribute of that name: its value is used... *)
Theorem C212_model_wins_refuted : forall is_function legal_step as_dict i template kw c'
    C class_attr model_attr read_only uid model name logger args (h : list C) d h' k v,
  custom is_function legal_step as_dict i template kw = Some c' -> dwf kw -> dget "defaults" kw = None ->
  public_name k -> dget k kw = Some v -> is_function v = false ->
  base_init class_attr model_attr read_only (defaults c') uid model name logger args h = Some (d, h') ->
  dwf args -> valid h (defaults c') -> dget k args = None ->
  model_attr k <> VNone -> dget k d = Some (model_attr k).
Proof.
  intros is_function legal_step as_dict i template kw c' C class_attr model_attr read_only uid model name logger args h d h' k v
    E N D P G F B NA VA A M.
  destruct (init_attributes class_attr model_attr read_only (defaults c') uid model name logger args h d h' B (defaults_wf c') NA VA)
    as (_ & _ & X & _).
  apply (X k v A); auto. eapply custom_defaults; eauto.
Qed.
Print Assumptions C212_model_wins_refuted.
(** ... and if the class of the template has one (a method or a property such as state_id): agents do not get an attribute, so the one
    of the class is used. *)
Theorem C212_class_wins_refuted : forall is_function legal_step as_dict i template kw c'
    C class_attr model_attr read_only uid model name logger args (h : list C) d h' k v x,
  custom is_function legal_step as_dict i template kw = Some c' -> dget k kw = Some v ->
  base_init class_attr model_attr read_only (defaults c') uid model name logger args h = Some (d, h') ->
  dwf args -> dget k args = None -> model_attr k = VNone -> ~ In k preset ->
  class_attr k = Some x -> x <> VNone -> dget k d = None.
Proof. intros. eapply init_class; eauto. Qed.
Print Assumptions C212_class_wins_refuted.

(** C212 for all other names: agents get (a copy of) the value, and all other attributes are those of the template. *)
Theorem C212_arguments_partial : forall is_function legal_step as_dict i template kw c',
  custom is_function legal_step as_dict i template kw = Some c' -> dwf kw -> dget "defaults" kw = None ->
  (forall k, dget k kw = None -> dget k (defaults c') = dget k (defaults template)) /\
  forall C class_attr model_attr read_only uid model name logger args (h : list C) d h' k v,
  base_init class_attr model_attr read_only (defaults c') uid model name logger args h = Some (d, h') ->
  dwf args -> valid h (defaults c') ->
  public_name k -> dget k kw = Some v -> is_function v = false ->
  dget k args = None -> model_attr k = VNone -> ~ In k reserved -> class_attr k = None ->
  exists v', dget k d = Some v' /\ fresh_copy h h' v v'.
Proof.
  intros is_function legal_step as_dict i template kw c' E N D. split.
  - intros k G. eapply custom_defaults_other; eauto.
  - intros C class_attr model_attr read_only uid model name logger args h d h' k v B NA VA P G F A M R K.
    destruct (init_attributes class_attr model_attr read_only (defaults c') uid model name logger args h d h' B (defaults_wf c') NA VA)
      as (_ & _ & _ & X & _).
    apply (X k v A); auto. eapply custom_defaults; eauto.
Qed.
Print Assumptions C212_arguments_partial.

(** A step that is not a function is refused. *)
Theorem C212_step_partial : forall V is_function legal_step as_dict i (template : cls (item V)) kw v,
  In ("step", v) kw -> legal_step v = false -> custom is_function legal_step as_dict i template kw = None.
Proof.
  intros V is_function legal_step as_dict i template kw v I L. unfold custom.
  enough (E : keywords is_function legal_step as_dict kw = None) by now rewrite E.
  induction kw as [|[k x] kw IH]; [destruct I|]. cbn [keywords]. destruct I as [E|I].
  - injection E as -> ->. unfold keyword. cbn [String.eqb Ascii.eqb Bool.eqb]. rewrite L. reflexivity.
  - rewrite (IH I). now destruct (keyword is_function legal_step as_dict k x).
Qed.
Print Assumptions C212_step_partial.

(** What is refused: nothing else than a step that is not a function, defaults that are not a dictionary, and the empty name.  Functions and
    what has a private name do not become defaults. *)
Theorem C212_accepted_partial : forall V is_function legal_step as_dict i (template : cls (item V)) kw,
  (custom is_function legal_step as_dict i template kw <> None <->
   forall k v, In (k, v) kw ->
     (k = "step" -> legal_step v = true) /\
     (k <> "step" -> is_function v = false -> k <> "" /\ (k = "defaults" -> as_dict v <> None))) /\
  forall c', custom is_function legal_step as_dict i template kw = Some c' -> dwf kw -> dget "defaults" kw = None ->
  forall k v, dget k kw = Some v -> (exists s, k = String "_" s) \/ is_function v = true ->
  dget k (defaults c') = dget k (defaults template).
Proof.
  intros V is_function legal_step as_dict i template kw. split.
  - assert (K : forall k v, keyword is_function legal_step as_dict k v <> None <->
              ((k = "step" -> legal_step v = true) /\
               (k <> "step" -> is_function v = false -> k <> "" /\ (k = "defaults" -> as_dict v <> None)))).
    { intros k v. unfold keyword. destruct (String.eqb_spec k "step") as [A0|A]; [subst k|].
      - destruct (legal_step v); [split; [intros _; split; congruence | discriminate]|].
        split; [congruence|]. intros [B _]. specialize (B eq_refl). discriminate.
      - destruct (is_function v); [split; [intros _; split; congruence | discriminate]|].
        destruct k as [|a k']; cbn [private_name].
        { split; [congruence|]. intros [_ B]. destruct (B A eq_refl) as [C _]. congruence. }
        destruct (Ascii.eqb_spec a "_") as [B0|B]; [subst a|].
        { split; [|discriminate]. intros _. split; [congruence|]. intros _ _. split; discriminate. }
        destruct (String.eqb_spec (String a k') "defaults") as [C|C].
        + destruct (as_dict v).
          * split; [|discriminate]. intros _. split; [congruence|]. intros _ _. split; discriminate.
          * split; [congruence|]. intros [_ D]. destruct (D A eq_refl) as [_ F]. destruct (F C eq_refl).
        + split; [|discriminate]. intros _. split; [congruence|]. intros _ _. split; [discriminate|congruence]. }
    unfold custom.
    assert (KS : keywords is_function legal_step as_dict kw <> None <-> forall k v, In (k, v) kw -> keyword is_function legal_step as_dict k v <> None).
    { induction kw as [|[k v] kw IH]; cbn [keywords]; [split; [intros _ k v []|discriminate]|].
      destruct (keyword is_function legal_step as_dict k v) eqn:E.
      - destruct (keywords is_function legal_step as_dict kw) eqn:F.
        + split; [|discriminate]. intros _ k' v' [I|I]; [injection I as <- <-; congruence|]. now apply IH.
        + split; [congruence|]. intros H. exfalso. apply (proj2 IH); [|reflexivity]. intros k' v' I. apply H. now right.
      - split; [congruence|]. intros H. exfalso. apply (H k v); [now left|exact E]. }
    destruct (keywords is_function legal_step as_dict kw) as [own|].
    + split; [|discriminate]. intros _ k v I. apply K, KS; [discriminate|exact I].
    + split; [congruence|]. intros H. exfalso. apply (proj2 KS); [|reflexivity]. intros k v I. now apply K, H.
  - intros c' E N D k v G P. unfold custom in E. destruct (keywords is_function legal_step as_dict kw) as [own|] eqn:F; [|discriminate].
    injection E as <-. rewrite defaults_get.
    assert (X : body_value k own = None).
    { revert own F N D G. induction kw as [|[k' v'] kw IH]; intros own F N D G; [discriminate|]. cbn [keywords dget] in *.
      destruct (eqb "defaults" k') eqn:E1; [discriminate|]. apply eqb_neq in E1.
      destruct (keyword is_function legal_step as_dict k' v') as [a|] eqn:Q; [|discriminate].
      destruct (keywords is_function legal_step as_dict kw) as [b|] eqn:Qs; [|discriminate]. injection F as <-. rewrite body_value_app.
      inversion N; subst. destruct (eqb k k') eqn:E2.
      - apply eqb_eq in E2. subst k'. injection G as ->.
        assert (Z : dget k kw = None) by (apply dget_none; assumption).
        rewrite (keywords_other is_function legal_step as_dict kw b k Qs D Z).
        unfold keyword in Q. destruct (String.eqb k "step"); [destruct (legal_step v); now inversion Q|].
        destruct (is_function v); [now inversion Q|]. destruct P as [[s ->]|P]; [|discriminate]. cbn [private_name] in Q. rewrite Ascii.eqb_refl in Q. now inversion Q.
      - apply eqb_neq in E2. rewrite (IH b eq_refl) by assumption. apply (keyword_other is_function legal_step as_dict k' v' k a); congruence. }
    rewrite X. cbn. now destruct (dget k (defaults template)).
Qed.
Print Assumptions C212_accepted_partial.
(** A class with two defaults, and w(openness=3, friends=[...], rate=7, visit=5, helper=<function>, _x=1): the model has a rate and the class
    a method visit. *)
Definition patron : cls (item val) := Cls 1 [Cls 0 [] []] [IAttr "openness" (VAtom 1); IAttr "age" (VAtom 30)].
Definition patron_kw : dict string val :=
  [("openness", VAtom 3); ("friends", VRef 0); ("rate", VAtom 7); ("visit", VAtom 5); ("helper", VAtom 99); ("_x", VAtom 1)].
Definition is99 (v : val) : bool := match v with VAtom 99 => true | _ => false end.
Definition patron_class (k : string) : option val := if String.eqb k "visit" then Some (VAtom 1000) else None.
Definition patron_model (k : string) : val := if String.eqb k "rate" then VAtom 70 else VNone.
Example C212_case : exists c' d h',
  custom is99 is99 (fun _ => None) 2 patron patron_kw = Some c' /\ dwf patron_kw /\ valid [42%Z] (defaults c') /\
  base_init patron_class patron_model (fun _ => false) (defaults c') (VAtom 8) (VAtom 9) (VAtom 10) (VAtom 11) [] [42%Z] = Some (d, h') /\
  dget "openness" d = Some (VAtom 3) /\ dget "age" d = Some (VAtom 30) /\ dget "friends" d = Some (VRef 1) /\
  nth_error h' 1 = Some 42%Z /\ dget "rate" d = Some (VAtom 70) /\ dget "visit" d = None /\ dget "helper" d = None /\ dget "_x" d = None.
Proof.
  eexists _, _, _. split; [reflexivity|]. split; [repeat constructor; cbn; intuition discriminate|].
  split; [|vm_compute; repeat split].
  intros k l E. cbn in E. repeat destruct E as [E|E]; try discriminate; try (injection E as <- <-; cbn; lia). destruct E.
Qed.

(** * C213: agents of a class made with w start in the same state as those of the template *)
(** C213 is false: if a state of the base was made the default in a subclass that comes earlier in the table than the former default, the
    former default is the initial state again... *)
Definition quiet : state nat := State 1 "quiet" false.
Definition loud : state nat := State 2 "loud" true.
Definition quiet2 : state nat := State 3 "quiet" true.
Definition speaker : cls (option (state nat)) := Cls 2 [Cls 1 [fsm_class 0] [Some quiet; Some loud]] [Some quiet2].
Theorem C213_other_state_refuted : exists F (c : cls (option (state F))) s1 s2, s1 <> s2 /\
  fsm_init c PNone = Some (Some s1) /\ forall i kw, (forall o, In o kw -> o = None) -> fsm_init (custom_fsm i c kw) PNone = Some (Some s2).
Proof.
  exists nat, speaker, quiet2, loud. split; [discriminate|]. split; [reflexivity|]. intros i kw H. unfold fsm_init, custom_fsm.
  cbn [meta fold_left]. rewrite plain_own by exact H. reflexivity.
Qed.
Print Assumptions C213_other_state_refuted.
(** ... and if the default state was redefined without the mark, no agent can be created (ValueError). *)
Definition loud2 : state nat := State 4 "loud" false.
Definition speaker2 : cls (option (state nat)) := Cls 3 [Cls 1 [fsm_class 0] [Some quiet; Some loud]] [Some loud2].
Theorem C213_no_state_refuted : exists F (c : cls (option (state F))) s,
  fsm_init c PNone = Some (Some s) /\ forall i kw, (forall o, In o kw -> o = None) -> fsm_init (custom_fsm i c kw) PNone = None.
Proof.
  exists nat, speaker2, loud. split; [reflexivity|]. intros i kw H. unfold fsm_init, custom_fsm.
  cbn [meta fold_left]. rewrite plain_own by exact H. reflexivity.
Qed.
Print Assumptions C213_no_state_refuted.

(** C213, what holds: the states are always those of the template, and the initial state is the same, whatever state_id is, if the table
    has exactly one state that is marked as the default, the initial one (or none and there is no initial one). *)
Theorem C213_states_partial : forall F i (c : cls (option (state F))) kw, (forall o, In o kw -> o = None) ->
  fst (meta (custom_fsm i c kw)) = fst (meta c) /\
  ((forall n s, dget n (fst (meta c)) = Some s -> st_default s = true -> snd (meta c) = Some s) ->
   (forall s, snd (meta c) = Some s -> exists n s', dget n (fst (meta c)) = Some s' /\ st_default s' = true) ->
   forall state_id, fsm_init (custom_fsm i c kw) state_id = fsm_init c state_id).
Proof.
  intros F i c kw H. split; [now apply custom_table|]. intros A B state_id.
  assert (T := custom_table i c kw H). assert (D := custom_default i c kw H A B). unfold fsm_init.
  destruct (meta (custom_fsm i c kw)) as [t1 d1], (meta c) as [t2 d2]. cbn [fst snd] in *. now subst.
Qed.
Print Assumptions C213_states_partial.
Definition speaker3 : cls (option (state nat)) := Cls 4 [fsm_class 0] [Some quiet; Some loud].
Example C213_case :
  (forall n s, dget n (fst (meta speaker3)) = Some s -> st_default s = true -> snd (meta speaker3) = Some s) /\
  snd (meta speaker3) = Some loud /\ dget "loud" (fst (meta speaker3)) = Some loud /\
  fsm_init (custom_fsm 5 speaker3 [None; None]) (PStr "quiet") = Some (Some quiet) /\
  fsm_init (custom_fsm 5 speaker3 [None; None]) PNone = Some (Some loud).
Proof.
  repeat split. intros n s E D. apply dget_in in E. cbn in E. repeat destruct E as [E|E]; try (injection E as <- <-); try discriminate; auto. destruct E.
Qed.

(** * C214: the name of a class made with w finds it *)
(** C214 is false for every class made with w that was not also put in a module: neither its name nor its text finds it, whatever is
    registered and whatever is looked up before. *)
Theorem C214_lost_refuted : forall (O : Type) import (builtins : dict string O) eval hook r o template module,
  unreachable import eval hook r o ->
  let c := custom_class o template module in
  (forall n r' calls, name import builtins c (dkeys r) r = (Some n, r') ->
     fst (deserialize import builtins eval hook n (run_calls import builtins eval hook calls r')) <> Found o) /\
  fst (deserialize import builtins eval hook (class_repr c) r) <> Found o.
Proof.
  intros O import builtins eval hook r o template module U. cbv zeta. split.
  - intros n r' calls E. eapply never_found; [|exact U].
    assert (G := name_grows import builtins (custom_class o template module) (dkeys r) r). rewrite E in G.
    eapply grows_trans; [exact G|]. apply run_calls_grows.
  - eapply never_found; [apply grows_refl|exact U].
Qed.
Print Assumptions C214_lost_refuted.
(** Its name finds another class instead, the template, if that is the one that the registered modules have under the name: the arguments
    of w are lost without an error. *)
Theorem C214_template_refuted : forall (O : Type) import (builtins : dict string O) eval hook r o template f,
  ordinary builtins (c_name template) -> ~ In "" (dkeys r) -> ~ In "abc" (dkeys r) ->
  (forall k, In k (dkeys r) -> contents import r k <> None) ->
  first_with import r (c_name template) (c_object template) -> usable hook (c_object template) f ->
  exists r', name import builtins (custom_class o template None) (dkeys r) r = (Some (c_name template), r') /\
    fst (deserialize import builtins eval hook (c_name template) r') = Found f.
Proof.
  intros O import builtins eval hook r o template f Q N A I F U.
  apply (C102_same_name_refuted O import builtins eval hook r (custom_class o template None) (c_object template) f); cbn; auto. discriminate.
Qed.
Print Assumptions C214_template_refuted.
(** C214, what holds: if [__module__] is given to w and the class is put in that module under the name of the template, which no
    registered module has for another object. *)
Theorem C214_module_partial : forall (O : Type) import (builtins : dict string O) eval hook r o template m f,
  usable hook o f -> ordinary builtins (c_name template) -> m <> "__main__" -> m <> "" -> (forall s, m <> String "<" s) ->
  plain_names import builtins r -> ~ In "" (dkeys r) -> (forall k, In k (dkeys r) -> contents import r k <> None) ->
  has import r m (c_name template) o -> (forall k x, In k (dkeys r) -> has import r k (c_name template) x -> x = o) ->
  exists n r', name import builtins (custom_class o template (Some m)) (dkeys r) r = (Some n, r') /\
    fst (deserialize import builtins eval hook n r') = Found f.
Proof.
  intros O import builtins eval hook r o template m f U Q A B D P N I H S.
  apply (C102_name_partial O import builtins eval hook r (custom_class o template (Some m)) f); cbn; auto.
Qed.
Print Assumptions C214_module_partial.
(** City.w(...) for the class City of pkg.models: its name is abc.City if pkg.models is not registered, and City otherwise. *)
Definition city : class nat := {| c_object := 21; c_name := "City"; c_module := "pkg.models" |}.
Definition ex_registry2 : dict string (option (dict string nat)) := [("soil", None); ("pkg.models", None)].
Example C214_case :
  unreachable ex_import no_eval no_hook ex_registry 77 /\
  fst (name ex_import ex_builtins (custom_class 77 city None) (dkeys ex_registry) ex_registry) = Some "abc.City" /\
  fst (find "abc.City" ex_registry) = RaisesValueError /\
  ordinary ex_builtins "City" /\ first_with ex_import ex_registry2 "City" 21 /\
  fst (name ex_import ex_builtins (custom_class 77 city None) (dkeys ex_registry2) ex_registry2) = Some "City" /\
  fst (find "City" ex_registry2) = Found 21.
Proof.
  split.
  { split; [|discriminate]. intros k n x (m & E & G) [U|[_ U]]; [discriminate|]. subst x. apply dget_in in G.
    assert (X : ex_import k = Some m).
    { unfold contents in E. cbn in E. destruct (eqb k "soil"); exact E. }
    unfold ex_import in X. destruct (String.eqb k "soil"); [injection X as <-|destruct (String.eqb k "pkg.models"); [injection X as <-|discriminate]];
      cbn in G; intuition discriminate. }
  split; [reflexivity|]. split; [reflexivity|]. split; [repeat split; discriminate|]. split; [|split; reflexivity].
  exists ["soil"], "pkg.models", []. split; [reflexivity|]. split.
  - intros j [<-|[]] o (m & E & G). vm_compute in E. injection E as <-. discriminate.
  - eexists. split; reflexivity.
Qed.

(** * C215: _serialize_type does not change its arguments *)
(** C215 is false: the list passed to it is extended, by each call with a class... *)
Theorem C215_list_changed_refuted : forall (O : Type) import (builtins : dict string O) c l default r n own' default' r',
  serialize_type import builtins (TClass c) (Some l) default r = (n, own', default', r') ->
  own' = Some (l ++ ["soil.agents"]) /\ own' <> Some l /\ default' = default.
Proof.
  intros O import builtins c l default r n own' default' r' E. cbn [serialize_type] in E.
  destruct (name import builtins c (l ++ ["soil.agents"]) r) as [n1 r1]. injection E as <- <- <- <-. split; [reflexivity|]. split; [|reflexivity].
  intros X. injection X as X. apply (f_equal (@List.length _)) in X. rewrite app_length in X. cbn in X. lia.
Qed.
Print Assumptions C215_list_changed_refuted.
(** ... and so is the default value of the parameter. *)
Theorem C215_default_grows_refuted : forall (O : Type) import (builtins : dict string O) (cs : list (class O)) default r l default' r',
  serialize_types import builtins (map (fun c => (TClass c, None)) cs) default r = (l, default', r') ->
  default' = default ++ repeat "soil.agents" (List.length cs).
Proof.
  intros O import builtins cs. induction cs as [|c cs IH]; intros default r l default' r' E; cbn [map serialize_types] in E.
  - injection E as <- <- <-. cbn. now rewrite app_nil_r.
  - cbn [serialize_type] in E. destruct (name import builtins c (default ++ ["soil.agents"]) r) as [n1 r1].
    destruct (serialize_types import builtins (map (fun c => (TClass c, None)) cs) (default ++ ["soil.agents"]) r1) as [[l2 d2] r2] eqn:E2.
    injection E as <- <- <-. rewrite (IH _ _ _ _ _ E2). rewrite <- app_assoc. reflexivity.
Qed.
Print Assumptions C215_default_grows_refuted.
(** C215, what holds: the results of calls without a list are the same as if each of them were the first one. *)
Theorem C215_same_names_partial : forall (O : Type) import (builtins : dict string O) calls r l default r',
  (forall c, In c calls -> snd c = None) ->
  serialize_types import builtins calls [] r = (l, default, r') ->
  map fst l = map (fun c => let '(n, _, _, _) := serialize_type import builtins (fst c) None [] r in n) calls.
Proof.
  intros O import builtins calls r l default r' H E.
  destruct (serialize_types_spec import builtins calls 0 r l default r' H E) as (_ & _ & M). rewrite M. apply map_ext.
  intros [[s|c] o]; cbn [fst serialize_type app]; [reflexivity|]. now destruct (name import builtins c ["soil.agents"] r).
Qed.
Print Assumptions C215_same_names_partial.

(** A world with soil.agents. *)
Definition ag_import (s : string) : option (dict string nat) :=
  if String.eqb s "soil.agents" then Some [("FSM", 30); ("NetworkAgent", 31)]
  else if String.eqb s "soil.agents.network_agents" then Some [("NetworkAgent", 31)]
  else if String.eqb s "my.code" then Some [("Walker", 40); ("FSM", 41)]
  else if String.eqb s "abc" then Some [("ABCMeta", 50)] else None.
Definition network_agent : class nat := {| c_object := 31; c_name := "NetworkAgent"; c_module := "soil.agents.network_agents" |}.
Definition walker : class nat := {| c_object := 40; c_name := "Walker"; c_module := "my.code" |}.
Definition my_fsm : class nat := {| c_object := 41; c_name := "FSM"; c_module := "my.code" |}.
Definition script : class nat := {| c_object := 42; c_name := "Runner"; c_module := "__main__" |}.
Example C215_case :
  fst (fst (serialize_types ag_import ex_builtins [(TClass network_agent, None); (TName "X", None); (TClass walker, None); (TClass walker, Some ["my.code"])] [] [])) =
    [(Some "NetworkAgent", None); (Some "X", None); (Some "my.code.Walker", None); (Some "Walker", Some ["my.code"; "soil.agents"])].
Proof. reflexivity. Qed.

(** * C216: _deserialize_type undoes _serialize_type *)
(** C216 is false for classes of the main program: nothing is found (ValueError) unless soil.agents has an object of that name... *)
Theorem C216_main_refuted : forall (O : Type) import (builtins : dict string O) hook r c,
  ordinary builtins (c_name c) -> c_module c = "__main__" ->
  has_not import r "soil.agents" (c_name c) -> has_not import r "soil.agents.custom" (c_name c) ->
  exists own' default' r', serialize_type import builtins (TClass c) None [] r = (Some (c_name c), own', default', r') /\
    fst (deserialize_type import builtins hook (c_name c) [] r') = RaisesValueError.
Proof.
  intros O import builtins hook r c (Q1 & Q2 & Q3 & Q4 & Q5) M A B. exists None, ["soil.agents"], r. split.
  - cbn [serialize_type app]. unfold name. rewrite dhas_get, Q3, M. reflexivity.
  - unfold deserialize_type, deserializer. destruct (String.eqb_spec (c_name c) "str"); [congruence|].
    destruct (String.eqb_spec (c_name c) "None"); [congruence|]. rewrite Q3, (is_class_other _ Q5), (rsplit_no_dot _ Q4).
    cbn [app filter map String.eqb negb].
    destruct (try_skip import hook [("soil.agents", c_name c); ("soil.agents.custom", c_name c)] [] r) as (r' & _ & E).
    { intros k n' [J|[J|[]]]; injection J as <- <-; auto. }
    rewrite app_nil_r in E. cbn. cbn in E. rewrite E. reflexivity.
Qed.
Print Assumptions C216_main_refuted.
(** ... and for classes (made with w or not) of another module whose name soil.agents uses for another object: that is found. *)
Theorem C216_homonym_refuted : forall (O : Type) import (builtins : dict string O) hook r c o f,
  ordinary builtins (c_name c) -> has import r "soil.agents" (c_name c) o -> usable hook o f ->
  exists own' default' r', serialize_type import builtins (TClass c) None [] r = (Some (c_name c), own', default', r') /\
    fst (deserialize_type import builtins hook (c_name c) [] r') = Found f.
Proof.
  intros O import builtins hook r c o f Q H U. rewrite <- (usable_hook hook o f U). assert (Q' := Q). destruct Q' as (Q1 & Q2 & Q3 & Q4 & Q5).
  cbn [serialize_type app]. assert (G := name_grows import builtins c ["soil.agents"] r).
  assert (E : fst (name import builtins c ["soil.agents"] r) = Some (c_name c)).
  { unfold name. rewrite dhas_get, Q3. destruct (String.eqb (c_module c) "__main__"); [reflexivity|].
    destruct (existsb (String.eqb (c_module c)) ["soil.agents"]); [reflexivity|]. destruct H as (m & C & D). cbn [known_name].
    destruct (get_module_eq import "soil.agents" r) as [X _]. destruct (get_module import "soil.agents" r) as [y r1]. cbn [fst] in X. subst y.
    rewrite C, dhas_get, D. reflexivity. }
  destruct (name import builtins c ["soil.agents"] r) as [n r1]. cbn [fst snd] in *. subst n. exists None, ["soil.agents"], r1. split; [reflexivity|].
  unfold deserialize_type, deserializer. destruct (String.eqb_spec (c_name c) "str"); [congruence|].
  destruct (String.eqb_spec (c_name c) "None"); [congruence|]. rewrite Q3, (is_class_other _ Q5), (rsplit_no_dot _ Q4).
  cbn [app filter map String.eqb negb]. apply try_has. now apply (grows_has import _ _ _ _ _ G).
Qed.
Print Assumptions C216_homonym_refuted.
(** C216 for all other classes: those of modules that can be imported. *)
Theorem C216_round_trip_partial : forall (O : Type) import (builtins : dict string O) hook r c f,
  usable hook (c_object c) f -> ordinary builtins (c_name c) -> c_module c <> "__main__" -> (forall s, c_module c <> String "<" s) ->
  plain_names import builtins r -> contents import r "soil.agents" <> None ->
  has import r (c_module c) (c_name c) (c_object c) ->
  (forall k o, In k ["soil.agents"; "soil.agents.custom"] -> has import r k (c_name c) o -> o = c_object c) ->
  exists n own' default' r', serialize_type import builtins (TClass c) None [] r = (Some n, own', default', r') /\
    fst (deserialize_type import builtins hook n [] r') = Found f.
Proof.
  intros O import builtins hook r c f U Q M M1 P I H S.
  destruct (type_round_trip import builtins hook r c f U Q M M1 P I H S) as (n & E & T).
  cbn [serialize_type app]. assert (G := name_grows import builtins c ["soil.agents"] r).
  destruct (name import builtins c ["soil.agents"] r) as [x r1]. cbn [fst snd] in *. subst x.
  exists n, None, ["soil.agents"], r1. split; [reflexivity|]. now apply T.
Qed.
Print Assumptions C216_round_trip_partial.
(** The modules that are given are searched first, in their order, then soil.agents and soil.agents.custom. *)
Theorem C216_known_partial : forall (O : Type) import (builtins : dict string O) hook r n known before k later o f,
  ordinary builtins n -> ~ In "" known -> known ++ ["soil.agents"; "soil.agents.custom"] = before ++ k :: later ->
  (forall j, In j before -> has_not import r j n) -> has import r k n o -> usable hook o f ->
  fst (deserialize_type import builtins hook n known r) = Found f.
Proof.
  intros O import builtins hook r n known before k later o f Q N E B H U. unfold deserialize_type.
  rewrite deserializer_ordinary; [|exact Q|].
  - rewrite E, <- (usable_hook hook o f U). apply (try_first import hook r n o later r (grows_refl import r) before k B H).
  - rewrite in_app_iff. intros [I|[I|[I|[]]]]; [contradiction|discriminate|discriminate].
Qed.
Print Assumptions C216_known_partial.
Example C216_known_case : fst (deserialize_type ag_import ex_builtins no_hook "Walker" ["my.code"] []) = Found 40 /\
  fst (deserialize_type ag_import ex_builtins no_hook "FSM" ["nowhere"] []) = Found 30.
Proof. split; reflexivity. Qed.
Definition back (c : class nat) : option string * found nat :=
  let '(n, _, _, r) := serialize_type ag_import ex_builtins (TClass c) None [] [] in
  (n, match n with Some s => fst (deserialize_type ag_import ex_builtins no_hook s [] r) | None => RaisesOther end).
Example C216_case :
  back network_agent = (Some "NetworkAgent", Found 31) /\ back walker = (Some "my.code.Walker", Found 40) /\
  back my_fsm = (Some "FSM", Found 30) /\ back script = (Some "Runner", RaisesValueError) /\
  back (custom_class 60 network_agent None) = (Some "NetworkAgent", Found 31) /\
  back (custom_class 61 walker None) = (Some "abc.Walker", RaisesValueError).
Proof. repeat split. Qed.
