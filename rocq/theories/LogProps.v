(** Logging, agent classes and from_dict: C87 to C90. *)
From Coq Require Import List Bool Arith Ascii String Lia.
From Verif Require Import PyDict LogModel LogSpec LogProofs.
Import ListNotations.
Local Open Scope string_scope.

(** C87 is false for all messages: keyword arguments always raise (if the level is enabled).  It
    is a KeyError if the first name has two letters, and a ValueError otherwise. *)
Theorem C87_keyword_arguments_raise_refuted : forall (V : Type) k (v : V) (kwargs : dict string V),
  let raised := match k with String _ (String _ EmptyString) => RaisesKeyError | _ => RaisesValueError end in
  (forall now message args, env_log true now message args ((k, v) :: kwargs) = raised) /\
  (forall now repr message, agent_log true now repr message ((k, v) :: kwargs) = raised).
Proof. intros V [|a [|b [|c k]]] v kwargs; split; reflexivity. Qed.
(** And the environment does not separate the message from its arguments. *)
Theorem C87_missing_space_refuted : forall (V : Type) now message a args, exists prefix,
  env_log true now message (a :: args) ([] : dict string V) = Logged (prefix ++ message ++ words (a :: args)) /\
  message ++ words (a :: args) <> words (message :: a :: args).
Proof.
  intros V now message a args. exists (" @" ++ right 3 now ++ ": "). split.
  - unfold env_log, add_kwargs. rewrite <- (join_words (a :: args)). f_equal. now rewrite !append_assoc.
  - rewrite <- (join_words (a :: args)). apply missing_space.
Qed.
(** What holds: nothing happens if the level is not enabled, and without keyword arguments the
    message of an agent, and that of the environment without arguments, ends as expected. *)
Theorem C87_message_partial : forall (V : Type) (kwargs : dict string V),
  (forall now message args, env_log false now message args kwargs = Silent) /\
  (forall now repr message, agent_log false now repr message kwargs = Silent) /\
  (kwargs = [] -> forall now repr message, exists s, agent_log true now repr message kwargs = Logged s /\ ends_with s (words message)) /\
  (kwargs = [] -> forall now message, exists s, env_log true now message [] kwargs = Logged s /\ ends_with s message).
Proof.
  intros V kw. split; [reflexivity|]. split; [reflexivity|]. split.
  - intros -> now repr message. eexists. split; [reflexivity|]. rewrite join_words. eexists. rewrite <- !append_assoc. reflexivity.
  - intros -> now message. eexists. split; [reflexivity|]. cbn [join].
    assert (E : message ++ "" = message) by (clear; induction message as [|c m IH]; simpl; congruence). rewrite E.
    eexists. rewrite <- !append_assoc. reflexivity.
Qed.
Print Assumptions C87_keyword_arguments_raise_refuted.
Print Assumptions C87_missing_space_refuted.
Print Assumptions C87_message_partial.
Example C87_not_vacuous :
  env_log true "2.5" "hello" ["a"; "b"] ([] : dict string nat) = Logged " @2.5: helloa b" /\
  agent_log true "1" "Patron(3)" ["hello"; "a"] ([] : dict string nat) =
    Logged ("[@   1]" ++ String (ascii_of_nat 9) "" ++ " Patron(3): hello a") /\
  agent_log true "1" "Patron(3)" ["hello"] [("id", 1)] = RaisesKeyError /\
  env_log true "1" "hello" [] [("number", 1)] = RaisesValueError.
Proof. vm_compute. auto. Qed.

(** C88 is false for all agent classes: a level that is a value of the class (or of its bases) is
    not used for the logger of its agents. *)
Theorem C88_level_is_not_used_refuted : forall (V : Type) (bodies : list (dict string (entry V))) classes,
  Forall (fun b => dwf b) bodies ->
  Forall2 (fun b c => exists d, meta_new b [] [] = Some (c, d)) bodies classes ->
  Forall (fun b => match dget "level" b with None | Some (EValue _) => True | _ => False end) bodies ->
  logger_level classes = None.
Proof.
  intros V bodies classes W F L. unfold logger_level. cbn [existsb set_before String.eqb Ascii.eqb Bool.eqb orb].
  induction F as [|b c bodies classes (d & M) F IH]; [reflexivity|].
  inversion W; subst. inversion L as [|x y LB LL]; subst. cbn [find].
  destruct (meta_get b ltac:(assumption) _ _ _ _ M "level") as [A _]. rewrite A. cbn [dget].
  destruct (dget "level" b) as [[]|]; try destruct LB; now apply IH.
Qed.
(** It is used when it is a property. *)
Theorem C88_property_partial : forall (V : Type) (body c : dict string (entry V)) d v, dwf body ->
  meta_new body [] [] = Some (c, d) -> dget "level" body = Some (EProperty v) ->
  forall bases, logger_level (c :: bases) = Some (EProperty v).
Proof.
  intros V body c d v W M L bases. unfold logger_level. cbn [existsb set_before String.eqb Ascii.eqb Bool.eqb orb find].
  destruct (meta_get body W _ _ _ _ M "level") as [A _]. rewrite A, L. reflexivity.
Qed.
Print Assumptions C88_level_is_not_used_refuted.
Print Assumptions C88_property_partial.
Example C88_not_vacuous :
  meta_new [("__module__", EValue 0); ("level", EValue 10); ("step", EFunction)] [] [] =
    Some ([("__module__", EValue 0); ("step", EFunction)], [("level", 10)]) /\
  meta_new [("level", EProperty 10)] [] [] = Some ([("level", EProperty 10)], []).
Proof. vm_compute. auto. Qed.

(** C89 is false: for all classes and dictionaries with a name that is not a parameter, NameError is
    raised unless warn_extra is turned off. *)
Theorem C89_extra_arguments_refuted : forall (V : Type) parameters (attrs : dict string V) k, dwf attrs ->
  In k (dkeys attrs) -> ~ In k parameters -> from_dict parameters attrs true = RaisesNameError.
Proof. intros V. exact from_dict_bad. Qed.
(** C89 without such names, or with warn_extra=False: the constructor gets exactly the arguments
    that are among its parameters. *)
Theorem C89_arguments_partial : forall (V : Type) parameters (attrs : dict string V) warn, dwf attrs ->
  (warn = false \/ forall k, In k (dkeys attrs) -> In k parameters) ->
  exists args, from_dict parameters attrs warn = Constructed args /\ restricted parameters attrs args.
Proof. intros V. exact from_dict_ok. Qed.
Print Assumptions C89_extra_arguments_refuted.
Print Assumptions C89_arguments_partial.
Example C89_not_vacuous :
  from_dict ["unique_id"; "model"; "name"] [("unique_id", 1); ("age", 3); ("name", 2)] false = Constructed [("unique_id", 1); ("name", 2)] /\
  from_dict ["unique_id"; "model"; "name"] [("unique_id", 1); ("age", 3); ("name", 2)] true = RaisesNameError.
Proof. vm_compute. auto. Qed.

(** C90 is false for all classes: a static method makes the class statement raise. *)
Theorem C90_static_methods_refuted : forall (V : Type) (body : dict string (entry V)) k,
  In (k, EStaticmethod) body -> private k = false -> meta_new body [] [] = None.
Proof.
  intros V body k I P. destruct (meta_new body [] []) eqn:E; auto. exfalso.
  assert (meta_new body [] [] <> None) as N by congruence. apply meta_accepts in N.
  rewrite forallb_forall in N. specialize (N _ I). cbn [accepted] in N. rewrite P in N. now destruct (String.eqb k "step").
Qed.
(** Functions, properties and class methods, and whatever has a private name, stay in the class;
    all other values become defaults. *)
Theorem C90_other_entries_partial : forall (V : Type) (body : dict string (entry V)), dwf body ->
  (forall k e, In (k, e) body -> (k = "step" -> e = EFunction) /\ (e = EStaticmethod -> private k = true)) ->
  exists kept defaults, meta_new body [] [] = Some (kept, defaults) /\ forall k,
    match dget k body with
    | Some (EValue v) => if private k then dget k kept = Some (EValue v) /\ dget k defaults = None
                         else dget k kept = None /\ dget k defaults = Some v
    | e => dget k kept = e /\ dget k defaults = None
    end.
Proof.
  intros V body W H. destruct (meta_new body [] []) as [[kept d]|] eqn:E.
  - exists kept, d. split; auto. intros k. destruct (meta_get body W _ _ _ _ E k) as [A B]. rewrite A, B. cbn [dget].
    destruct (dget k body) as [[|v| | |v]|]; auto. now destruct (private k).
  - exfalso. apply (proj2 (meta_accepts body [] [])); [|exact E]. apply forallb_forall. intros [k e] I.
    destruct (H k e I) as [S T]. cbn [accepted]. destruct (String.eqb k "step") eqn:Q.
    + apply String.eqb_eq in Q. now rewrite S.
    + destruct e; auto.
Qed.
Print Assumptions C90_static_methods_refuted.
Print Assumptions C90_other_entries_partial.
Example C90_not_vacuous :
  meta_new [("_x", EValue 0); ("helper", EStaticmethod); ("step", EFunction)] [] [] = None /\
  meta_new [("_x", EValue 0); ("_helper", EStaticmethod); ("age", EValue 1)] [] [] =
    Some ([("_x", EValue 0); ("_helper", EStaticmethod)], [("age", 1)]).
Proof. vm_compute. auto. Qed.
