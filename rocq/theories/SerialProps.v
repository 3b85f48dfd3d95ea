(** The names of classes and dictionaries as text: C100 to C105. *)
From Coq Require Import List Bool Arith Ascii String Lia.
From Verif Require Import PyDict SerialModel SerialSpec SerialProofs.
Import ListNotations.
Local Open Scope string_scope.

(** A small world for the examples: objects are numbers. *)
Definition ex_import (s : string) : option (dict string nat) :=
  if String.eqb s "soil" then Some [("Environment", 10); ("Agent", 11)]
  else if String.eqb s "pkg.models" then Some [("Environment", 20); ("City", 21); ("filter", 22)]
  else None.
Definition ex_builtins : dict string nat := [("int", 1); ("filter", 2)].
Definition ex_registry : dict string (option (dict string nat)) := [("soil", None)].
Definition no_eval (s : string) : option nat := None.
Definition no_hook (o : nat) : option nat := None.
Notation find := (deserialize ex_import ex_builtins no_eval no_hook).

(** C100: a qualified name and the text of a class find the class, whatever is registered. *)
Theorem C100_qualified_names : forall (O : Type) import (builtins : dict string O) eval hook r modname tname o f,
  plain_names import builtins r -> ~ In "" (dkeys r) -> no_dot tname -> modname <> "" -> (forall s, modname <> String "<" s) ->
  has import r modname tname o -> usable hook o f ->
  fst (deserialize import builtins eval hook (modname ++ "." ++ tname) r) = Found f /\
  fst (deserialize import builtins eval hook ("<class '" ++ modname ++ "." ++ tname ++ "'>") r) = Found f.
Proof.
  intros O import builtins eval hook r modname tname o f A B C D E F U. rewrite <- (usable_hook hook o f U).
  split; [now apply qualified_found|now apply text_found].
Qed.
Print Assumptions C100_qualified_names.
Lemma ex_plain : plain_names ex_import ex_builtins ex_registry.
Proof.
  split.
  - intros n I. simpl in I. repeat destruct I as [<-|I]; try destruct I; simpl; intuition discriminate.
  - intros k m n E I. unfold contents in E. assert (X : ex_import k = Some m).
    { cbn [dget ex_registry] in E. destruct (eqb k "soil"); exact E. }
    unfold ex_import in X. destruct (String.eqb k "soil"); [|destruct (String.eqb k "pkg.models"); [|discriminate X]];
    injection X as <-; simpl in I; repeat destruct I as [<-|I]; try destruct I; simpl; intuition discriminate.
Qed.
Example C100_not_vacuous : plain_names ex_import ex_builtins ex_registry /\ has ex_import ex_registry "pkg.models" "City" 21 /\
  fst (find "pkg.models.City" ex_registry) = Found 21 /\ fst (find "<class 'pkg.models.City'>" ex_registry) = Found 21.
Proof. split; [exact ex_plain|]. split; [eexists; split; reflexivity|]. split; reflexivity. Qed.

(** C101: a name without dots is that of the first registered module that has it; and it still is after all calls that
    use the registry. *)
Theorem C101_short_names : forall (O : Type) import (builtins : dict string O) eval hook r n,
  ordinary builtins n -> ~ In "" (dkeys r) ->
  (forall o f, first_with import r n o -> usable hook o f -> fst (deserialize import builtins eval hook n r) = Found f) /\
  ((forall k, In k (dkeys r) -> has_not import r k n) ->
    fst (deserialize import builtins eval hook n r) = match eval n with Some o => Found o | None => RaisesValueError end).
Proof. intros. split; [intros o f F U; rewrite <- (usable_hook hook o f U); now apply short_found|intros; now apply short_missing]. Qed.
Theorem C101_names_last : forall (O : Type) import (builtins : dict string O) eval hook r n o f calls,
  ordinary builtins n -> ~ In "" (dkeys (run_calls import builtins eval hook calls r)) -> first_with import r n o -> usable hook o f ->
  fst (deserialize import builtins eval hook n (run_calls import builtins eval hook calls r)) = Found f.
Proof.
  intros O import builtins eval hook r n o f calls Q N F U. rewrite <- (usable_hook hook o f U). apply short_found; auto.
  eapply first_with_grows; [|exact F]. apply run_calls_grows.
Qed.
Print Assumptions C101_short_names.
Print Assumptions C101_names_last.
Example C101_not_vacuous : ordinary ex_builtins "Environment" /\ first_with ex_import ex_registry "Environment" 10 /\
  fst (find "Environment" ex_registry) = Found 10 /\
  dkeys (run_calls ex_import ex_builtins no_eval no_hook [Deserialize "pkg.models.City"] ex_registry) = ["soil"; "pkg.models"] /\
  fst (find "Environment" (run_calls ex_import ex_builtins no_eval no_hook [Deserialize "pkg.models.City"] ex_registry)) = Found 10.
Proof.
  split. { repeat split; try discriminate. }
  split. { exists [], "soil", []. split; [reflexivity|]. split; [intros ? []|]. eexists. split; reflexivity. }
  repeat split.
Qed.

(** C102 is false: a class whose name is that of a builtin is not found by its name, and a class of a module that is not
    registered is not found when a registered one has the same name: another object is. *)
Theorem C102_builtins_refuted : forall (O : Type) import (builtins : dict string O) eval hook r c b,
  c_name c <> "str" -> c_name c <> "None" -> dget (c_name c) builtins = Some b ->
  name import builtins c (dkeys r) r = (Some (c_name c), r) /\
  fst (deserialize import builtins eval hook (c_name c) r) = Literal b.
Proof.
  intros O import builtins eval hook r c b A B D. split.
  - unfold name. now rewrite dhas_get, D.
  - unfold deserialize, deserializer. destruct (String.eqb_spec (c_name c) "str"); [congruence|].
    destruct (String.eqb_spec (c_name c) "None"); [congruence|]. now rewrite D.
Qed.
Theorem C102_same_name_refuted : forall (O : Type) import (builtins : dict string O) eval hook r c o f,
  ordinary builtins (c_name c) -> c_module c <> "__main__" -> ~ In "" (dkeys r) -> ~ In (c_module c) (dkeys r) ->
  (forall k, In k (dkeys r) -> contents import r k <> None) -> first_with import r (c_name c) o -> usable hook o f ->
  exists r', name import builtins c (dkeys r) r = (Some (c_name c), r') /\
    fst (deserialize import builtins eval hook (c_name c) r') = Found f.
Proof.
  intros O import builtins eval hook r c o f Q M N K I F U. rewrite <- (usable_hook hook o f U).
  destruct (name_eq import builtins c r Q M I) as (n & r' & E & G & [[-> _]|[-> H]]).
  - exists r'. split; auto. assert (N' := name_keys import builtins c r). rewrite E in N'. cbn [snd] in N'.
    apply short_found; [auto|now rewrite N'|]. eapply first_with_grows; eauto.
  - exfalso. apply first_with_has in F as (k & J & X). now apply (H k J o).
Qed.
(** ... and there is no name at all if one of the modules cannot be imported (any more), unless one
    before it has an object of that name. *)
Theorem C102_missing_module_refuted : forall (O : Type) import (builtins : dict string O) r c before k later,
  dget (c_name c) builtins = None -> c_module c <> "__main__" -> ~ In (c_module c) (dkeys r) ->
  dkeys r = (before ++ k :: later)%list -> contents import r k = None ->
  (forall j, In j before -> contents import r j <> None /\ has_not import r j (c_name c)) ->
  fst (name import builtins c (dkeys r) r) = None.
Proof.
  intros O import builtins r c before k later B M I E K H. unfold name.
  rewrite dhas_get, B. destruct (String.eqb_spec (c_module c) "__main__"); [congruence|].
  replace (existsb (String.eqb (c_module c)) (dkeys r)) with false.
  2:{ symmetry. apply not_true_is_false. intros X. apply existsb_exists in X as (x & X & Y).
      apply String.eqb_eq in Y. now subst. }
  rewrite E. assert (F := known_name_fails import (c_name c) before k later r H K).
  destruct (known_name import (c_name c) (before ++ k :: later) r) as [y r']. cbn [fst] in F. now subst.
Qed.
(** C102 for all other classes: those that have no homonym among the builtins and the registered modules. *)
Theorem C102_name_partial : forall (O : Type) import (builtins : dict string O) eval hook r c f,
  usable hook (c_object c) f -> ordinary builtins (c_name c) -> c_module c <> "__main__" -> c_module c <> "" -> (forall s, c_module c <> String "<" s) ->
  plain_names import builtins r -> ~ In "" (dkeys r) -> (forall k, In k (dkeys r) -> contents import r k <> None) ->
  has import r (c_module c) (c_name c) (c_object c) ->
  (forall k o, In k (dkeys r) -> has import r k (c_name c) o -> o = c_object c) ->
  exists n r', name import builtins c (dkeys r) r = (Some n, r') /\
    fst (deserialize import builtins eval hook n r') = Found f.
Proof.
  intros O import builtins eval hook r c f V Q M M' M'' P N I H U. rewrite <- (usable_hook hook (c_object c) f V).
  destruct (name_eq import builtins c r Q M I) as (n & r' & E & G & X). exists n, r'. split; auto.
  assert (N' : ~ In "" (dkeys r')). { assert (K := name_keys import builtins c r). rewrite E in K. cbn [snd] in K. now rewrite K. }
  destruct X as [[-> X]|[-> X]].
  - assert (Y : exists k o, In k (dkeys r) /\ has import r k (c_name c) o).
    { destruct X as [X|X]; auto. exists (c_module c), (c_object c). auto. }
    apply first_with_exists in Y as (o & F).
    assert (o = c_object c). { destruct (first_with_has _ _ _ _ F) as (k & K & L). now apply (U k). }
    subst o. apply short_found; auto. eapply first_with_grows; eauto.
  - apply qualified_found; auto.
    + eapply grows_plain; eauto.
    + apply Q.
    + now apply (grows_has _ _ _ _ _ _ G).
Qed.
Print Assumptions C102_builtins_refuted.
Print Assumptions C102_same_name_refuted.
Print Assumptions C102_missing_module_refuted.
Print Assumptions C102_name_partial.
Definition City : class nat := {| c_object := 21; c_name := "City"; c_module := "pkg.models" |}.
Definition Filter : class nat := {| c_object := 22; c_name := "filter"; c_module := "pkg.models" |}.
Definition Environment : class nat := {| c_object := 20; c_name := "Environment"; c_module := "pkg.models" |}.
Example C102_missing_not_vacuous :
  let r := dset "gone.models" None ex_registry in
  ex_import "gone.models" = None /\ fst (name ex_import ex_builtins City (dkeys r) r) = None.
Proof. split; reflexivity. Qed.
Example C102_not_vacuous :
  fst (name ex_import ex_builtins City (dkeys ex_registry) ex_registry) = Some "pkg.models.City" /\
  fst (name ex_import ex_builtins Filter (dkeys ex_registry) ex_registry) = Some "filter" /\
  fst (find "filter" ex_registry) = Literal 2 /\
  fst (name ex_import ex_builtins Environment (dkeys ex_registry) ex_registry) = Some "Environment" /\
  fst (find "Environment" ex_registry) = Found 10 /\
  ordinary ex_builtins "City" /\
  (forall k o, In k (dkeys ex_registry) -> has ex_import ex_registry k "City" o -> o = 21).
Proof.
  split; [reflexivity|]. split; [reflexivity|]. split; [reflexivity|]. split; [reflexivity|]. split; [reflexivity|].
  split; [repeat split; discriminate|].
  intros k o [<-|[]] (m & E & D). injection E as <-. discriminate D.
Qed.

(** C103 is false: a class of the source file is not found by its name inside the block when soil (or another registered
    module) has the name too. *)
Theorem C103_same_name_refuted : forall (O : Type) import (builtins : dict string O) eval hook r file n m o o' f,
  ordinary builtins n -> file <> "" -> ~ In "" (dkeys r) -> ~ In file (dkeys r) -> dget n m = Some o -> first_with import r n o' -> usable hook o' f ->
  fst (deserialize import builtins eval hook n (dset file (Some m) r)) = Found f.
Proof.
  intros O import builtins eval hook r file n m o o' f Q F N K D W U0. rewrite <- (usable_hook hook o' f U0). apply short_found; auto.
  - rewrite in_dkeys_set. intros [X|X]; auto.
  - assert (Z : dhas file r = false) by (apply not_true_iff_false; now rewrite dhas_in).
    destruct W as (b & k & l & E & B & X). exists b, k, (l ++ [file])%list.
    assert (U : forall j, In j (dkeys r) -> contents import (dset file (Some m) r) j = contents import r j).
    { intros j I. unfold contents. rewrite dget_set_other; auto. intros ->. now apply K. }
    split; [|split].
    + rewrite dkeys_set, Z, E, <- app_assoc. reflexivity.
    + intros j I o2 (m' & C & D'). apply (B j I o2). exists m'. rewrite U in C; auto. rewrite E. apply in_app_iff. now left.
    + destruct X as (m' & C & D'). exists m'. split; auto. rewrite U; auto. rewrite E. apply in_elt.
Qed.
(** C103 for all other names. *)
Theorem C103_source_partial : forall (O : Type) import (builtins : dict string O) eval hook r file n m o f,
  usable hook o f -> ordinary builtins n -> file <> "" -> ~ In "" (dkeys r) -> ~ In file (dkeys r) -> dget n m = Some o ->
  (forall k, In k (dkeys r) -> has_not import r k n) ->
  fst (deserialize import builtins eval hook n (dset file (Some m) r)) = Found f.
Proof.
  intros O import builtins eval hook r file n m o f V Q F N K D H. rewrite <- (usable_hook hook o f V). apply short_found; auto.
  - rewrite in_dkeys_set. intros [X|X]; auto.
  - assert (Z : dhas file r = false) by (apply not_true_iff_false; now rewrite dhas_in).
    exists (dkeys r), file, []. split; [now rewrite dkeys_set, Z|]. split.
    + intros j I o2 (m' & C & D'). apply (H j I o2). exists m'. split; auto. unfold contents in *.
      rewrite dget_set_other in C; auto. intros ->. now apply K.
    + exists m. split; auto. unfold contents. now rewrite dget_set_same.
Qed.
Print Assumptions C103_same_name_refuted.
Print Assumptions C103_source_partial.
Example C103_not_vacuous :
  let r := dset "imported_module_0" (Some [("Environment", 30); ("Village", 31)]) ex_registry in
  fst (find "Environment" r) = Found 10 /\ fst (find "Village" r) = Found 31 /\ fst (find "Village" ex_registry) = RaisesValueError.
Proof. vm_compute. auto. Qed.

(** C104 is false for all dictionaries that have a list with something else than texts and dictionaries, like a number:
    the list of the caller is changed, for its elements are replaced. *)
Theorem C104_lists_refuted : forall (A C : Type) (EA : Eqb A) repr class_name class_text (d : list (dkey A * value A C)) k l x,
  In (k, VList l) d -> In x l -> (forall s, x <> VStr s) -> (forall e, x <> VDict e) ->
  argument_after repr class_name class_text d <> d.
Proof.
  intros A C EA repr cn ct d k l x I J N M E. unfold argument_after in E. rewrite dict_eq_iff, Forall_forall in E.
  specialize (E _ I). cbn [snd] in E. apply after_plain in E. cbn [plain_lists writable] in E.
  rewrite (fold_and (@item_ok A C)) in E. rewrite Forall_forall in E. specialize (E _ J).
  destruct x; cbn [item_ok] in E; try contradiction; [now apply (N s)|now apply (M d0)].
Qed.
(** C104 exactly: the argument is left alone if and only if its lists consist of texts that are not empty and of
    dictionaries without classes and with such lists. *)
Theorem C104_argument_partial : forall (A C : Type) (EA : Eqb A) repr class_name class_text (d : list (dkey A * value A C)),
  argument_after repr class_name class_text d = d <-> plain_lists (VDict d).
Proof.
  intros A C EA repr cn ct d. rewrite <- (after_plain repr cn ct (VDict d)). cbn [after]. unfold argument_after. split; congruence.
Qed.
Print Assumptions C104_lists_refuted.
Print Assumptions C104_argument_partial.
(** Numbers are atoms, and so are classes for the example; the text of everything is "?". *)
Definition ex_dict : list (dkey nat * value nat nat) :=
  [(KStr "matrix", VDict [(KStr "p", VList [VAtom 1; VAtom 2])]); (KStr "model", VClass 5);
   (KStr "exporters", VList [VClass 6; VStr "csv"])].
Notation to_dict := (serialize_dict (fun _ : value nat nat => "?") (fun _ => "soil.Environment") (fun _ => "<class 'soil.exporters.default'>")).
Notation and_after := (argument_after (fun _ : value nat nat => "?") (fun _ => "soil.Environment") (fun _ => "<class 'soil.exporters.default'>")).
Example C104_not_vacuous :
  and_after ex_dict = [(KStr "matrix", VDict [(KStr "p", VList [VStr "?"; VStr "?"])]); (KStr "model", VClass 5);
                       (KStr "exporters", VList [VStr "<class 'soil.exporters.default'>"; VStr "csv"])] /\
  plain_lists (VDict [(KStr "exporters", VList [VStr "csv"]); (KStr "model", VClass 5)] : value nat nat).
Proof. split; [reflexivity|]. cbn. intuition discriminate. Qed.

(** C105 is false for all dictionaries that have a list with something else than texts and dictionaries: numbers, for
    example, become texts, and the empty text becomes a dictionary. *)
Theorem C105_numbers_refuted : forall (A C : Type) (EA : Eqb A) repr class_name class_text (d : list (dkey A * value A C)) k l,
  dget k d = Some (VList l) ->
  exists l', dget k (serialize_dict repr class_name class_text d) = Some (VList l') /\ List.length l' = List.length l /\
    forall i, (forall a, nth_error l i = Some (VAtom a) -> nth_error l' i = Some (VStr (repr (VAtom a)))) /\
              (nth_error l i = Some (VStr "") -> nth_error l' i = Some (VDict [])) /\
              (nth_error l i = Some (VList []) -> nth_error l' i = Some (VDict [])).
Proof.
  intros A C EA repr cn ct d k l E. exists (map (ser repr cn ct Whole) l). split; [|split].
  - unfold serialize_dict. induction d as [|[j v] d IH]; [discriminate|]. cbn [map fst snd dget] in *.
    destruct (eqb k j); [|now apply IH]. injection E as ->. reflexivity.
  - apply map_length.
  - intros i. rewrite !nth_error_map. split; [intros a X|split; intros X]; rewrite X; reflexivity.
Qed.
(** C105 exactly: nothing is changed if and only if all fields are writable: no classes, and lists only of texts that are not
    empty and of dictionaries of such fields. *)
Theorem C105_kept_partial : forall (A C : Type) (EA : Eqb A) repr class_name class_text (d : list (dkey A * value A C)),
  serialize_dict repr class_name class_text d = d <-> writable (VDict d).
Proof.
  intros A C EA repr cn ct d. rewrite <- (ser_writable repr cn ct (VDict d)). rewrite ser_dict_eq. unfold serialize_dict. split; congruence.
Qed.
(** And the classes: as a field, their name; in a list, their text. *)
Theorem C105_classes_partial : forall (A C : Type) (EA : Eqb A) repr class_name class_text (d : list (dkey A * value A C)) k,
  (forall c, In (k, VClass c) d -> In (k, VStr (class_name c)) (serialize_dict repr class_name class_text d)) /\
  (forall l c, In (k, VList l) d -> In (VClass c) l ->
     exists l', In (k, VList l') (serialize_dict repr class_name class_text d) /\ In (VStr (class_text c)) l').
Proof.
  intros A C EA repr cn ct d k. unfold serialize_dict. split.
  - intros c I. apply in_map_iff. now exists (k, VClass c).
  - intros l c I J. exists (map (ser repr cn ct Whole) l). split.
    + apply in_map_iff. now exists (k, VList l).
    + apply in_map_iff. now exists (VClass c).
Qed.
Print Assumptions C105_numbers_refuted.
Print Assumptions C105_kept_partial.
Print Assumptions C105_classes_partial.
Example C105_not_vacuous :
  to_dict ex_dict = [(KStr "matrix", VDict [(KStr "p", VList [VStr "?"; VStr "?"])]); (KStr "model", VStr "soil.Environment");
                     (KStr "exporters", VList [VStr "<class 'soil.exporters.default'>"; VStr "csv"])] /\
  writable (VDict [(KStr "n", VAtom 3); (KStr "exporters", VList [VStr "csv"; VDict []])] : value nat nat) /\
  to_dict [(KStr "x", VList [VStr ""; VList []; VList [VStr "ab"]])] = [(KStr "x", VList [VDict []; VDict []; VDict [(KStr "a", VStr "b")]])].
Proof. split; [reflexivity|]. split; [cbn; intuition discriminate|reflexivity]. Qed.
