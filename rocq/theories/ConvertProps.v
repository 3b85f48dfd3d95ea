(** C264: simulations that are written and made again. *)
From Coq Require Import List Bool Arith String.
From Verif Require Import PyDict SimModel SerialModel SerialSpec SerialProofs ConvertModel ConvertSpec.
Import ListNotations.

Section Lemmas.
Context {A C : Type} {EA : Eqb A}.
Context (repr : value A C -> string) (class_name class_text : C -> string).
Notation ser := (ser repr class_name class_text).

Lemma ser_simple x : simple x -> ser Whole x = as_text repr x.
Proof. destruct x; cbn; intros H; try contradiction; auto. destruct (String.eqb_spec s ""); congruence. Qed.

Lemma elements_simple (m : list (dkey A * value A C)) : simple_matrix m ->
  all_elements (serialize_dict repr class_name class_text m) =
  option_map (map (map (as_text repr))) (all_elements m).
Proof.
  induction 1 as [|[k v] m (l & E & F) H IH]; auto. cbn [snd] in E. subst v.
  unfold serialize_dict in *. cbn [map fst snd]. cbn [all_elements elements SerialModel.ser].
  rewrite IH. destruct (all_elements m); auto. cbn [option_map map]. do 2 f_equal.
  apply map_ext_in. intros x I. rewrite Forall_forall in F. now apply ser_simple, F.
Qed.

Lemma some_elements (m : list (dkey A * value A C)) : simple_matrix m -> all_elements m <> None.
Proof.
  induction 1 as [|[k v] m (l & E & F) H IH]; [discriminate|]. cbn [snd] in E. subst v. cbn.
  destruct (all_elements m); [discriminate|contradiction].
Qed.

Lemma product_map {X Y} (f : X -> Y) ls : product (map (map f) ls) = map (map f) (product ls).
Proof.
  induction ls as [|l ls IH]; auto. cbn. rewrite IH. induction l as [|x l IHl]; auto.
  cbn. rewrite map_app. f_equal; auto. rewrite !map_map. reflexivity.
Qed.

Lemma dset_map {K X Y} `{Eqb K} (f : X -> Y) k v (d : list (K * X)) :
  dset k (f v) (map (fun p => (fst p, f (snd p))) d) = map (fun p => (fst p, f (snd p))) (dset k v d).
Proof. induction d as [|[k0 v0] d IH]; cbn; auto. destruct (eqb k k0); cbn; auto. now rewrite IH. Qed.

Lemma dict_of_map {K X Y} `{Eqb K} (f : X -> Y) (ks : list K) : forall vs,
  dict_of (combine ks (map f vs)) = map (fun p => (fst p, f (snd p))) (dict_of (combine ks vs)).
Proof.
  unfold dict_of. intros vs.
  assert (G : forall d, dupdate (map (fun p => (fst p, f (snd p))) d) (combine ks (map f vs)) =
                        map (fun p => (fst p, f (snd p))) (dupdate d (combine ks vs))).
  { revert vs. induction ks as [|k ks IH]; intros [|v vs] d; auto. cbn [combine map].
    rewrite !dupdate_cons, dset_map. apply IH. }
  apply (G []).
Qed.

Lemma keys_kept (m : list (dkey A * value A C)) : map fst (serialize_dict repr class_name class_text m) = map fst m.
Proof. unfold serialize_dict. rewrite map_map. reflexivity. Qed.

Lemma is_nil_map {X Y} (f : X -> Y) l : is_nil (map f l) = is_nil l.
Proof. now destruct l. Qed.

Lemma combine_nodup {K X} (ks : list K) : forall vs : list X, NoDup ks -> NoDup (map fst (combine ks vs)).
Proof.
  induction ks as [|k ks IH]; intros [|v vs] N; cbn; try apply NoDup_nil. inversion N as [|? ? N1 N2]; subst.
  apply NoDup_cons; auto. intros X0. apply N1. apply in_map_iff in X0 as ([k' v'] & Y & X0). cbn in Y. subst k'.
  now apply in_combine_l in X0.
Qed.

(** An element of a list is in some combination. *)
Lemma product_in {X} (ls : list (list X)) l x : Forall (fun l => l <> []) ls -> In l ls -> In x l ->
  exists c, In c (product ls) /\ In x c.
Proof.
  induction ls as [|l0 ls IH]; intros F I J; [contradiction|]. inversion F as [|? ? F1 F2]; subst.
  assert (NE : exists c, In c (product ls)).
  { clear IH I. induction ls as [|l1 ls IH]; [exists []; now left|].
    inversion F2 as [|? ? G1 G2]; subst. destruct IH as [c Ic]; auto.
    destruct l1 as [|y l1]; [contradiction|]. exists (y :: c). cbn. apply in_or_app. left. now apply in_map. }
  destruct I as [->|I].
  - destruct NE as [c Ic]. exists (x :: c). split; [|now left]. cbn. apply in_flat_map. exists x. split; auto. now apply in_map.
  - destruct (IH F2 I J) as (c & Ic & Jc). destruct l0 as [|y l0]; [contradiction|].
    exists (y :: c). split; [|now right]. cbn. apply in_or_app. left. now apply in_map.
Qed.

Lemma product_length {X} (ls : list (list X)) c : In c (product ls) -> List.length c = List.length ls.
Proof.
  revert c. induction ls as [|l ls IH]; intros c I; cbn in I.
  - destruct I as [<-|[]]. auto.
  - apply in_flat_map in I as (x & _ & I). apply in_map_iff in I as (c' & <- & I). cbn. now rewrite IH.
Qed.

Lemma elements_length (m : list (dkey A * value A C)) : forall ls, all_elements m = Some ls -> List.length ls = List.length m.
Proof.
  induction m as [|[k v] m IH]; intros ls E; cbn in E; [injection E as <-; auto|].
  destruct (elements v); [|discriminate]. destruct (all_elements m); [|discriminate]. injection E as <-. cbn. now rewrite IH.
Qed.

Lemma elements_in (m : list (dkey A * value A C)) k l : forall ls, all_elements m = Some ls -> In (k, VList l) m -> In l ls.
Proof.
  induction m as [|[k0 v] m IH]; intros ls E I; [contradiction|]. cbn in E.
  destruct (elements v) as [l0|] eqn:EV; [|discriminate]. destruct (all_elements m); [|discriminate]. injection E as <-.
  destruct I as [I|I]; [|right; eauto]. injection I as -> ->. cbn in EV. injection EV as <-. now left.
Qed.

Lemma elements_nonempty (m : list (dkey A * value A C)) : forall ls, all_elements m = Some ls ->
  (forall k, ~ In (k, VList []) m) -> simple_matrix m -> Forall (fun l => l <> []) ls.
Proof.
  induction m as [|[k0 v] m IH]; intros ls E N S; cbn in E; [injection E as <-; auto|].
  inversion S as [|? ? (l & X & _) S']; subst. cbn in X. subst v. cbn in E.
  destruct (all_elements m) as [ls'|]; [|discriminate]. injection E as <-.
  constructor.
  - intros ->. apply (N k0). now left.
  - apply IH; auto. intros k I. apply (N k). now right.
Qed.
End Lemmas.

(** What the configurations of the simulation become when the values of its matrix are numbers and texts: the numbers
    are texts. *)
Theorem C264_numbers_become_texts : forall (A C : Type) (EA : Eqb A) repr class_name class_text (s : simulation A C),
  writable (VDict (parameters s)) -> simple_matrix (matrix s) ->
  exists swept,
    configurations (Simulation [] (matrix s)) = Some (if is_nil (matrix s) then [[]] else if is_nil swept then [[]] else swept) /\
    configurations s = Some (let ps := (if is_nil (parameters s) then [] else [parameters s]) ++ swept in
                             if is_nil ps then [[]] else ps)%list /\
    configurations (to_dict repr class_name class_text s) =
      Some (let ps := (if is_nil (parameters s) then [] else [parameters s]) ++ map (texts repr) swept in
            if is_nil ps then [[]] else ps)%list.
Proof.
  intros A C EA repr cn ct [ps m] W S. cbn [parameters matrix] in *.
  assert (P : serialize_dict repr cn ct ps = ps).
  { apply (ser_writable repr cn ct) in W. rewrite ser_dict_eq in W. unfold serialize_dict. congruence. }
  unfold configurations, to_dict. cbn [parameters matrix]. rewrite P, keys_kept, (elements_simple repr cn ct m S).
  unfold serialize_dict at 1. rewrite is_nil_map.
  destruct (is_nil m) eqn:N.
  - exists []. repeat split; auto.
  - destruct (all_elements m) as [ls|] eqn:EM; [|now apply some_elements in EM]. cbn [option_map].
    eexists. split; [reflexivity|]. split; [reflexivity|]. rewrite product_map.
    assert (X : map (fun values => dict_of (combine (map fst m) values)) (map (map (as_text repr)) (product ls)) =
                map (texts repr) (map (fun values => dict_of (combine (map fst m) values)) (product ls))).
    { rewrite !map_map. apply map_ext. intros c. apply dict_of_map. }
    now rewrite X.
Qed.

(** C264 is false for all simulations with a number in their matrix (whose lists are not empty): the configurations of
    the simulation that is made from [to_dict] are not the same. *)
Theorem C264_other_configurations_refuted : forall (A C : Type) (EA : Eqb A) repr class_name class_text (s : simulation A C) k l a,
  writable (VDict (parameters s)) -> simple_matrix (matrix s) -> NoDup (map fst (matrix s)) ->
  (forall j, ~ In (j, VList []) (matrix s)) -> In (k, VList l) (matrix s) -> In (VAtom a) l ->
  configurations (to_dict repr class_name class_text s) <> configurations s.
Proof.
  intros A C EA repr cn ct s k l a W S ND NE I J E.
  destruct (C264_numbers_become_texts A C EA repr cn ct s W S) as (swept & E0 & E1 & E2).
  rewrite E1, E2 in E. clear E1 E2. destruct s as [ps m]. cbn [parameters matrix] in *.
  (* a configuration with the number *)
  destruct (all_elements m) as [ls|] eqn:EM; [|now apply some_elements in EM].
  destruct (product_in ls l (VAtom a)) as (c & Ic & Jc); auto.
  { now apply (elements_nonempty m). } { now apply (elements_in m k). }
  assert (NM : is_nil m = false) by (destruct m; [contradiction|reflexivity]).
  set (f := fun values : list (value A C) => dict_of (combine (map fst m) values)) in *.
  assert (SW : swept = map f (product ls)).
  { unfold configurations in E0. cbn [parameters matrix is_nil] in E0. rewrite NM, EM in E0.
    change (Some (if is_nil (map f (product ls)) then [[]] else map f (product ls)) = Some (if is_nil swept then [[]] else swept)) in E0. assert (NP : is_nil (map f (product ls)) = false) by (rewrite is_nil_map; destruct (product ls); [contradiction|reflexivity]).
    rewrite NP in E0. destruct (is_nil swept) eqn:NS; [|congruence].
    injection E0 as E0. assert (X : In (f c) [[]]) by (rewrite <- E0; now apply in_map).
    destruct X as [X|[]]. exfalso.
    assert (L : List.length c = List.length m) by (rewrite (product_length _ _ Ic); now apply elements_length).
    unfold f in X. rewrite dict_of_nodup in X.
    - destruct m; [discriminate|]. destruct c; [discriminate|]. discriminate X.
    - now apply combine_nodup. }
  assert (Q : map (texts repr) swept = swept).
  { cbv zeta in E. destruct (is_nil ps); cbn [app] in E.
    - rewrite is_nil_map in E. destruct (is_nil swept) eqn:NS; [destruct swept; [reflexivity|discriminate]|congruence].
    - cbn [is_nil] in E. congruence. }
  assert (IN : In (f c) (map (texts repr) swept)) by (rewrite Q, SW; now apply in_map).
  apply in_map_iff in IN as (d & D & _).
  assert (L : List.length c = List.length (map fst m)).
  { rewrite map_length, (product_length _ _ Ic). now apply elements_length. }
  assert (Y : In (VAtom a) (map snd (f c))).
  { unfold f. rewrite dict_of_nodup by now apply combine_nodup. clear - L Jc. revert L Jc. generalize (map fst m) as ks.
    induction c as [|x c IH]; intros [|k ks] L J; try discriminate; [contradiction|].
    cbn in L. injection L as L. destruct J as [->|J]; cbn; auto. }
  rewrite <- D in Y. unfold texts in Y. rewrite map_map in Y. apply in_map_iff in Y as ([k' v'] & Y & _).
  cbn in Y. destruct v'; discriminate.
Qed.

(** It holds if there are no classes, and only texts that are not empty (and dictionaries) in lists. *)
Theorem C264_writable_partial : forall (A C : Type) (EA : Eqb A) repr class_name class_text (s : simulation A C),
  writable (VDict (parameters s)) -> writable (VDict (matrix s)) ->
  to_dict repr class_name class_text s = s /\
  configurations (to_dict repr class_name class_text s) = configurations s.
Proof.
  intros A C EA repr cn ct [ps m] W1 W2. cbn [parameters matrix] in *.
  apply (ser_writable repr cn ct) in W1. apply (ser_writable repr cn ct) in W2. rewrite ser_dict_eq in W1, W2.
  assert (X : to_dict repr cn ct (Simulation ps m) = Simulation ps m).
  { unfold to_dict, serialize_dict. cbn [parameters matrix]. congruence. }
  split; auto. now rewrite X.
Qed.

Local Open Scope string_scope.
Definition ex_repr (v : value nat nat) : string := match v with VAtom 1 => "0.1" | VAtom _ => "0.2" | _ => "?" end.
Definition ex_sim : simulation nat nat :=
  Simulation [(KStr "n", VAtom 5)] [(KStr "prob", VList [VAtom 1; VAtom 2]); (KStr "kind", VList [VStr "a"])].
Notation ex_written := (to_dict ex_repr (fun _ => "C") (fun _ => "<class 'C'>")).
Example C264_case :
  writable (VDict (parameters ex_sim)) /\ simple_matrix (matrix ex_sim) /\ NoDup (map fst (matrix ex_sim)) /\
  configurations ex_sim = Some [[(KStr "n", VAtom 5)]; [(KStr "prob", VAtom 1); (KStr "kind", VStr "a")];
                                [(KStr "prob", VAtom 2); (KStr "kind", VStr "a")]] /\
  configurations (ex_written ex_sim) = Some [[(KStr "n", VAtom 5)]; [(KStr "prob", VStr "0.1"); (KStr "kind", VStr "a")];
                                [(KStr "prob", VStr "0.2"); (KStr "kind", VStr "a")]].
Proof.
  split; [cbn; auto|]. split.
  - apply Forall_cons; [eexists; split; [reflexivity|]; repeat constructor|].
    apply Forall_cons; [eexists; split; [reflexivity|]; repeat constructor; discriminate|constructor].
  - split; [|split; reflexivity]. repeat constructor; cbn; intuition discriminate.
Qed.
Print Assumptions C264_numbers_become_texts.
Print Assumptions C264_other_configurations_refuted.
Print Assumptions C264_writable_partial.
