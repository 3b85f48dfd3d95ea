(** Proofs about agents and environments as dictionaries. *)
From Coq Require Import List Bool Arith Ascii String Lia.
From Verif Require Import PyDict MappingModel MappingSpec.
Import ListNotations.
Local Open Scope string_scope.

Lemma open_name_eq c s : open_name (String c s) = negb (Ascii.eqb c "_"%char).
Proof. now destruct c as [[][][][][][][][]]. Qed.
Lemma agent_name_eq k : agent_name k = open_name k && negb (existsb (String.eqb k) IGNORED_FIELDS).
Proof.
  unfold IGNORED_FIELDS. cbn [existsb].
  destruct (String.eqb k "model") eqn:E1. { apply String.eqb_eq in E1. now subst. }
  destruct (String.eqb k "logger") eqn:E2. { apply String.eqb_eq in E2. now subst. }
  cbn [orb negb]. rewrite andb_true_r.
  apply String.eqb_neq in E1, E2. unfold agent_name.
  repeat match goal with
  | |- match ?k with "" => _ | String _ _ => _ end = _ => destruct k; try reflexivity; try congruence
  | |- match ?a with Ascii _ _ _ _ _ _ _ _ => _ end = _ => destruct a; try reflexivity
  | |- (if ?b then _ else _) = _ => destruct b; try reflexivity; try congruence
  end.
Qed.

Section Proofs.
Context {V : Type}.
Implicit Types (a o m e : object V) (k s : string) (v none : V).

Lemma names_eq ignored l : ~ In "" l ->
  names ignored l = Ok (filter (fun k => open_name k && negb (existsb (String.eqb k) ignored)) l).
Proof.
  induction l as [|k l IH]; intros N; [reflexivity|].
  destruct k as [|c s]; [exfalso; apply N; now left|].
  cbn [names filter]. rewrite open_name_eq, IH by (intros I; apply N; now right).
  destruct (Ascii.eqb c "_"); [reflexivity|]. cbn [negb andb].
  destruct (existsb (String.eqb (String c s)) ignored); reflexivity.
Qed.
Lemma names_empty ignored l : In "" l -> names ignored l = Raise IndexError.
Proof.
  induction l as [|k l IH]; intros I; [destruct I|].
  destruct k as [|c s]; [reflexivity|]. destruct I as [I|I]; [discriminate|].
  cbn [names]. rewrite IH by auto. cbn [bind]. destruct (Ascii.eqb c "_"); auto.
  now destruct (existsb (String.eqb (String c s)) ignored).
Qed.
Lemma filter_all {A} (P : A -> bool) l : (forall x, P x = true) -> filter P l = l.
Proof. intros H. induction l as [|x l IH]; [reflexivity|]. cbn [filter]. now rewrite H, IH. Qed.
Lemma filter_fst (P Q : string -> bool) (l : list (string * V)) : (forall k, P k = Q k) ->
  filter P (map fst l) = map fst (filter (fun kv => Q (fst kv)) l).
Proof.
  intros E. induction l as [|[k v] l IH]; [reflexivity|]. cbn [map fst filter]. rewrite E, IH. now destruct (Q k).
Qed.
Lemma keys_eq a : ~ In "" (dkeys (own a)) -> keys a = Ok (map fst (attributes agent_name a)).
Proof.
  intros N. unfold keys. rewrite names_eq by auto. f_equal. apply filter_fst.
  intros k. symmetry. apply agent_name_eq.
Qed.
Lemma env_keys_eq a : ~ In "" (dkeys (own a)) -> env_keys a = Ok (map fst (attributes open_name a)).
Proof.
  intros N. unfold env_keys. rewrite names_eq by auto. f_equal. apply filter_fst.
  intros k. cbn [existsb negb]. apply andb_true_r.
Qed.

Lemma getattr_plain o k v : plain o k v -> getattr o (Str k) = Ok v.
Proof.
  intros [N [E|[E F]]]; cbn [getattr]; rewrite E.
  - destruct (dget k (cls o)) as [[g|w]|] eqn:C; auto. exfalso. apply N. now exists g.
  - now rewrite F.
Qed.
Lemma getattr_lacks o k : lacks o k -> getattr o (Str k) = Raise AttributeError.
Proof. intros [E F]. cbn [getattr]. now rewrite E, F. Qed.
Lemma proper_plain o k v : proper o -> In (k, v) (own o) -> plain o k v.
Proof.
  intros (W & P & _) I. split.
  - apply P. apply (in_map fst) in I. exact I.
  - left. now apply dget_in_wf.
Qed.
Lemma setattr_plain o k v : ~ is_property o k -> setattr o (Str k) v = Ok (with_own o (dset k v (own o))).
Proof.
  intros N. cbn [setattr]. destruct (dget k (cls o)) as [[g|w]|] eqn:C; auto. exfalso. apply N. now exists g.
Qed.
Lemma setattr_proper o k v : proper o -> k <> "" -> ~ is_property o k -> proper (with_own o (dset k v (own o))).
Proof.
  intros (W & P & E) K N. split; [|split]; cbn [with_own own cls].
  - now apply dset_wf.
  - intros k' I. apply in_dkeys_set in I as [->|I]; [exact N|]. apply (P k' I).
  - intros I. apply in_dkeys_set in I as [I|I]; auto.
Qed.

Lemma pairs_eq a m none l : (forall k v, In (k, v) l -> getattr a (Str k) = Ok v) ->
  pairs a m none (map fst l) = Ok l.
Proof.
  induction l as [|[k v] l IH]; intros H; [reflexivity|].
  cbn [map fst pairs]. unfold get. rewrite (H k v) by now left. cbn [bind].
  rewrite IH by (intros; apply H; now right). reflexivity.
Qed.
Lemma attributes_plain P o k v : proper o -> In (k, v) (attributes P o) -> plain o k v.
Proof. intros W I. apply filter_In in I as [I _]. now apply proper_plain. Qed.
Lemma items_eq a m none skip : proper a ->
  items a m none None skip =
  Ok (filter (fun kv => negb (existsb (String.eqb (fst kv)) skip)) (attributes agent_name a)).
Proof.
  intros W. unfold items. destruct W as (W & P & N). rewrite keys_eq by auto. cbn [bind].
  rewrite pairs_eq. 2:{ intros k v I. apply getattr_plain. now apply (attributes_plain agent_name a). }
  cbn [bind]. destruct skip; auto. f_equal. symmetry. now apply filter_all.
Qed.
Lemma items_all a m none : proper a -> items a m none None [] = Ok (attributes agent_name a).
Proof.
  intros W. rewrite items_eq by auto. f_equal. now apply filter_all.
Qed.
Lemma items_keys a m none ks : (forall k, In k ks -> exists v, plain a k v) ->
  exists l, items a m none (Some ks) [] = Ok l /\ map fst l = ks /\ forall k v, In (k, v) l -> plain a k v.
Proof.
  intros H. unfold items. cbn [bind].
  assert (exists l, map fst l = ks /\ forall k v, In (k, v) l -> plain a k v) as (l & E & F).
  { induction ks as [|k ks IH]; [exists []; split; [reflexivity|intros ? ? []]|].
    destruct (H k) as (v & P); [now left|].
    destruct IH as (l & E & F); [intros; apply H; now right|].
    exists ((k, v) :: l). cbn [map fst]. rewrite E. split; auto.
    intros k' v' [X|I]; auto. now inversion X; subst. }
  exists l. subst ks. rewrite pairs_eq. 2:{ intros k v I. now apply getattr_plain, F. } auto.
Qed.

Lemma attributes_wf P o : dwf (own o) -> NoDup (map fst (attributes P o)).
Proof.
  unfold attributes, dwf, dkeys. induction (own o) as [|[k v] l IH]; intros W; [constructor|].
  cbn [map fst filter] in *. inversion W as [|x y N W']; subst. destruct (P k); auto.
  cbn [map fst]. constructor; auto. intros I. apply N.
  apply in_map_iff in I as (x & E & I). apply filter_In in I as [I _]. apply in_map_iff. now exists x.
Qed.
Lemma attributes_in P o k : dwf (own o) ->
  In k (map fst (attributes P o)) <-> P k = true /\ exists v, dget k (own o) = Some v.
Proof.
  intros W. rewrite in_map_iff. split.
  - intros ([k' v] & E & I). cbn [fst] in E. subst k'. apply filter_In in I as [I Q]. split; auto. exists v. now apply dget_in_wf.
  - intros (Q & v & E). exists (k, v). split; auto. apply filter_In. split; auto. now apply dget_in.
Qed.

(** The first name of a non-empty list of attributes. *)
Lemma first_name_eq a k v l : proper a -> attributes agent_name a = (k, v) :: l -> first_name (dkeys (own a)) = Ok k.
Proof.
  intros (_ & _ & N). unfold attributes. revert N. unfold dkeys. induction (own a) as [|[k' v'] d IH]; intros N E; [discriminate|].
  cbn [map fst filter first_name] in *. rewrite agent_name_eq in E.
  destruct k' as [|c s]; [exfalso; apply N; now left|]. rewrite open_name_eq in E.
  destruct (Ascii.eqb c "_"); cbn [negb andb] in E; [apply IH; [intros J; apply N; now right|exact E]|].
  destruct (existsb (String.eqb (String c s)) IGNORED_FIELDS); cbn [negb] in E; [apply IH; [intros J; apply N; now right|exact E]|]. congruence.
Qed.
Lemma first_name_none a : proper a -> attributes agent_name a = [] -> first_name (dkeys (own a)) = Raise KeyError.
Proof.
  intros (_ & _ & N). unfold attributes. revert N. unfold dkeys. induction (own a) as [|[k' v'] d IH]; intros N E; [reflexivity|].
  cbn [map fst filter first_name] in *. rewrite agent_name_eq in E.
  destruct k' as [|c s]; [exfalso; apply N; now left|]. rewrite open_name_eq in E.
  destruct (Ascii.eqb c "_"); cbn [negb andb] in E; [apply IH; [intros J; apply N; now right|exact E]|].
  destruct (existsb (String.eqb (String c s)) IGNORED_FIELDS); cbn [negb] in E; [apply IH; [intros J; apply N; now right|exact E]|]. congruence.
Qed.

Lemma popitem_raises a m none : proper a -> attributes agent_name a <> [] -> popitem a m none = Raise TypeError.
Proof.
  intros W N. destruct (attributes agent_name a) as [|[k v] l] eqn:E; [congruence|].
  unfold popitem. rewrite (first_name_eq _ _ _ _ W E). cbn [bind].
  assert (getattr a (Str k) = Ok v) as G. { apply getattr_plain, (attributes_plain agent_name); auto. rewrite E. now left. }
  unfold get. now rewrite G.
Qed.

Lemma set_all_ok (d : list (string * V)) : forall a, (forall k, In k (map fst d) -> ~ is_property a k) ->
  set_all a d = Ok (with_own a (dupdate (own a) d)).
Proof.
  induction d as [|[k v] d IH]; intros a H; cbn [set_all].
  - now destruct a.
  - unfold setitem. rewrite setattr_plain by (apply H; now left). cbn [bind].
    rewrite IH.
    + now rewrite dupdate_cons.
    + intros k' I (g & E). apply (H k'); [now right|]. now exists g.
Qed.

Lemma read_all_eq e l : (forall k v, In (k, v) l -> getattr e (Str k) = Ok v) -> read_all e (map fst l) = Ok l.
Proof.
  induction l as [|[k v] l IH]; intros H; [reflexivity|].
  cbn [map fst read_all]. unfold getitem. rewrite (H k v) by now left. cbn [bind].
  rewrite IH by (intros; apply H; now right). reflexivity.
Qed.

(** Equality. *)
Section Eq.
Context (veqb : V -> V -> bool).
Lemma agent_eqb_eq none a ma b mb : proper a -> proper b ->
  agent_eqb veqb none a ma b mb = Ok (dict_eqb veqb (attributes agent_name a) (attributes agent_name b)).
Proof.
  intros A B. unfold agent_eqb. rewrite !items_all by auto. cbn [bind].
  rewrite !dict_of_nodup; auto; apply attributes_wf; [apply B|apply A].
Qed.
Lemma dict_eqb_get (d e : list (string * V)) k v : dict_eqb veqb d e = true -> In (k, v) d ->
  exists w, dget k e = Some w /\ veqb v w = true.
Proof.
  unfold dict_eqb. intros E I. apply andb_true_iff in E as [_ E]. rewrite forallb_forall in E.
  specialize (E _ I). cbn [fst snd] in E. destruct (dget k e) as [w|]; [|discriminate]. eauto.
Qed.
Lemma dict_eqb_refl (d : list (string * V)) : (forall v, veqb v v = true) -> dwf d -> dict_eqb veqb d d = true.
Proof.
  intros R W. unfold dict_eqb. rewrite Nat.eqb_refl. cbn [andb]. apply forallb_forall. intros [k v] I. cbn [fst snd].
  erewrite dget_in_wf; eauto.
Qed.
Lemma attribute_in P o k v : dget k (own o) = Some v -> P k = true -> In (k, v) (attributes P o).
Proof. intros E Q. apply filter_In. split; auto. now apply dget_in. Qed.
Lemma dget_attributes P o k v : dwf (own o) -> dget k (attributes P o) = Some v -> dget k (own o) = Some v.
Proof. intros W E. apply dget_in in E. apply filter_In in E as [E _]. now apply dget_in_wf. Qed.
End Eq.
End Proofs.
