(** Proofs about LogModel. *)
From Coq Require Import List Bool Arith Ascii String Lia.
From Verif Require Import PyDict LogModel LogSpec.
Import ListNotations.
Local Open Scope string_scope.

Lemma append_assoc a b c : (a ++ b) ++ c = a ++ (b ++ c).
Proof. induction a as [|x a IH]; simpl; congruence. Qed.
Lemma append_length a b : String.length (a ++ b) = String.length a + String.length b.
Proof. induction a as [|x a IH]; simpl; auto. Qed.
Lemma append_inj a b c : a ++ b = a ++ c -> b = c.
Proof. induction a as [|x a IH]; simpl; auto. intros [= H]. auto. Qed.
Lemma join_words l : join l = words l.
Proof. induction l as [|x [|y l] IH]; [reflexivity|reflexivity|]. change (join (x :: y :: l)) with (x ++ " " ++ join (y :: l)). now rewrite IH. Qed.

Lemma ends_app p s t : ends_with s t -> ends_with (p ++ s) t.
Proof. intros (q & ->). exists (p ++ q). now rewrite append_assoc. Qed.

Lemma missing_space m a l : m ++ join (a :: l) <> words (m :: a :: l).
Proof.
  intros E. rewrite join_words in E. change (words (m :: a :: l)) with (m ++ String " " (words (a :: l))) in E.
  apply append_inj in E. apply (f_equal String.length) in E. simpl in E. destruct l; simpl in E; lia.
Qed.

(** * Classes *)
Section C.
Context {V : Type}.
Notation body := (dict string (entry V)).

Definition accepted (ke : string * entry V) : bool :=
  let '(k, e) := ke in
  if String.eqb k "step" then match e with EFunction => true | _ => false end
  else match e with EStaticmethod => private k | _ => true end.
Lemma meta_accepts (b : body) : forall kept d, (meta_new b kept d <> None) <-> forallb accepted b = true.
Proof.
  induction b as [|[k e] b IH]; intros kept d; [simpl; split; [auto|discriminate]|].
  cbn [meta_new forallb accepted]. destruct (String.eqb k "step").
  - destruct e; cbn [andb]; try apply IH; split; congruence.
  - destruct e as [| | | |]; cbn [andb]; try apply IH; destruct (private k); cbn [andb]; try apply IH; split; congruence.
Qed.
Lemma meta_get (b : body) : dwf b -> forall kept d kept' d', meta_new b kept d = Some (kept', d') -> forall k,
  (dget k kept' = match dget k b with
                  | Some (EValue v) => if private k then Some (EValue v) else dget k kept
                  | Some e => Some e
                  | None => dget k kept
                  end) /\
  (dget k d' = match dget k b with
               | Some (EValue v) => if private k then dget k d else Some v
               | _ => dget k d
               end).
Proof.
  induction b as [|[k0 e] b IH]; intros W kept d kept' d' H k; [injection H as <- <-; auto|].
  inversion W as [|x y N W']; subst. change (dwf b) in W'. cbn [meta_new] in H. cbn [dget].
  assert (S : forall kept1 d1, meta_new b kept1 d1 = Some (kept', d') -> k = k0 ->
    dget k kept' = dget k kept1 /\ dget k d' = dget k d1).
  { intros kept1 d1 M ->. destruct (IH W' _ _ _ _ M k0) as [A B].
    assert (dget k0 b = None) as Z by (now apply dget_none). rewrite Z in A, B. auto. }
  destruct (eqb k k0) eqn:E.
  - apply eqb_eq in E. subst k0.
    destruct (String.eqb k "step") eqn:Q; destruct e as [|v| | |v]; try discriminate;
      try (destruct (private k) eqn:R; try discriminate);
      destruct (S _ _ H eq_refl) as [-> ->]; rewrite ?dget_set_same; auto.
  - assert (E' : k <> k0) by (intros ->; rewrite eqb_refl in E; discriminate).
    destruct (String.eqb k0 "step") eqn:Q; destruct e as [|v| | |v]; try discriminate;
      try (destruct (private k0) eqn:R; try discriminate);
      destruct (IH W' _ _ _ _ H k) as [A B]; rewrite ?dget_set_other in A by auto; rewrite ?dget_set_other in B by auto; auto.
Qed.
End C.

(** * from_dict *)
Section D.
Context {V : Type}.
Definition split_step (parameters : list string) :=
  fun (ai : dict string V * dict string V) (kv : string * V) => let '(args, ignored) := ai in
     if existsb (String.eqb (fst kv)) parameters then (dset (fst kv) (snd kv) args, ignored)
     else (args, dset (fst kv) (snd kv) ignored).
Lemma split_get parameters (l : dict string V) : dwf l -> forall args ignored k,
  (dget k (fst (fold_left (split_step parameters) l (args, ignored))) =
     match dget k l with Some v => if existsb (String.eqb k) parameters then Some v else dget k args | None => dget k args end) /\
  (dget k (snd (fold_left (split_step parameters) l (args, ignored))) =
     match dget k l with Some v => if existsb (String.eqb k) parameters then dget k ignored else Some v | None => dget k ignored end).
Proof.
  induction l as [|[k0 v0] l IH]; intros W args ignored k; [auto|].
  inversion W as [|x y N W']; subst. change (dwf l) in W'. cbn [fold_left dget]. unfold split_step at 2 4. cbn [fst snd].
  destruct (existsb (String.eqb k0) parameters) eqn:Q.
  - destruct (IH W' (dset k0 v0 args) ignored k) as [A B]. rewrite A, B. destruct (eqb k k0) eqn:E.
    + apply eqb_eq in E. subst k0. assert (dget k l = None) as -> by now apply dget_none. rewrite Q, dget_set_same. auto.
    + rewrite dget_set_other by (intros ->; rewrite eqb_refl in E; discriminate). auto.
  - destruct (IH W' args (dset k0 v0 ignored) k) as [A B]. rewrite A, B. destruct (eqb k k0) eqn:E.
    + apply eqb_eq in E. subst k0. assert (dget k l = None) as -> by now apply dget_none. rewrite Q, dget_set_same. auto.
    + rewrite dget_set_other by (intros ->; rewrite eqb_refl in E; discriminate). auto.
Qed.
Lemma from_dict_eq parameters (attrs : dict string V) warn :
  from_dict parameters attrs warn =
  let ai := fold_left (split_step parameters) attrs ([], []) in
  match snd ai with _ :: _ => if warn then RaisesNameError else Constructed (fst ai) | [] => Constructed (fst ai) end.
Proof. unfold from_dict, split_step. cbv zeta. match goal with |- (let (_, _) := ?x in _) = _ => destruct x as [args ignored] eqn:E end. reflexivity. Qed.
Lemma existsb_in k l : existsb (String.eqb k) l = true <-> In k l.
Proof.
  rewrite existsb_exists. split.
  - intros (x & I & E). apply String.eqb_eq in E. now subst.
  - intros I. exists k. split; auto. apply String.eqb_refl.
Qed.
Lemma from_dict_split parameters (attrs : dict string V) warn : dwf attrs -> exists args ignored : dict string V,
  (forall k, dget k args = match dget k attrs with Some v => if existsb (String.eqb k) parameters then Some v else None | None => None end) /\
  (forall k, dget k ignored = match dget k attrs with Some v => if existsb (String.eqb k) parameters then None else Some v | None => None end) /\
  from_dict parameters attrs warn =
    match ignored with _ :: _ => if warn then RaisesNameError else Constructed args | [] => Constructed args end.
Proof.
  intros W. eexists. eexists. split; [|split; [|apply from_dict_eq]]; intros k; apply (split_get parameters attrs W [] [] k).
Qed.
Lemma from_dict_ok parameters (attrs : dict string V) warn : dwf attrs ->
  (warn = false \/ forall k, In k (dkeys attrs) -> In k parameters) ->
  exists args, from_dict parameters attrs warn = Constructed args /\ restricted parameters attrs args.
Proof.
  intros W H. destruct (from_dict_split parameters attrs warn W) as (args & ignored & A & B & ->).
  exists args. split.
  - destruct ignored as [|[k v] r]; auto. destruct H as [->|H]; auto. exfalso.
    specialize (B k). cbn [dget] in B. rewrite eqb_refl in B.
    destruct (dget k attrs) as [w|] eqn:G; [|discriminate].
    assert (In k parameters) as I. { apply H, dhas_in. now rewrite dhas_get, G. }
    apply existsb_in in I. rewrite I in B. discriminate.
  - intros k v. rewrite A.
    destruct (dget k attrs) as [w|]; [|split; [discriminate|intros [? _]; discriminate]].
    destruct (existsb (String.eqb k) parameters) eqn:E.
    + apply existsb_in in E. split; [auto|]. now intros [X _].
    + split; [discriminate|]. intros [_ I]. apply existsb_in in I. congruence.
Qed.
Lemma from_dict_bad parameters (attrs : dict string V) k : dwf attrs -> In k (dkeys attrs) -> ~ In k parameters ->
  from_dict parameters attrs true = RaisesNameError.
Proof.
  intros W I N. destruct (from_dict_split parameters attrs true W) as (args & ignored & _ & B & ->). specialize (B k).
  apply dhas_in in I. rewrite dhas_get in I. destruct (dget k attrs); [|discriminate].
  destruct (existsb (String.eqb k) parameters) eqn:E; [apply existsb_in in E; contradiction|].
  destruct ignored; [discriminate|reflexivity].
Qed.
End D.
