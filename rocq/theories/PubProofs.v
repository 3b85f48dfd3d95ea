(** Proofs about PubModel. *)
From Coq Require Import ZArith List Bool Arith Lia.
From Verif Require Import PyDict PubModel PubSpec.
Import ListNotations.
Local Open Scope Z_scope.

Definition is_in (c : city) (p : name) (a : patron) : bool :=
  match c_pub c a with Some (Some q) => Nat.eqb q p | _ => false end.
Lemma is_in_iff c p a : is_in c p a = true <-> inside c a p.
Proof.
  unfold is_in, inside. destruct (c_pub c a) as [[q|]|]; split; intros E; try discriminate.
  - apply Nat.eqb_eq in E. now subst.
  - injection E as ->. apply Nat.eqb_refl.
Qed.
Lemma number_eq c p l : number_inside c p l = Z.of_nat (List.length (filter (is_in c p) l)).
Proof. reflexivity. Qed.
Lemma number_nil c p : number_inside c p [] = 0.
Proof. reflexivity. Qed.
Lemma number_cons c p a l : number_inside c p (a :: l) = (if is_in c p a then 1 else 0) + number_inside c p l.
Proof. rewrite !number_eq. cbn [filter]. destruct (is_in c p a); cbn [List.length]; lia. Qed.
Lemma number_nonneg c p l : 0 <= number_inside c p l.
Proof. rewrite number_eq. lia. Qed.
Lemma number_ext c c' p l : (forall a, In a l -> is_in c' p a = is_in c p a) -> number_inside c' p l = number_inside c p l.
Proof.
  induction l as [|a l IH]; intros H; [reflexivity|]. rewrite !number_cons, H by (simpl; auto).
  rewrite IH; auto. intros b I. apply H. simpl. auto.
Qed.

Lemma set_pub_is_in c a v p b : is_in (set_pub c a v) p b =
  if Nat.eqb b a then match v with Some (Some q) => Nat.eqb q p | _ => false end else is_in c p b.
Proof. unfold is_in, set_pub. cbn [c_pub]. destruct (Nat.eqb b a); reflexivity. Qed.

(** The number of those inside after a change of one attribute. *)
Lemma number_set c a v p l : NoDup l ->
  number_inside (set_pub c a v) p l = number_inside c p l +
    if existsb (Nat.eqb a) l then
      (if match v with Some (Some q) => Nat.eqb q p | _ => false end then 1 else 0) - (if is_in c p a then 1 else 0)
    else 0.
Proof.
  induction l as [|b l IH]; intros N; [reflexivity|]. inversion N as [|x y N1 N2]; subst.
  rewrite !number_cons, IH by auto. cbn [existsb]. rewrite set_pub_is_in, (Nat.eqb_sym a b).
  destruct (Nat.eqb b a) eqn:E; cbn [orb]; [|lia].
  apply Nat.eqb_eq in E. subst b.
  assert (existsb (Nat.eqb a) l = false) as ->; [|lia].
  apply not_true_iff_false. intros X. apply existsb_exists in X as (y & I & E). apply Nat.eqb_eq in E. now subst.
Qed.

Lemma enter_pubs nodes p c : c_pubs (fold_left (fun c a => set_pub c a (Some (Some p))) nodes c) = c_pubs c.
Proof. revert c. induction nodes as [|a nodes IH]; intros c; [reflexivity|]. simpl. now rewrite IH. Qed.
Lemma enter_is_in nodes p q b : forall c,
  is_in (fold_left (fun c a => set_pub c a (Some (Some p))) nodes c) q b =
  if existsb (Nat.eqb b) nodes then Nat.eqb p q else is_in c q b.
Proof.
  induction nodes as [|a nodes IH]; intros c; [reflexivity|]. simpl. rewrite IH, set_pub_is_in.
  destruct (Nat.eqb b a), (existsb (Nat.eqb b) nodes); reflexivity.
Qed.
Lemma enter_number nodes p q l : NoDup l -> forall c,
  number_inside (fold_left (fun c a => set_pub c a (Some (Some p))) nodes c) q l
  <= number_inside c q l + (if Nat.eqb p q then Z.of_nat (List.length nodes) else 0).
Proof.
  intros N. induction nodes as [|a nodes IH]; intros c; [simpl; destruct (Nat.eqb p q); lia|].
  cbn [fold_left]. eapply Z.le_trans; [apply IH|]. rewrite number_set by auto. cbn [List.length].
  destruct (existsb (Nat.eqb a) l), (Nat.eqb p q), (is_in c q a); lia.
Qed.

Section Inv.
Variables (get : option (nat -> patron)) (cap : Z).
(** The invariant: at most as many are inside as are counted. *)
Definition fits (c : city) : Prop :=
  forall p b, dget p (c_pubs c) = Some b -> p_capacity b = cap /\ p_open b = true /\ p_occupancy b <= cap /\
    forall l, NoDup l -> number_inside c p l <= p_occupancy b.

Lemma fits_enter p nodes c : fits c -> fits (fst (enter p nodes c)).
Proof.
  intros F. unfold enter. destruct (dget p (c_pubs c)) as [b|] eqn:E; [|exact F].
  destruct (negb (p_open b) || _) eqn:X; [exact F|]. apply orb_false_iff in X as [_ X]. apply Z.ltb_ge in X.
  cbn [fst]. destruct (F p b E) as (F1 & F2 & F3 & F4).
  intros q b' G. rewrite enter_pubs in G. cbn [c_pubs] in G. rewrite dget_set in G.
  assert (forall l, NoDup l -> number_inside (fold_left (fun c a => set_pub c a (Some (Some p))) nodes
     (City (dset p (Pub (p_open b) (p_capacity b) (p_occupancy b + Z.of_nat (List.length nodes))) (c_pubs c)) (c_pub c))) q l <=
     number_inside c q l + (if Nat.eqb p q then Z.of_nat (List.length nodes) else 0)) as H.
  { intros l N. eapply Z.le_trans; [apply enter_number; auto|]. apply Z.le_refl. }
  destruct (eqb q p) eqn:Q.
  - injection G as <-. apply eqb_eq in Q. subst q. cbn [p_capacity p_open p_occupancy].
    split; auto. split; auto. split; [lia|]. intros l N. specialize (H l N). rewrite Nat.eqb_refl in H.
    specialize (F4 l N). lia.
  - destruct (F q b' G) as (G1 & G2 & G3 & G4). split; auto. split; auto. split; auto.
    intros l N. specialize (H l N). apply eqb_neq in Q.
    assert (Nat.eqb p q = false) as X2 by (apply Nat.eqb_neq; congruence). rewrite X2 in H. specialize (G4 l N). lia.
Qed.

Lemma fits_leave p ids : forall c, fits c -> fits (fst (leave get p ids c)).
Proof.
  induction ids as [|i ids IH]; intros c F; [exact F|]. cbn [leave]. destruct get as [g|]; [|exact F].
  destruct (c_pub c (g i)) as [[q|]|] eqn:A; [|apply IH; exact F|exact F].
  destruct (Nat.eqb p q) eqn:Q; [|apply IH; exact F]. apply Nat.eqb_eq in Q. subst q.
  assert (IN : is_in c p (g i) = true) by now apply is_in_iff.
  assert (LOW : forall q l, NoDup l -> number_inside (set_pub c (g i) None) q l <= number_inside c q l).
  { intros q l N. rewrite number_set by auto. destruct (existsb (Nat.eqb (g i)) l), (is_in c q (g i)); lia. }
  destruct (dget p (c_pubs c)) as [b|] eqn:E.
  - apply IH. intros q b' G. cbn [c_pubs set_pub] in G. rewrite dget_set in G. destruct (eqb q p) eqn:X.
    + injection G as <-. apply eqb_eq in X. subst q. destruct (F p b E) as (F1 & F2 & F3 & F4).
      cbn [p_capacity p_open p_occupancy]. split; auto. split; auto. split; [lia|]. intros l N.
      change (number_inside (set_pub c (g i) None) p l <= p_occupancy b - 1).
      destruct (existsb (Nat.eqb (g i)) l) eqn:Y.
      * rewrite number_set, Y, IN by auto. specialize (F4 l N). lia.
      * assert (NoDup (g i :: l)) as N'.
        { constructor; auto. intros J. apply not_true_iff_false in Y. apply Y. apply existsb_exists.
          exists (g i). split; auto. apply Nat.eqb_refl. }
        specialize (F4 _ N'). rewrite number_cons, IN in F4. specialize (LOW p l N). lia.
    + destruct (F q b' G) as (G1 & G2 & G3 & G4). split; auto. split; auto. split; auto. intros l N.
      change (number_inside (set_pub c (g i) None) q l <= p_occupancy b'). specialize (LOW q l N). specialize (G4 l N). lia.
  - intros q b' G. cbn [fst c_pubs set_pub] in G. destruct (F q b' G) as (G1 & G2 & G3 & G4). split; auto. split; auto.
    split; auto. intros l N. specialize (LOW q l N). specialize (G4 l N). cbn [fst]. lia.
Qed.

Lemma fits_call x c : fits c -> fits (fst (one_call get x c)).
Proof.
  intros F. destruct x as [p nodes|p ids]; cbn [one_call]; [now apply fits_enter|].
  unfold exit. destruct (dget p (c_pubs c)); [now apply fits_leave|exact F].
Qed.
Lemma fits_calls l : forall c, fits c -> fits (calls get l c).
Proof. induction l as [|x l IH]; intros c F; [exact F|]. apply IH. now apply fits_call. Qed.
End Inv.

Lemma new_get n cap p b : dget p (c_pubs (new_city n cap)) = Some b -> b = Pub true cap 0.
Proof.
  cbn [new_city c_pubs]. induction (seq 0 n) as [|i l IH]; simpl; [discriminate|].
  destruct (eqb p i); auto. now intros [= <-].
Qed.
Lemma new_number n cap p l : number_inside (new_city n cap) p l = 0.
Proof. induction l as [|a l IH]; [reflexivity|]. rewrite number_cons, IH. reflexivity. Qed.
Lemma fits_new n cap : 0 <= cap -> fits cap (new_city n cap).
Proof.
  intros H p b G. rewrite (new_get _ _ _ _ G). cbn [p_capacity p_open p_occupancy]. split; auto. split; auto. split; auto.
  intros l _. rewrite new_number. lia.
Qed.

(** Pubs are neither opened nor closed by the calls. *)
Lemma enter_keys p nodes c q : dhas q (c_pubs (fst (enter p nodes c))) = dhas q (c_pubs c).
Proof.
  unfold enter. destruct (dget p (c_pubs c)) as [b|] eqn:E; [|reflexivity].
  destruct (_ || _); [reflexivity|]. cbn [fst]. rewrite enter_pubs. cbn [c_pubs]. rewrite !dhas_get, dget_set.
  destruct (eqb q p) eqn:X; auto. apply eqb_eq in X. subst. now rewrite E.
Qed.

(** * The counter *)
Section Exact.
Variables (get : option (nat -> patron)) (all : list patron).
Hypothesis Nall : NoDup all.
Hypothesis Gall : forall g i, get = Some g -> In (g i) all.
Definition counted (c : city) : Prop :=
  forall p b, dget p (c_pubs c) = Some b -> p_occupancy b = number_inside c p all.

Lemma in_existsb a l : In a l -> existsb (Nat.eqb a) l = true.
Proof. intros I. apply existsb_exists. exists a. split; auto. apply Nat.eqb_refl. Qed.

Lemma enter_count p q nodes : NoDup nodes -> forall c, (forall a, In a nodes -> In a all /\ forall r, ~ inside c a r) ->
  number_inside (fold_left (fun c a => set_pub c a (Some (Some p))) nodes c) q all =
  number_inside c q all + (if Nat.eqb p q then Z.of_nat (List.length nodes) else 0).
Proof.
  induction 1 as [|a nodes N1 N2 IH]; intros c H; [simpl; destruct (Nat.eqb p q); lia|].
  destruct (H a (or_introl eq_refl)) as [Ia Oa]. cbn [fold_left]. rewrite IH.
  - rewrite number_set by auto. rewrite (in_existsb a all Ia). cbn [List.length].
    assert (is_in c q a = false) as ->. { apply not_true_iff_false. rewrite is_in_iff. apply Oa. }
    destruct (Nat.eqb p q); lia.
  - intros b Ib. destruct (H b (or_intror Ib)) as [J O]. split; auto. intros r X. apply (O r).
    apply is_in_iff. apply is_in_iff in X. rewrite set_pub_is_in in X.
    destruct (Nat.eqb b a) eqn:Y; auto. apply Nat.eqb_eq in Y. now subst.
Qed.

Lemma counted_leave p ids : forall c, counted c -> counted (fst (leave get p ids c)).
Proof.
  induction ids as [|i ids IH]; intros c F; [exact F|]. cbn [leave]. destruct get as [g|] eqn:Eg; [|exact F].
  destruct (c_pub c (g i)) as [[q|]|] eqn:A; [|apply IH; exact F|exact F].
  destruct (Nat.eqb p q) eqn:Q; [|apply IH; exact F]. apply Nat.eqb_eq in Q. subst q.
  assert (EQ : forall q, number_inside (set_pub c (g i) None) q all = number_inside c q all - if Nat.eqb p q then 1 else 0).
  { intros q. rewrite number_set by auto. rewrite in_existsb by eauto.
    assert (is_in c q (g i) = Nat.eqb p q) as -> by (unfold is_in; now rewrite A). destruct (Nat.eqb p q); lia. }
  destruct (dget p (c_pubs c)) as [b|] eqn:E.
  - apply IH. intros q b' G. cbn [c_pubs set_pub] in G. rewrite dget_set in G.
    change (p_occupancy b' = number_inside (set_pub c (g i) None) q all). rewrite EQ. destruct (eqb q p) eqn:X.
    + injection G as <-. apply eqb_eq in X. subst q. cbn [p_occupancy]. rewrite Nat.eqb_refl, (F p b E). lia.
    + apply eqb_neq in X. assert (Nat.eqb p q = false) as -> by (apply Nat.eqb_neq; congruence). rewrite (F q b' G). lia.
  - intros q b' G. cbn [fst c_pubs set_pub] in G. cbn [fst]. rewrite EQ, (F q b' G).
    destruct (Nat.eqb p q) eqn:X; [|lia]. apply Nat.eqb_eq in X. subst. congruence.
Qed.

Lemma counted_calls l : forall c, counted c -> orderly get all l c -> counted (calls get l c).
Proof.
  induction l as [|x l IH]; intros c F O; [exact F|]. cbn [orderly] in O. destruct O as [O1 O2].
  apply (IH (fst (one_call get x c))); auto. destruct x as [p nodes|p ids]; cbn [one_call] in *.
  - destruct O1 as [N H]. unfold enter in *. destruct (dget p (c_pubs c)) as [b|] eqn:E; [|exact F].
    destruct (negb (p_open b) || _) eqn:X; [exact F|]. cbn [fst]. intros q b' G.
    rewrite enter_pubs in G. cbn [c_pubs] in G. rewrite dget_set in G.
    rewrite (enter_count p q nodes N) by exact H.
    change (number_inside (City _ (c_pub c)) q all) with (number_inside c q all).
    destruct (eqb q p) eqn:Q.
    + injection G as <-. apply eqb_eq in Q. subst q. cbn [p_occupancy]. rewrite Nat.eqb_refl, (F p b E). lia.
    + apply eqb_neq in Q. assert (Nat.eqb p q = false) as -> by (apply Nat.eqb_neq; congruence). rewrite (F q b' G). lia.
  - unfold exit. destruct (dget p (c_pubs c)); [now apply counted_leave|exact F].
Qed.
End Exact.

(** * Patrons *)
Lemma enter_true p nodes c c' : enter p nodes c = (c', Returns true) -> forall b, In b nodes -> inside c' b p.
Proof.
  unfold enter. destruct (dget p (c_pubs c)) as [b|]; [|discriminate].
  destruct (_ || _); [discriminate|]. intros [= <-] x I. apply is_in_iff.
  rewrite enter_is_in, in_existsb by auto. apply Nat.eqb_refl.
Qed.
Lemma try_some a group l : forall c c', try_pubs a group l c = (c', true) ->
  exists p, In p l /\ forall b, In b (a :: group) -> inside c' b p.
Proof.
  induction l as [|p l IH]; intros c c' E; [discriminate|]. cbn [try_pubs] in E.
  destruct (enter p (a :: group) c) as [c1 r] eqn:X.
  assert (R : r <> Returns true -> exists q, In q (p :: l) /\ forall b, In b (a :: group) -> inside c' b q).
  { intros N. destruct (IH c1 c') as (q & I & H); [|exists q; simpl; auto].
    destruct r as [[|]| | | |]; try exact E. congruence. }
  destruct r as [[|]| | | |]; try (apply R; discriminate). clear R.
  injection E as <-. exists p. split; [simpl; auto|]. eapply enter_true. exact X.
Qed.
Lemma try_none a group l : forall c c', try_pubs a group l c = (c', false) -> c' = c /\
  forall p b, In p l -> dget p (c_pubs c) = Some b -> ~ accepts b (Z.of_nat (List.length (a :: group))).
Proof.
  induction l as [|p l IH]; intros c c' E; [injection E as <-; split; auto; intros p b []|]. cbn [try_pubs] in E.
  destruct (enter p (a :: group) c) as [c1 r] eqn:X. unfold enter in X.
  assert (c1 = c /\ try_pubs a group l c1 = (c', false) /\
    forall b, dget p (c_pubs c) = Some b -> ~ accepts b (Z.of_nat (List.length (a :: group)))) as (-> & E' & H).
  { destruct (dget p (c_pubs c)) as [b|]; [|injection X as <- <-; split; auto; split; auto; discriminate].
    destruct (negb (p_open b) || _) eqn:Y.
    - injection X as <- <-. split; auto. split; auto. intros b' [= <-] [O K].
      rewrite O in Y. cbn [negb orb] in Y. apply Z.ltb_lt in Y. lia.
    - injection X as <- <-. discriminate. }
  destruct (IH _ _ E') as [-> G]. split; auto. intros q b [<-|I]; eauto.
Qed.

Lemma looking_true a group c c' : looking_for_pub a group c = (c', Some true) ->
  exists p, inside c' a p /\ (inside c a p /\ c' = c \/ c_pub c a = Some None /\ forall b, In b group -> inside c' b p).
Proof.
  unfold looking_for_pub. destruct (c_pub c a) as [[p|]|] eqn:A; [| |discriminate].
  - intros [= <-]. exists p. unfold inside. auto.
  - destruct (try_pubs a group (available c) c) as [c1 b] eqn:E. intros [= <- ->].
    apply try_some in E as (p & _ & H). exists p. split; [apply H; simpl; auto|]. right. split; auto.
    intros x I. apply H. simpl. auto.
Qed.
Lemma looking_false a group c c' : looking_for_pub a group c = (c', Some false) -> c' = c /\
  forall p b, dget p (c_pubs c) = Some b -> ~ accepts b (1 + Z.of_nat (List.length group)).
Proof.
  unfold looking_for_pub. destruct (c_pub c a) as [[p|]|] eqn:A; [discriminate| |discriminate].
  destruct (try_pubs a group (available c) c) as [c1 b] eqn:E. intros [= <- ->].
  apply try_none in E as [-> H]. split; auto. intros p b G [O K]. apply (H p b); auto.
  - unfold available. apply in_map_iff. exists (p, b). split; auto. apply filter_In. split; [now apply dget_in|].
    cbn [snd]. rewrite O. cbn [andb]. apply Z.ltb_lt. lia.
  - split; auto. cbn [List.length]. lia.
Qed.

(** * All pubs stay *)
Lemma leave_keys get p ids q : forall c, dhas q (c_pubs (fst (leave get p ids c))) = dhas q (c_pubs c).
Proof.
  induction ids as [|i ids IH]; intros c; [reflexivity|]. cbn [leave]. destruct get as [g|]; [|reflexivity].
  destruct (c_pub c (g i)) as [[r|]|]; [|apply IH|reflexivity]. destruct (Nat.eqb p r); [|apply IH].
  destruct (dget p (c_pubs c)) as [b|] eqn:E; [|reflexivity]. rewrite IH. cbn [c_pubs set_pub].
  rewrite !dhas_get, dget_set. destruct (eqb q p) eqn:X; auto. apply eqb_eq in X. subst. now rewrite E.
Qed.
Lemma calls_keys get q l : forall c, dhas q (c_pubs (calls get l c)) = dhas q (c_pubs c).
Proof.
  induction l as [|x l IH]; intros c; [reflexivity|]. unfold calls. cbn [fold_left].
  fold (calls get l (fst (one_call get x c))). rewrite IH. destruct x as [p nodes|p ids]; cbn [one_call]; [apply enter_keys|].
  unfold exit. destruct (dget p (c_pubs c)); [apply leave_keys|reflexivity].
Qed.
Lemma new_keys n cap p : (p < n)%nat -> dhas p (c_pubs (new_city n cap)) = true.
Proof.
  intros L. rewrite dhas_in. cbn [new_city c_pubs]. unfold dkeys. rewrite map_map, map_id. apply in_seq. lia.
Qed.
