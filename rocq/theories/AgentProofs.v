(** Proofs about AgentModel. *)
From Coq Require Import ZArith List Bool Arith String Lia.
From Verif Require Import Num PyDict TimedModel AgentModel AgentSpec.
Import ListNotations.

(** * Generator steps *)
Section Generator.
Context {W Q V : Type}.
Variable g_start : aid -> Q.
Variable g_resume : sched -> aid -> Q -> W -> W * list sop * gout Q V.
Variable v_none : V.
Variable is_none : V -> bool.
Variable to_float : V -> option num.
Hypothesis none_none : is_none v_none = true.

Notation dec := (decorated g_start g_resume v_none is_none to_float).
Notation acts := (activations g_start g_resume v_none is_none to_float).
Notation ends := (as_delay is_none to_float).
Notation mine a tr := (map snd (filter (fun p => Nat.eqb (fst p) a) tr)).

Lemma get_set_co (c : cors Q) a b x :
  get_co (set_co c a x) b = if Nat.eqb b a then x else get_co c b.
Proof.
  unfold get_co, set_co. simpl. rewrite dget_set. unfold eqb, Eqb_nat.
  destruct (Nat.eqb b a); auto.
Qed.

Lemma dec_other s a b w c w' c' ops o :
  dec s a w c = (w', c', ops, o) -> b <> a -> get_co c' b = get_co c b.
Proof.
  intros E N. apply Nat.eqb_neq in N. unfold decorated in E.
  destruct (send _ _ _ _ _ _) as [[[w1 l1] g1] [v|v|[]]]; injection E as <- <- <- <-;
    rewrite !get_set_co, !N; auto.
Qed.

(** The records of an agent, according to its generator. *)
Definition follows (a : aid) (g : option (gobj Q)) (l : list record) : Prop :=
  match g with
  | None => plays (g_start a) (fun s => g_resume s a) ends (g_start a) l
  | Some (GSusp q) => plays (g_start a) (fun s => g_resume s a) ends q l
  | Some GDone =>
      match l with
      | [] => True
      | r :: l' => exists s w, r = (s, w, w, [], Ret None) /\
                   plays (g_start a) (fun s => g_resume s a) ends (g_start a) l'
      end
  end.

Lemma acts_follow l : forall w c a, follows a (get_co c a) (mine a (acts l w c)).
Proof.
  induction l as [|[[s b] f] l IH]; intros w c a.
  - simpl. destruct (get_co c a) as [[q|]|]; simpl; constructor.
  - cbn [activations]. destruct (dec s b (f w) c) as [[[w2 c2] ops] o] eqn:D.
    cbn [filter fst]. destruct (Nat.eqb b a) eqn:E.
    + apply Nat.eqb_eq in E. subst b. cbn [map snd]. specialize (IH w2 c2 a).
      unfold decorated in D.
      set (g := match get_co c a with Some g => g | None => GSusp (g_start a) end) in D.
      destruct (send g_resume v_none s a g (f w)) as [[[w1 l1] g1] r] eqn:S.
      assert (K : match g with
                  | GSusp q => plays (g_start a) (fun s => g_resume s a) ends q
                                 ((s, f w, w2, ops, o) :: mine a (acts l w2 c2))
                  | GDone => (s, f w, w2, ops, o) = (s, f w, f w, [], Ret None) /\
                             plays (g_start a) (fun s => g_resume s a) ends (g_start a)
                                 (mine a (acts l w2 c2))
                  end).
      { destruct g as [q|]; simpl in S.
        - destruct (g_resume s a q (f w)) as [[w3 l3] [v q'|v|d]] eqn:R;
            injection S as <- <- <- <-.
          + injection D as <- <- <- <-.
            rewrite get_set_co, Nat.eqb_refl in IH. simpl in IH.
            econstructor; eauto.
          + injection D as <- <- <- <-.
            rewrite get_set_co, Nat.eqb_refl in IH. simpl in IH.
            eapply plays_return; eauto.
          + assert (X : w3 = w2 /\ c2 = set_co (set_co c a (Some (GSusp q))) a (Some GDone) /\
                        l3 = ops /\ o = if d then Dead else Exc).
            { destruct d; injection D as <- <- <- <-; auto. }
            destruct X as (<- & -> & -> & ->).
            rewrite get_set_co, Nat.eqb_refl in IH. simpl in IH.
            destruct (mine a (acts l w3 _)) as [|r l'].
            * eapply plays_raise; eauto.
            * destruct IH as (s2 & w4 & -> & P). eapply plays_idle; eauto.
        - injection S as <- <- <- <-. injection D as <- <- <- <-.
          rewrite get_set_co, Nat.eqb_refl in IH. simpl in IH. split; auto.
          unfold as_delay. rewrite none_none. reflexivity. }
      destruct (get_co c a) as [[q|]|]; subst g; simpl; auto.
      destruct K as [-> P]. eauto.
    + apply Nat.eqb_neq in E.
      rewrite <- (dec_other _ _ a _ _ _ _ _ _ D) by auto. apply IH.
Qed.

Lemma generator_plays l w a :
  plays (g_start a) (fun s => g_resume s a) ends (g_start a) (mine a (acts l w no_cors)).
Proof. exact (acts_follow l w no_cors a). Qed.
End Generator.

(** * Class defaults *)
Section Cls.
Context {I : Type}.
Variable P : cls I -> Prop.
Hypothesis H : forall i bases own, Forall P bases -> P (Cls i bases own).
Fixpoint cls_ind' (c : cls I) : P c :=
  match c with
  | Cls i bases own =>
      H i bases own
        ((fix go bs := match bs return Forall P bs with
                       | [] => Forall_nil P
                       | b :: bs' => Forall_cons b (cls_ind' b) (go bs')
                       end) bases)
  end.
End Cls.

Lemma find_rev_dupdate {V} (e : dict string V) : forall d k,
  dget k (dupdate d e) =
  match find (fun p => String.eqb k (fst p)) (rev e) with
  | Some p => Some (snd p)
  | None => dget k d
  end.
Proof.
  unfold dupdate. induction e as [|[k' v'] e IH]; intros d k; simpl; auto.
  rewrite IH, dget_set. clear IH.
  assert (F : forall l x, find (fun p : string * V => String.eqb k (fst p)) (l ++ [x]) =
              match find (fun p => String.eqb k (fst p)) l with
              | Some p => Some p
              | None => if String.eqb k (fst x) then Some x else None
              end).
  { induction l as [|y l IH]; intros x; simpl; auto. destruct (String.eqb k (fst y)); auto. }
  rewrite F. destruct (find _ (rev e)); auto. simpl.
  unfold eqb, Eqb_string. destruct (String.eqb k k'); auto.
Qed.

Lemma own_defaults_get {V} (own : list (item V)) : forall d k,
  dget k (own_defaults own d) =
  match body_value k own with Some v => Some v | None => dget k d end.
Proof.
  unfold own_defaults. induction own as [|i own IH]; intros d k; simpl; auto.
  rewrite IH. destruct (body_value k own); auto. destruct i as [k' v|e].
  - rewrite dget_set. unfold eqb, Eqb_string. destruct (String.eqb k k'); auto.
  - rewrite find_rev_dupdate. destruct (find _ (rev e)); auto.
Qed.

(** Dictionaries without repeated keys: updating and reading. *)
Lemma dget_dupdate_wf {V} (e : dict string V) : forall d k, dwf e ->
  dget k (dupdate d e) = match dget k e with Some v => Some v | None => dget k d end.
Proof.
  unfold dupdate. induction e as [|[k' v'] e IH]; intros d k N; simpl; auto.
  inversion N as [|x l N1 N2]; subst. rewrite IH by auto. rewrite dget_set.
  destruct (eqb k k') eqn:E; auto.
  apply eqb_eq in E. subst. apply dget_none in N1. now rewrite N1.
Qed.

Lemma dupdate_wf' {V} (e : dict string V) : forall d, dwf d -> dwf (dupdate d e).
Proof.
  unfold dupdate. induction e as [|[k v] e IH]; intros d N; simpl; auto.
  apply IH. now apply dset_wf.
Qed.

Lemma own_defaults_wf {V} (own : list (item V)) : forall d, dwf d -> dwf (own_defaults own d).
Proof.
  unfold own_defaults. induction own as [|i own IH]; intros d N; simpl; auto.
  apply IH. destruct i; [now apply dset_wf|now apply dupdate_wf'].
Qed.

Lemma defaults_wf {V} (c : cls (item V)) : dwf (defaults c).
Proof.
  destruct c as [i bases own]. simpl. apply own_defaults_wf.
  assert (G : forall bs (d : dict string V), dwf d ->
            dwf (fold_left (fun (d : dict string V) b => dupdate d (defaults b)) bs d)).
  { induction bs as [|b bs IH]; intros d N; simpl; auto. apply IH. now apply dupdate_wf'. }
  apply G. constructor.
Qed.

Lemma fold_bases {V} (bases : list (cls (item V))) : forall d k,
  dget k (fold_left (fun d b => dupdate d (defaults b)) bases d) =
  match last_some (map (fun b => dget k (defaults b)) bases) with
  | Some v => Some v
  | None => dget k d
  end.
Proof.
  induction bases as [|b bases IH]; intros d k; simpl; auto.
  rewrite IH, (dget_dupdate_wf (defaults b)) by apply defaults_wf.
  destruct (last_some _); auto.
Qed.

Lemma defaults_get {V} i bases (own : list (item V)) k :
  dget k (defaults (Cls i bases own)) =
  match body_value k own with
  | Some v => Some v
  | None => last_some (map (fun b => dget k (defaults b)) bases)
  end.
Proof.
  cbn [defaults]. rewrite own_defaults_get. destruct (body_value k own); auto.
  rewrite fold_bases. simpl. destruct (last_some _); auto.
Qed.

Lemma last_some_in {X} (l : list (option X)) x : last_some l = Some x -> In (Some x) l.
Proof.
  induction l as [|o l IH]; simpl; [discriminate|].
  destruct (last_some l); intros E; auto.
Qed.

Lemma last_some_none {X} (l : list (option X)) : last_some l = None <-> forall o, In o l -> o = None.
Proof.
  induction l as [|o l IH]; simpl; [tauto|]. destruct (last_some l) eqn:E.
  - split; [discriminate|]. intros N. apply last_some_in in E. now apply N; right.
  - split; [|intros N; now apply N; left]. intros -> o' [<-|I]; auto. now apply IH.
Qed.

(** Whatever a class has as a default was written in the body of an ancestor, and if
    some ancestor defines the attribute, then there is a default. *)
Lemma defaults_origin {V} (c : cls (item V)) k v :
  dget k (defaults c) = Some v ->
  exists x, ancestor c x /\ body_value k (c_own x) = Some v.
Proof.
  revert v. induction c as [i bases own IH] using cls_ind'. intros v.
  rewrite defaults_get. destruct (body_value k own) as [v'|] eqn:B.
  - intros E. injection E as ->. exists (Cls i bases own). split; [constructor|auto].
  - intros E. apply last_some_in in E. apply in_map_iff in E. destruct E as (b & E & Ib).
    rewrite Forall_forall in IH. destruct (IH b Ib v E) as (x & A & E2).
    exists x. split; auto. econstructor; eauto.
Qed.

Lemma defaults_defined {V} (c x : cls (item V)) k v :
  ancestor c x -> body_value k (c_own x) = Some v -> dget k (defaults c) <> None.
Proof.
  intros A B. induction A as [[i bases own]|[i bases own] b x Ib A IH].
  - rewrite defaults_get. simpl in B. rewrite B. discriminate.
  - rewrite defaults_get. destruct (body_value k own); [discriminate|].
    intros N. rewrite last_some_none in N. apply (IH B). apply N.
    apply in_map_iff. exists b. auto.
Qed.

(** The merge keeps exactly the classes of the lists. *)
Section Merge.
Context {I : Type}.
Implicit Types ls : list (list (cls I)).

Lemma merge_spec n : forall ls l, merge n ls = Some l ->
  (forall x, In x l -> exists l', In l' ls /\ In x l') /\
  (forall l' x, In l' ls -> In x l' -> exists y, In y l /\ c_id y = c_id x).
Proof.
  induction n as [|n IH]; intros ls l; simpl.
  - destruct (forallb _ ls) eqn:F; [|discriminate]. intros E. injection E as <-.
    rewrite forallb_forall in F. split; [contradiction|].
    intros l' x I1 I2. specialize (F _ I1). destruct l'; [contradiction|discriminate].
  - destruct (forallb _ ls) eqn:F.
    + intros E. injection E as <-. rewrite forallb_forall in F. split; [contradiction|].
      intros l' x I1 I2. specialize (F _ I1). destruct l'; [contradiction|discriminate].
    + destruct (candidate ls) as [h|] eqn:C; [|discriminate].
      destruct (merge n (map (drop_head h) ls)) as [l0|] eqn:M; [|discriminate].
      intros E. injection E as <-. destruct (IH _ _ M) as [A B]. split.
      * intros x [<-|Ix].
        -- unfold candidate in C. apply find_some in C. destruct C as [C _].
           apply in_flat_map in C. destruct C as (l' & I1 & I2). exists l'. split; auto.
           destruct l'; simpl in *; tauto.
        -- destruct (A _ Ix) as (l' & I1 & I2). apply in_map_iff in I1.
           destruct I1 as (l2 & <- & I1). exists l2. split; auto.
           destruct l2 as [|z l2]; simpl in I2; auto. destruct (same h z); simpl; auto.
      * intros l' x I1 I2.
        destruct (same h x) eqn:S.
        -- exists h. split; [left; auto|]. apply Nat.eqb_eq in S. auto.
        -- destruct (B (drop_head h l') x) as (y & Iy & Ey).
           ++ now apply in_map.
           ++ destruct l' as [|z l']; simpl in *; auto. destruct (same h z) eqn:S2; simpl; auto.
              destruct I2 as [->|I2]; auto. rewrite S in S2. discriminate.
           ++ exists y. split; auto. right. auto.
Qed.

Lemma all_some_in {X} (l : list (option X)) r : all_some l = Some r ->
  (forall x, In x r -> In (Some x) l) /\ (forall o, In o l -> exists x, o = Some x /\ In x r).
Proof.
  revert r. induction l as [|[x|] l IH]; intros r; simpl; try discriminate.
  - intros E. injection E as <-. split; [contradiction|contradiction].
  - destruct (all_some l) as [r0|]; [|discriminate]. intros E. injection E as <-.
    destruct (IH _ eq_refl) as [A B]. split.
    + intros y [<-|Iy]; auto.
    + intros o [<-|Io]; [exists x; simpl; auto|]. destruct (B _ Io) as (y & -> & Iy).
      exists y. simpl. auto.
Qed.

Lemma mro_spec (c : cls I) : forall l, mro c = Some l ->
  (forall x, In x l -> ancestor c x) /\
  (forall x, ancestor c x -> exists y, In y l /\ c_id y = c_id x).
Proof.
  induction c as [i bases own IH] using cls_ind'. intros l. cbn [mro].
  destruct (all_some (map mro bases)) as [ls|] eqn:A; [|discriminate].
  destruct (merge _ _) as [l0|] eqn:M; [|discriminate]. intros E. injection E as <-.
  apply all_some_in in A. destruct A as [A1 A2]. apply merge_spec in M.
  destruct M as [M1 M2]. rewrite Forall_forall in IH. split.
  - intros x [<-|Ix]; [constructor|].
    destruct (M1 _ Ix) as (l' & I1 & I2). apply in_app_iff in I1.
    destruct I1 as [I1|[<-|[]]].
    + apply A1 in I1. apply in_map_iff in I1. destruct I1 as (b & E & Ib).
      econstructor; [exact Ib|]. now apply (IH b Ib l' E).
    + econstructor; [exact I2|constructor].
  - intros x X. inversion X as [c0 E1 E2|c0 b x0 Ib X0 E1 E2]; subst.
    + exists (Cls i bases own). simpl. auto.
    + simpl in Ib. destruct (A2 (mro b)) as (lb & Eb & Il); [now apply in_map|].
      destruct (IH b Ib lb Eb) as [_ IH2]. destruct (IH2 x X0) as (y & Iy & Ey).
      destruct (M2 lb y) as (z & Iz & Ez); auto.
      { apply in_app_iff. now left. }
      exists z. split; [right; auto|congruence].
Qed.

Lemma candidate_line (b : cls I) r : ~ In (c_id b) (map c_id r) ->
  candidate [b :: r; [b]] = Some b.
Proof.
  intros N. unfold candidate. simpl. unfold good. simpl.
  assert (X : existsb (same b) r = false).
  { apply not_true_iff_false. intros E. apply existsb_exists in E.
    destruct E as (x & Ix & E). apply Nat.eqb_eq in E. apply N. rewrite E.
    now apply in_map. }
  rewrite X. reflexivity.
Qed.

Lemma candidate_single (x : cls I) r : ~ In (c_id x) (map c_id r) ->
  candidate [x :: r; []] = Some x.
Proof.
  intros N. unfold candidate. simpl. unfold good. simpl.
  assert (X : existsb (same x) r = false).
  { apply not_true_iff_false. intros E. apply existsb_exists in E.
    destruct E as (y & Iy & E). apply Nat.eqb_eq in E. apply N. rewrite E.
    now apply in_map. }
  rewrite X. reflexivity.
Qed.

Lemma merge_single r : forall n, List.length r <= n -> NoDup (map c_id r) ->
  merge (I := I) n [r; []] = Some r.
Proof.
  induction r as [|x r IH]; intros n L N; destruct n as [|n]; simpl in L |- *; try lia; auto.
  inversion N as [|? ? N1 N2]; subst. rewrite (candidate_single x r) by auto.
  unfold same. rewrite Nat.eqb_refl. simpl.
  rewrite IH by (auto; lia). reflexivity.
Qed.

Lemma mro_line (c : cls I) : forall l, line c = Some l -> NoDup (map c_id l) -> mro c = Some l.
Proof.
  induction c as [i bases own IH] using cls_ind'. intros l.
  destruct bases as [|b [|b2 bases]]; cbn [line]; [| |discriminate].
  - intros E _. injection E as <-. reflexivity.
  - destruct (line b) as [lb|] eqn:E; [|discriminate]. intros X N. injection X as <-.
    apply Forall_inv in IH. simpl in N. inversion N as [|? ? N1 N2]; subst.
    specialize (IH lb E N2). cbn [mro map all_some]. rewrite IH.
    cbn [all_some option_map].
    assert (exists r, lb = b :: r) as (r & ->).
    { destruct b as [j [|b1 [|]] o]; cbn [line] in E; try discriminate.
      - injection E as <-. eauto.
      - destruct (line b1); [|discriminate]. injection E as <-. eauto. }
    simpl in N2. inversion N2 as [|? ? N3 N4]; subst. simpl.
    rewrite app_nil_r. rewrite candidate_line by auto. simpl. unfold same.
    rewrite Nat.eqb_refl.
    rewrite (merge_single r) by (auto; lia). reflexivity.
Qed.
End Merge.

Lemma first_value_some {V} k (l : list (cls (item V))) v :
  first_value k l = Some v -> exists x, In x l /\ body_value k (c_own x) = Some v.
Proof.
  induction l as [|c l IH]; simpl; [discriminate|].
  destruct (body_value k (c_own c)) eqn:B.
  - intros E. injection E as ->. eauto.
  - intros E. destruct (IH E) as (x & I & X). eauto.
Qed.

Lemma first_value_none {V} k (l : list (cls (item V))) :
  first_value k l = None -> forall x, In x l -> body_value k (c_own x) = None.
Proof.
  induction l as [|c l IH]; simpl; [contradiction|].
  destruct (body_value k (c_own c)) eqn:B; [discriminate|].
  intros E x [<-|I]; auto.
Qed.

Lemma defaults_agree {V} (c : cls (item V)) l k :
  coherent c -> mro c = Some l ->
  (forall x y v w, ancestor c x -> ancestor c y ->
     body_value k (c_own x) = Some v -> body_value k (c_own y) = Some w -> v = w) ->
  dget k (defaults c) = first_value k l.
Proof.
  intros CO M U. destruct (mro_spec c l M) as [A B].
  destruct (first_value k l) as [v|] eqn:F.
  - apply first_value_some in F. destruct F as (x & Ix & X).
    destruct (dget k (defaults c)) as [w|] eqn:D.
    + destruct (defaults_origin c k w D) as (y & Ay & Y).
      f_equal. apply (U y x w v); auto.
    + exfalso. eapply defaults_defined; eauto.
  - destruct (dget k (defaults c)) as [w|] eqn:D; auto.
    destruct (defaults_origin c k w D) as (y & Ay & Y).
    destruct (B y Ay) as (z & Iz & Ez). apply CO in Ez; auto. subst z.
    rewrite (first_value_none k l F y Iz) in Y. discriminate.
Qed.

Lemma defaults_line {V} (c : cls (item V)) k : forall l, line c = Some l ->
  dget k (defaults c) = first_value k l.
Proof.
  induction c as [i bases own IH] using cls_ind'. intros l.
  destruct bases as [|b [|b2 bases]]; cbn [line]; [| |discriminate]; rewrite defaults_get.
  - intros E. injection E as <-. simpl. destruct (body_value k own); auto.
  - destruct (line b) as [lb|] eqn:L; [|discriminate]. intros E. injection E as <-. simpl.
    destruct (body_value k own); auto. apply Forall_inv in IH. now apply IH.
Qed.

Lemma defaults_single {V} (c : cls (item V)) k l : line c = Some l -> NoDup (map c_id l) ->
  mro c = Some l /\ dget k (defaults c) = first_value k l.
Proof. intros L N. split; [now apply mro_line|now apply defaults_line]. Qed.

(** * Attributes *)
Section Init.
Context {C : Type}.
Variable class_attr : string -> option val.
Variable model_attr : string -> val.
Variable read_only : string -> bool.

Lemma setattr_get d k v d' k' : setattr read_only d k v = Some d' ->
  dget k' d' = if eqb k' k then Some v else dget k' d.
Proof.
  unfold setattr. destruct (read_only k); [discriminate|]. intros E. injection E as <-.
  apply dget_set.
Qed.

Lemma from_model_get ks : forall d d' k, from_model model_attr read_only ks d = Some d' ->
  dget k d' = if existsb (eqb k) ks && negb (is_VNone (model_attr k))
              then Some (model_attr k) else dget k d.
Proof.
  induction ks as [|k1 ks IH]; intros d d' k; simpl.
  - intros E. injection E as <-. reflexivity.
  - destruct (is_VNone (model_attr k1)) eqn:N.
    + intros E. rewrite (IH _ _ _ E). destruct (eqb k k1) eqn:K; simpl; auto.
      apply eqb_eq in K. subst. rewrite N. simpl. now rewrite andb_false_r.
    + destruct (setattr _ d k1 _) as [d1|] eqn:S; [|discriminate].
      intros E. rewrite (IH _ _ _ E). rewrite (setattr_get _ _ _ _ k S).
      destruct (eqb k k1) eqn:K; simpl; auto.
      apply eqb_eq in K. subst. rewrite N. simpl.
      rewrite andb_true_r. destruct (existsb _ ks); auto.
Qed.

Lemma from_kwargs_get kw : forall d d' k, dwf kw -> from_kwargs read_only kw d = Some d' ->
  dget k d' = match dget k kw with Some v => Some v | None => dget k d end.
Proof.
  induction kw as [|[k1 v1] kw IH]; intros d d' k N; simpl.
  - intros E. injection E as <-. reflexivity.
  - destruct (setattr _ d k1 v1) as [d1|] eqn:S; [|discriminate]. intros E.
    inversion N as [|? ? N1 N2]; subst.
    rewrite (IH _ _ _ N2 E). rewrite (setattr_get _ _ _ _ k S).
    destruct (eqb k k1) eqn:K; auto. apply eqb_eq in K. subst.
    apply dget_none in N1. now rewrite N1.
Qed.

(** References are valid. *)
Definition valid (h : list C) (ds : dict string val) : Prop :=
  forall k l, In (k, VRef l) ds -> l < List.length h.

Lemma deepcopy_spec (h : list C) v h' v' : deepcopy h v = (h', v') ->
  (forall l, v = VRef l -> l < List.length h) ->
  (exists t, h' = h ++ t) /\ fresh_copy h h' v v' /\ is_VNone v' = is_VNone v /\
  (forall l, v' = VRef l -> List.length h <= l < List.length h').
Proof.
  unfold deepcopy. intros E VA. destruct v as [|z|l].
  - injection E as <- <-. repeat split; auto; try discriminate. exists []. now rewrite app_nil_r.
  - injection E as <- <-. repeat split; auto; try discriminate. exists []. now rewrite app_nil_r.
  - specialize (VA l eq_refl). destruct (nth_error h l) as [c|] eqn:Nth.
    + injection E as <- <-. repeat split; eauto.
      * simpl. exists (List.length h). repeat split; auto.
        rewrite Nth. rewrite nth_error_app2 by lia. now rewrite Nat.sub_diag.
      * injection H as <-. auto.
      * injection H as <-. rewrite app_length. simpl. lia.
    + apply nth_error_None in Nth. lia.
Qed.

Lemma fresh_copy_mono (h0 h h1 h2 : list C) t v v' : h2 = h1 ++ t -> 
  (exists t0, h = h0 ++ t0) -> (forall l, v = VRef l -> l < List.length h0) ->
  (forall l, v' = VRef l -> l < List.length h1) ->
  fresh_copy h h1 v v' -> fresh_copy h0 h2 v v'.
Proof.
  intros -> (t0 & ->) VA V1. destruct v as [|z|l]; simpl; auto.
  intros (l' & -> & L & E). exists l'. specialize (V1 l' eq_refl).
  specialize (VA l eq_refl). rewrite app_length in L. repeat split; auto; [lia|].
  rewrite nth_error_app1 by auto. rewrite E. now rewrite nth_error_app1.
Qed.

(** Every reference is valid, and an object that is the value of two attributes is an
    old one. *)
Definition apart (n : nat) (d : dict string val) (h : list C) : Prop :=
  (forall k l, dget k d = Some (VRef l) -> l < List.length h) /\
  (forall k1 k2 l, k1 <> k2 -> dget k1 d = Some (VRef l) -> dget k2 d = Some (VRef l) -> l < n).

Lemma apart_set n d h k v h' v' d' : apart n d h -> n <= List.length h ->
  deepcopy h v = (h', v') -> (forall l, v = VRef l -> l < List.length h) ->
  setattr read_only d k v' = Some d' -> apart n d' h'.
Proof.
  intros [A B] L DC VA S. destruct (deepcopy_spec h v h' v' DC VA) as ((t & ->) & _ & _ & LR).
  split.
  - intros k1 l E. rewrite (setattr_get _ _ _ _ k1 S) in E. destruct (eqb k1 k).
    + injection E as ->. now apply LR.
    + apply A in E. rewrite app_length. lia.
  - intros k1 k2 l NE E1 E2. rewrite (setattr_get _ _ _ _ k1 S) in E1.
    rewrite (setattr_get _ _ _ _ k2 S) in E2.
    destruct (eqb k1 k) eqn:K1, (eqb k2 k) eqn:K2.
    + apply eqb_eq in K1. apply eqb_eq in K2. congruence.
    + injection E1 as ->. destruct (LR l eq_refl). apply A in E2. lia.
    + injection E2 as ->. destruct (LR l eq_refl). apply A in E1. lia.
    + eauto.
Qed.

Lemma from_defaults_apart n ds : forall d h d' h',
  from_defaults class_attr read_only ds d h = Some (d', h') -> valid h ds ->
  n <= List.length h -> apart n d h -> apart n d' h'.
Proof.
  induction ds as [|[k0 v0] ds IH]; intros d h d' h' E VA L A; simpl in E.
  - injection E as <- <-. auto.
  - assert (VA2 : valid h ds) by (intros k l I; apply (VA k l); right; auto).
    destruct (match lookup class_attr d k0 with Some v => is_VNone v | None => true end).
    + destruct (deepcopy h v0) as [h1 v1] eqn:DC.
      destruct (setattr read_only d k0 v1) as [d1|] eqn:S; [|discriminate].
      assert (V0 : forall l, v0 = VRef l -> l < List.length h).
      { intros l ->. apply (VA k0 l). now left. }
      destruct (deepcopy_spec h v0 h1 v1 DC V0) as ((t & ->) & _).
      eapply IH; eauto.
      * intros k l I. specialize (VA2 k l I). rewrite app_length. lia.
      * rewrite app_length. lia.
      * eapply apart_set; eauto.
    + eapply IH; eauto.
Qed.

(** Is the attribute still to be set from the class default? *)
Definition unset (d : dict string val) (k : string) : bool :=
  match lookup class_attr d k with None => true | Some v => is_VNone v end.

Lemma from_defaults_get ds : forall d h d' h',
  from_defaults class_attr read_only ds d h = Some (d', h') -> dwf ds -> valid h ds ->
  (exists t, h' = h ++ t) /\
  (forall k, dget k ds = None -> dget k d' = dget k d) /\
  (forall k v, dget k ds = Some v -> unset d k = false -> dget k d' = dget k d) /\
  (forall k v, dget k ds = Some v -> unset d k = true ->
     exists v', dget k d' = Some v' /\ fresh_copy h h' v v').
Proof.
  induction ds as [|[k0 v0] ds IH]; intros d h d' h' E N VA; simpl in E.
  - injection E as <- <-. split; [exists []; now rewrite app_nil_r|].
    split; [auto|]. split; intros k v X; discriminate.
  - inversion N as [|? ? N1 N2]; subst.
    assert (VA2 : valid h ds) by (intros k l I; apply (VA k l); right; auto).
    assert (K0 : dget k0 ds = None) by now apply dget_none.
    assert (V0 : forall l, v0 = VRef l -> l < List.length h).
    { intros l ->. apply (VA k0 l). now left. }
    fold (unset d k0) in E. destruct (unset d k0) eqn:U0.
    + destruct (deepcopy h v0) as [h1 v1] eqn:DC.
      destruct (setattr read_only d k0 v1) as [d1|] eqn:S; [|discriminate].
      destruct (deepcopy_spec h v0 h1 v1 DC V0) as ((t1 & ->) & FC & _ & LR).
      assert (VA3 : valid (h ++ t1) ds).
      { intros k l I. specialize (VA2 k l I). rewrite app_length. lia. }
      destruct (IH _ _ _ _ E N2 VA3) as ((t2 & ->) & G1 & G2 & G3).
      assert (O : forall k, k <> k0 -> dget k d1 = dget k d /\ unset d1 k = unset d k).
      { intros k NE. unfold unset, lookup. rewrite (setattr_get _ _ _ _ k S).
        apply eqb_neq in NE. rewrite NE. auto. }
      split; [exists (t1 ++ t2); now rewrite app_assoc|]. repeat split.
      * intros k. simpl. destruct (eqb k k0) eqn:K; [discriminate|].
        intros X. rewrite G1 by auto. apply O. now apply eqb_neq.
      * intros k v. simpl. destruct (eqb k k0) eqn:K.
        -- apply eqb_eq in K. subst. congruence.
        -- apply eqb_neq in K. destruct (O k K) as [O1 O2].
           intros X U. rewrite (G2 k v X) by congruence. auto.
      * intros k v. simpl. destruct (eqb k k0) eqn:K.
        -- apply eqb_eq in K. subst k. intros X _. injection X as <-. exists v1. split.
           ++ rewrite G1 by auto. rewrite (setattr_get _ _ _ _ k0 S), eqb_refl. auto.
           ++ eapply (fresh_copy_mono h h (h ++ t1)); eauto.
              ** exists []. now rewrite app_nil_r.
              ** intros l Hl. now apply LR.
        -- apply eqb_neq in K. destruct (O k K) as [O1 O2].
           intros X U. destruct (G3 k v X) as (v' & E1 & F1); [congruence|].
           exists v'. split; auto.
           destruct v as [|z|l]; simpl in *; auto. destruct F1 as (l' & -> & L1 & L2).
           exists l'. rewrite app_length in L1. repeat split; auto; [lia|].
           rewrite L2. rewrite nth_error_app1; auto. apply dget_in in X. eauto.
    + destruct (IH _ _ _ _ E N2 VA2) as (T & G1 & G2 & G3). repeat split; auto.
      * intros k. simpl. destruct (eqb k k0) eqn:K; [discriminate|auto].
      * intros k v. simpl. destruct (eqb k k0) eqn:K; [|eauto].
        apply eqb_eq in K. subst. auto.
      * intros k v. simpl. destruct (eqb k k0) eqn:K; [|eauto].
        apply eqb_eq in K. subst. congruence.
Qed.

Lemma init_attributes ds unique_id model name logger kw (h : list C) d h' :
  base_init class_attr model_attr read_only ds unique_id model name logger kw h = Some (d, h') ->
  dwf ds -> dwf kw -> valid h ds ->
  (exists t, h' = h ++ t) /\
  (forall k v, dget k kw = Some v -> dget k d = Some v) /\
  (forall k dv, dget k kw = None -> dget k ds = Some dv -> model_attr k <> VNone ->
     dget k d = Some (model_attr k)) /\
  (forall k dv, dget k kw = None -> dget k ds = Some dv -> model_attr k = VNone ->
     ~ In k reserved -> class_attr k = None ->
     exists v, dget k d = Some v /\ fresh_copy h h' dv v) /\
  (forall k, dget k kw = None -> dget k ds = None -> dget k d <> None -> In k preset).
Proof.
  intros E N1 N2 VA. unfold base_init in E.
  set (d0 := [_; _; _; _; _; _]) in E.
  destruct (from_model _ _ _ d0) as [d1|] eqn:E1; [|discriminate].
  destruct (from_defaults _ _ _ _ _) as [[d2 h2]|] eqn:E2; [|discriminate].
  destruct (from_kwargs _ kw d2) as [d3|] eqn:E3; [|discriminate]. injection E as -> ->.
  pose proof (fun k => from_model_get _ _ _ k E1) as M.
  destruct (from_defaults_get _ _ _ _ _ E2 N1 VA) as (T & G1 & G2 & G3).
  pose proof (fun k => from_kwargs_get _ _ _ k N2 E3) as KW. clear E1 E2 E3.
  assert (IN : forall k dv, dget k ds = Some dv -> existsb (eqb k) (dkeys ds) = true).
  { intros k dv X. apply existsb_exists. exists k. split; [|apply eqb_refl].
    apply dget_in in X. apply (in_map fst) in X. exact X. }
  assert (OUT : forall k, dget k ds = None -> existsb (eqb k) (dkeys ds) = false).
  { intros k X. apply not_true_iff_false. intros Y. apply existsb_exists in Y.
    destruct Y as (k' & I1 & I2). apply eqb_eq in I2. subst.
    now apply dget_none in X. }
  split; auto. repeat split.
  - intros k v X. now rewrite KW, X.
  - intros k dv X Y Z. rewrite KW, X.
    assert (NN : is_VNone (model_attr k) = false) by now destruct (model_attr k).
    rewrite (G2 k dv Y).
    + rewrite M, (IN k dv Y), NN. reflexivity.
    + unfold unset, lookup. rewrite M, (IN k dv Y), NN. simpl. auto.
  - intros k dv X Y Z R CA. rewrite KW, X. apply G3; auto.
    unfold unset, lookup. rewrite M, Z, (IN k dv Y). cbn [is_VNone andb negb].
    rewrite CA. unfold d0. cbn [dget].
    destruct (eqb k "unique_id"%string) eqn:K1; [apply eqb_eq in K1; subst; exfalso; apply R; simpl; tauto|].
    destruct (eqb k "model"%string) eqn:K2; [apply eqb_eq in K2; subst; exfalso; apply R; simpl; tauto|].
    destruct (eqb k "pos"%string) eqn:K3; [reflexivity|].
    destruct (eqb k "name"%string) eqn:K4; [apply eqb_eq in K4; subst; exfalso; apply R; simpl; tauto|].
    destruct (eqb k "alive"%string) eqn:K5; [apply eqb_eq in K5; subst; exfalso; apply R; simpl; tauto|].
    destruct (eqb k "logger"%string) eqn:K6; [apply eqb_eq in K6; subst; exfalso; apply R; simpl; tauto|].
    reflexivity.
  - intros k X Y. rewrite KW, X, (G1 k Y), M, (OUT k Y). cbn [andb]. unfold d0. cbn [dget].
    destruct (eqb k "unique_id"%string) eqn:K1; [apply eqb_eq in K1; subst; simpl; tauto|].
    destruct (eqb k "model"%string) eqn:K2; [apply eqb_eq in K2; subst; simpl; tauto|].
    destruct (eqb k "pos"%string) eqn:K3; [apply eqb_eq in K3; subst; simpl; tauto|].
    destruct (eqb k "name"%string) eqn:K4; [apply eqb_eq in K4; subst; simpl; tauto|].
    destruct (eqb k "alive"%string) eqn:K5; [apply eqb_eq in K5; subst; simpl; tauto|].
    destruct (eqb k "logger"%string) eqn:K6; [apply eqb_eq in K6; subst; simpl; tauto|].
    congruence.
Qed.

(** No two attributes share a copy. *)
Lemma init_no_sharing ds unique_id model name logger (h : list C) d h' :
  base_init class_attr model_attr read_only ds unique_id model name logger [] h = Some (d, h') ->
  valid h ds ->
  (forall v, In v [unique_id; model; name; logger] -> forall l, v = VRef l -> l < List.length h) ->
  (forall k l, model_attr k = VRef l -> l < List.length h) ->
  (forall k l, dget k d = Some (VRef l) -> l < List.length h') /\
  forall k1 k2 l, k1 <> k2 -> dget k1 d = Some (VRef l) -> dget k2 d = Some (VRef l) ->
    l < List.length h.
Proof.
  intros E VA P MA. unfold base_init in E.
  set (d0 := [_; _; _; _; _; _]) in E.
  destruct (from_model _ _ _ d0) as [d1|] eqn:E1; [|discriminate].
  destruct (from_defaults _ _ _ _ _) as [[d2 h2]|] eqn:E2; [|discriminate].
  cbn [from_kwargs] in E. injection E as -> ->.
  pose proof (fun k => from_model_get _ _ _ k E1) as M.
  apply (from_defaults_apart (List.length h)) in E2; auto.
  assert (R : forall k l, dget k d1 = Some (VRef l) -> l < List.length h).
  { intros k l. rewrite M. destruct (existsb _ _ && _).
    - intros X. injection X as X. now apply (MA k).
    - unfold d0. cbn [dget].
      repeat match goal with |- context [if ?b then _ else _] => destruct b end;
        intros X; try discriminate; injection X as X; eapply P; eauto; simpl; tauto. }
  split; eauto.
Qed.
Lemma from_defaults_keep ds : forall d (h : list C) d' h' k v,
  from_defaults class_attr read_only ds d h = Some (d', h') -> dget k d = Some v -> is_VNone v = false ->
  dget k d' = Some v.
Proof.
  induction ds as [|[k0 v0] ds IH]; intros d h d' h' k v E G N; cbn [from_defaults] in E.
  - now injection E as <- <-.
  - destruct (match lookup class_attr d k0 with None => true | Some v1 => is_VNone v1 end) eqn:M.
    + destruct (deepcopy h v0) as [h1 v1]. destruct (setattr read_only d k0 v1) as [d1|] eqn:S; [|discriminate].
      eapply IH; eauto. rewrite (setattr_get _ _ _ _ k S). destruct (eqb k k0) eqn:K; auto.
      apply eqb_eq in K. subst. unfold lookup in M. rewrite G in M. congruence.
    + eapply IH; eauto.
Qed.
Lemma init_own ds unique_id model name logger kw (h : list C) d h' :
  base_init class_attr model_attr read_only ds unique_id model name logger kw h = Some (d, h') -> dwf kw ->
  forall k v, In (k, v) [("unique_id", unique_id); ("model", model); ("name", name); ("alive", VAtom 1); ("logger", logger)]%string ->
  v <> VNone -> dget k kw = None -> dget k ds = None \/ model_attr k = VNone -> dget k d = Some v.
Proof.
  unfold base_init. intros E W k v I N K M.
  destruct (from_model _ _ _ _) as [d1|] eqn:E1; [|discriminate].
  destruct (from_defaults _ _ _ _ _) as [[d2 h2]|] eqn:E2; [|discriminate].
  destruct (from_kwargs _ _ _) as [d3|] eqn:E3; [|discriminate]. injection E as <- <-.
  rewrite (from_kwargs_get _ _ _ k W E3), K.
  eapply from_defaults_keep; [exact E2| |destruct v; auto; congruence].
  rewrite (from_model_get _ _ _ k E1).
  replace (existsb (eqb k) (dkeys ds) && negb (is_VNone (model_attr k))) with false.
  - cbn in I. repeat (destruct I as [I|I]; [injection I as <- <-; reflexivity|]). destruct I.
  - symmetry. destruct M as [M|M]; [|rewrite M; apply andb_false_r].
    apply andb_false_iff. left. apply not_true_is_false. intros X. apply existsb_exists in X as (y & Y & X).
    apply eqb_eq in X. subst. apply dget_none in M. contradiction.
Qed.
End Init.

(** * prob *)
Ltac nums :=
  unfold prob, n_leb in *; simpl in *; rewrite ?orb_true_iff, ?orb_false_iff in *;
  rewrite ?Z.ltb_lt, ?Z.ltb_ge, ?Z.eqb_eq, ?Z.eqb_neq in *; try tauto; try discriminate; try lia.

Lemma prob_low draw p : n_leb (Fin 0) draw = true ->
  n_leb p (Fin 0) = true -> prob draw p = false.
Proof. destruct draw, p; intros A B; nums. Qed.

Lemma prob_high draw p one : n_ltb draw one = true ->
  n_leb one p = true -> prob draw p = true.
Proof. destruct draw, p, one; intros A B; nums. Qed.

Lemma prob_mono draw p q : n_leb p q = true -> prob draw p = true -> prob draw q = true.
Proof. destruct draw, p, q; intros A B; nums. Qed.
