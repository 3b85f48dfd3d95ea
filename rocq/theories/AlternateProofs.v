(** Proofs about agents with the same period, without shuffling. *)
From Coq Require Import ZArith List Bool Arith Permutation Lia Sorted.
From Verif Require Import Num TimedModel TimedSpec TimedProofs TurnSpec TurnProofs TraceProofs OrderSpec OrderProofs.
Import ListNotations.
#[local] Existing Instance exact.
Notation acts_of := TurnSpec.acts_of.

Lemma first_come_punctual di tr : forall ag, first_come di ag tr -> punctual di ag tr.
Proof.
  induction tr as [|[t a|t a o] tr IH]; simpl; intros ag F; auto.
  destruct F as [(l1&l2&->&_) F]. split; [apply in_or_app; right; left; auto|auto].
Qed.

Lemma acts_of_app a l1 l2 : acts_of a (l1 ++ l2) = acts_of a l1 ++ acts_of a l2.
Proof. apply flat_map_app. Qed.

(** Times of the events are in order. *)
Lemma run_hist_sorted W (u : user W) h : forward_only u -> forall s w s' w' tr,
  run_hist u h s w = (s', w', tr) -> winv s ->
  Forall (fun e => n_leb (s_time s) (ev_time e) = true) tr /\
  StronglySorted (fun e f => n_leb (ev_time e) (ev_time f) = true) tr.
Proof.
  intros Hf. induction h as [|c h IH]; intros s w s' w' tr E H; cbn in E.
  - injection E as <- <- <-. repeat constructor.
  - destruct (run_cmd u s w c) as [[s1 w1] tr1] eqn:E1. destruct (run_hist u h s1 w1) as [[s2 w2] tr2] eqn:E2.
    injection E as <- <- <-. destruct (run_cmd_winv u Hf _ _ _ _ _ _ E1 H) as (H1 & L1 & _).
    destruct (IH _ _ _ _ _ E2 H1) as [F2 S2].
    pose proof (run_cmd_clock u _ _ _ _ _ _ E1) as C1.
    assert (is_time (s_time s) = true) as T by apply nonneg_is_time, H.
    assert (Forall (fun e => n_leb (s_time s) (ev_time e) = true) tr2) as F2'.
    { eapply Forall_impl; [|exact F2]. intros e L. eapply n_leb_trans; eauto. }
    split.
    + apply Forall_app. split; auto. eapply Forall_impl; [|exact C1]. cbn. intros e ->. now apply n_leb_refl.
    + clear E1. induction tr1 as [|e tr1 IHt]; cbn; auto. inversion C1 as [|? ? C2 C3]; subst.
      constructor; auto. apply Forall_app. split.
      * eapply Forall_impl; [|exact C3]. cbn. intros f ->. rewrite C2. now apply n_leb_refl.
      * rewrite C2. exact F2'.
Qed.

(** Where an appointment comes from. *)
Lemma agenda_origin di s b tr : forall ag, In (s, b) (agenda di ag tr) ->
  In (s, b) ag \/ In (EvAdd s b) tr \/ exists y o, In (EvAct y b o) tr /\ next_due di y o = Some s.
Proof.
  induction tr as [|[t a|t a o] tr IH]; simpl; intros ag I; auto.
  - destruct (IH _ I) as [J|[J|(y&o&J&K)]]; auto.
    + apply in_app_or in J. destruct J as [J|[J|[]]]; auto. injection J as -> ->. auto.
    + right; right. exists y, o. auto.
  - destruct (IH _ I) as [J|[J|(y&o'&J&K)]]; auto.
    + apply in_app_or in J. destruct J as [J|J]; [left; eapply remove1_incl; eauto|].
      destruct (next_due di t o) as [t'|] eqn:E; [|contradiction].
      destruct J as [J|[]]. injection J as -> ->. right; right. exists t, o. auto.
    + right; right. exists y, o'. auto.
Qed.

Lemma paced_table di d b t0 tr pend : timetable di b t0 tr pend -> paced di d b tr -> forall z, t0 = Fin z ->
  exists n, acts_of b tr = map (fun k => Fin (z + Z.of_nat k * d)) (seq 0 n) /\ pend = Some (Fin (z + Z.of_nat n * d)).
Proof.
  intros T. induction T as [due|due o N|due o due' tr pend N T IH]; intros P z ->.
  - exists 0. cbn. rewrite Z.add_0_r. auto.
  - rewrite (P (Fin z) o (or_introl eq_refl)) in N. discriminate.
  - rewrite (P (Fin z) o (or_introl eq_refl)) in N. injection N as <-.
    destruct (IH (fun t o' I => P t o' (or_intror I)) (z + d)%Z eq_refl) as (n & A & Q).
    exists (S n). split.
    + cbn [acts_of flat_map seq map]. rewrite Nat.eqb_refl. cbn [app]. fold (acts_of b tr). rewrite A. f_equal; [f_equal; lia|].
      rewrite <- seq_shift, map_map. apply map_ext. intros k. f_equal. lia.
    + rewrite Q. do 2 f_equal. lia.
Qed.
Lemma paced_pend di d b t0 tr pend : timetable di b t0 tr pend -> paced di d b tr -> exists s, pend = Some s.
Proof.
  intros T. induction T as [due|due o N|due o due' tr pend N T IH]; intros P.
  - eauto.
  - rewrite (P due o (or_introl eq_refl)) in N. discriminate.
  - apply IH. intros t o' I. apply (P t o'). now right.
Qed.

Lemma due_of_in' b t ag : In t (due_of b ag) -> In (t, b) ag.
Proof.
  unfold due_of. rewrite in_map_iff. intros ([t1 c] & <- & I). apply filter_In in I. destruct I as [I J].
  cbn in J. apply Nat.eqb_eq in J. subst c. exact I.
Qed.

Lemma timetable_starts di b t0 tr pend t o : timetable di b t0 tr pend -> In (EvAct t b o) tr -> is_time t0 = true ->
  (forall x y x', In (EvAct x b y) tr -> next_due di x y = Some x' -> n_leb x x' = true) -> n_leb t0 t = true.
Proof.
  intros T. induction T as [due|due o' N|due o' due' tr pend N T IH]; intros I T0 M.
  - destruct I.
  - destruct I as [I|[]]. injection I as -> ->. now apply n_leb_refl.
  - assert (L : n_leb due due' = true) by (apply (M due o'); [left; reflexivity|exact N]).
    destruct I as [I|I]; [injection I as -> ->; now apply n_leb_refl|].
    eapply n_leb_trans; [exact L|]. apply IH; auto.
    + eapply n_leb_is_time; eauto.
    + intros x y x' J. apply M. now right.
Qed.

Section Two.
Variables (di : num) (d : Z) (a b : aid) (tr1 m m' : list ev) (z : Z) (oa oa' : outcome).
Hypothesis di_ok : nonneg di = true.
Hypothesis d_pos : (0 < d)%Z.
Hypothesis a_b : a <> b.
Let tr := tr1 ++ EvAct (Fin z) a oa :: m ++ EvAct (Fin (z + d)) a oa' :: m'.
Hypothesis first : first_come di [] tr.
Hypothesis okay : Forall ev_ok tr.
Hypothesis sorted : StronglySorted (fun e f => n_leb (ev_time e) (ev_time f) = true) tr.
Hypothesis once_a : adds_of a tr1 = 1.
Hypothesis once_b : adds_of b tr1 = 1.
Hypothesis once_b' : adds_of b m = 0.
Hypothesis asks_a : next_due di (Fin z) oa = Some (Fin (z + d)).
Hypothesis asks_b : paced di d b (tr1 ++ m).
Hypothesis between : acts_of a m = [].

Let ag1 := agenda di [] tr1.
Let ag2 := remove1 (Fin z, a) ag1 ++ [(Fin (z + d), a)].

Lemma adds_in l e : In e l -> ev_ok e -> forall t c, e = EvAdd t c -> is_time t = true.
Proof. intros _ O t c ->. exact O. Qed.

Lemma alternate : exists x, acts_of b m = [x].
Proof.
  pose proof first as F. unfold tr in F. apply first_come_app in F. destruct F as [F1 F2].
  fold ag1 in F2. cbn [first_come] in F2. destruct F2 as [(l1 & l2 & EA & L1 & L2) F2].
  rewrite asks_a in F2. cbn [opt_due] in F2. fold ag2 in F2.
  pose proof F2 as F3. apply first_come_app in F3. destruct F3 as [Fm F3].
  cbn [first_come] in F3. destruct F3 as [(k1 & k2 & EB & K1 & K2) _].
  pose proof okay as OK. unfold tr in OK. apply Forall_app in OK. destruct OK as [OK1 OK2].
  inversion OK2 as [|? ? OKa OK3]; subst. apply Forall_app in OK3. destruct OK3 as [OKm _].
  assert (times_ok ag1) as T1 by (apply agenda_times; auto; constructor).
  assert (times_ok ag2) as T2.
  { apply Forall_app. split; [apply remove1_times; exact T1|]. repeat constructor. }
  assert (forall l, Forall ev_ok l -> forall t c, In (EvAdd t c) l -> is_time t = true) as HA.
  { intros l O t c I. rewrite Forall_forall in O. exact (O _ I). }
  assert (forall l, Forall ev_ok l -> forall t c o t', In (EvAct t c o) l -> next_due di t o = Some t' -> is_time t' = true) as HN.
  { intros l O t c o t' I E. rewrite Forall_forall in O. eapply evok_next_due; [exact di_ok|exact (O _ I)|exact E]. }
  (* b has one appointment after tr1 *)
  destruct (timetable_added di b tr1 [] (Forall_nil _) (first_come_punctual _ _ _ F1) eq_refl once_b (HA _ OK1) (HN _ OK1))
    as (t0 & rest & pend & FB & TB & DB). fold ag1 in DB.
  assert (paced di d b rest) as PR.
  { intros t o I. apply asks_b. apply in_or_app. left.
    assert (In (EvAct t b o) (filter (about b) tr1)) as J by (rewrite FB; right; exact I). apply filter_In in J. apply J. }
  destruct (paced_pend _ _ _ _ _ _ TB PR) as (s & ->).
  assert (In (s, b) ag1) as SB by (apply due_of_in'; rewrite DB; left; reflexivity).
  (* a has none but the one that is used *)
  destruct (timetable_added di a tr1 [] (Forall_nil _) (first_come_punctual _ _ _ F1) eq_refl once_a (HA _ OK1) (HN _ OK1))
    as (ta & resta & penda & _ & _ & DA). fold ag1 in DA.
  assert (due_of a ag1 = [Fin z]) as DA'.
  { assert (In (Fin z, a) ag1) as I by (rewrite EA; apply in_or_app; right; left; reflexivity).
    apply due_of_in in I. rewrite DA in I |- *. destruct penda as [x|]; [|contradiction]. destruct I as [->|[]]. reflexivity. }
  (* z <= s <= z + d *)
  assert (n_leb (Fin z) s = true) as Zs.
  { rewrite EA in SB. apply in_app_or in SB. destruct SB as [I|[I|I]].
    - apply n_ltb_leb. exact (L1 _ I).
    - congruence.
    - exact (L2 _ I). }
  assert (forall e, In e tr1 -> n_leb (ev_time e) (Fin z) = true) as BZ.
  { intros e I. clear -sorted I. unfold tr in sorted. induction tr1 as [|f l IH]; [contradiction|].
    cbn in sorted. inversion sorted as [|? ? S1 S2]; subst. destruct I as [<-|I]; [|apply IH; auto].
    rewrite Forall_forall in S2. apply (S2 (EvAct (Fin z) a oa)). apply in_or_app. right. left. reflexivity. }
  assert (exists zs, s = Fin zs /\ (z <= zs <= z + d)%Z) as (zs & -> & Hs).
  { destruct (agenda_origin di s b tr1 [] SB) as [[]|[I|(y & o & I & E)]].
    - specialize (BZ _ I). cbn in BZ. destruct s as [zs| | |]; try discriminate. exists zs. split; [reflexivity|].
      unfold n_leb in *. cbn in *. apply orb_true_iff in BZ, Zs. rewrite Z.ltb_lt, Z.eqb_eq in BZ, Zs. lia.
    - specialize (BZ _ I). cbn in BZ. rewrite (asks_b y o) in E by (apply in_or_app; left; exact I).
      injection E as <-. destruct y as [zy| | |]; cbn in *; try discriminate. exists (zy + d)%Z. split; [reflexivity|].
      unfold n_leb in *. cbn in *. apply orb_true_iff in BZ, Zs. rewrite Z.ltb_lt, Z.eqb_eq in BZ, Zs. lia. }
  assert (due_of b ag2 = [Fin zs]) as DB2.
  { unfold ag2. rewrite due_of_app, due_of_remove1_other by auto. rewrite DB. cbn. rewrite (proj2 (Nat.eqb_neq b a)); auto. }
  destruct (timetable_one di b m ag2 (Fin zs) T2 eq_refl (first_come_punctual _ _ _ Fm) DB2 once_b' (HA _ OKm) (HN _ OKm))
    as (pend & TM & DM).
  assert (paced di d b (filter (about b) m)) as PM.
  { intros t o I. apply filter_In in I. apply asks_b. apply in_or_app. right. apply I. }
  destruct (paced_table _ _ _ _ _ _ TM PM zs eq_refl) as (n & AM & ->). rewrite TurnProofs.acts_of_about in AM.
  assert (forall l, Forall ev_ok l -> Forall (fun e => match e with EvAdd t _ => is_time t = true | EvAct t _ o =>
     match next_due di t o with Some t' => is_time t' = true | None => True end end) l) as HF.
  { intros l O. eapply Forall_impl; [|exact O]. intros [t1 c|t1 c o1] V; [exact V|].
    destruct (next_due di t1 o1) as [t'|] eqn:ND; auto. exact (evok_next_due di t1 c o1 t' di_ok V ND). }
  destruct n as [|[|n]].
  - (* b would have been overtaken *)
    exfalso. cbn [Z.of_nat Z.mul] in DM. rewrite Z.add_0_r in DM.
    assert (In (Fin zs, b) (agenda di ag2 m)) as I by (apply due_of_in'; rewrite DM; left; reflexivity).
    assert (zs = z + d)%Z as ->.
    { assert (n_leb (Fin (z + d)) (Fin zs) = true) as L.
      { rewrite EB in I. apply in_app_or in I. destruct I as [I|[I|I]].
        - apply n_ltb_leb. exact (K1 _ I).
        - congruence.
        - exact (K2 _ I). }
      unfold n_leb in L. cbn in L. apply orb_true_iff in L. rewrite Z.ltb_lt, Z.eqb_eq in L. lia. }
    destruct (in_split _ _ SB) as (p1 & p2 & EP).
    destruct (no_overtaking_spec di (Fin (z + d)) b a (EvAct (Fin z) a oa :: m) ag1 p1 p2 oa' m' T1 (HF _ (Forall_cons _ OKa OKm))) as (o' & J); auto.
    + cbn [app first_come]. split; [exists l1, l2; auto|]. rewrite asks_a. exact F2.
    + intros J. assert (In (Fin (z + d), a) ag1) as J' by (rewrite EP; apply in_or_app; left; exact J).
      apply due_of_in in J'. rewrite DA' in J'. destruct J' as [J'|[]]. injection J' as J'. lia.
    + destruct J as [J|J]; [congruence|].
      assert (In (Fin (z + d)) (acts_of b m)) as X.
      { unfold acts_of. apply in_flat_map. exists (EvAct (Fin (z + d)) b o'). split; [exact J|]. rewrite Nat.eqb_refl. left. reflexivity. }
      rewrite AM in X. exact X.
  - exists (Fin (zs + Z.of_nat 0 * d)). exact AM.
  - (* b would have overtaken *)
    exfalso.
    assert (In (Fin (zs + d)) (acts_of b m)) as X.
    { rewrite AM. apply in_map_iff. exists 1. split; [f_equal; lia|]. apply in_seq. lia. }
    apply TurnProofs.acts_of_in in X. destruct X as (o2 & X).
    assert (zs = z)%Z as ->.
    { assert (n_leb (Fin (zs + d)) (Fin (z + d)) = true) as L.
      { clear -sorted X. unfold tr in sorted. induction tr1 as [|f l IH].
        - cbn in sorted. inversion sorted as [|? ? S1 _]; subst. clear sorted. induction m as [|f l IH]; [contradiction|].
          cbn in S1. inversion S1 as [|? ? S2 S3]; subst. destruct X as [->|X]; [|apply IH; auto].
          rewrite Forall_forall in S3. apply (S3 (EvAct (Fin (z + d)) a oa')). apply in_or_app. right. left. reflexivity.
        - cbn in sorted. inversion sorted; subst. auto. }
      unfold n_leb in L. cbn in L. apply orb_true_iff in L. rewrite Z.ltb_lt, Z.eqb_eq in L. lia. }
    destruct (in_split _ _ X) as (m1 & m2 & EM).
    destruct (no_overtaking_spec di (Fin (z + d)) a b m1 ag2 (remove1 (Fin z, a) ag1) [] o2 (m2 ++ EvAct (Fin (z + d)) a oa' :: m') T2)
      as (o' & J); [|auto..| |].
    + apply HF. rewrite EM in OKm. apply Forall_app in OKm. apply OKm.
    + rewrite EM in F2. rewrite <- app_assoc in F2. exact F2.
    + intros J. apply remove1_incl, due_of_in in J. rewrite DB in J. destruct J as [J|[]]. injection J as J. lia.
    + assert (In (Fin (z + d)) (acts_of a m)) as Y.
      { unfold acts_of. apply in_flat_map. exists (EvAct (Fin (z + d)) a o'). split.
        - rewrite EM. apply in_or_app. left. exact J.
        - rewrite Nat.eqb_refl. left. reflexivity. }
      rewrite between in Y. exact Y.
Qed.
End Two.


(** With any shuffle. *)
Section Shuffled.
Variables (di : num) (d : Z) (a b : aid) (tr1 m m' : list ev) (z : Z) (oa oa' : outcome).
Hypothesis di_ok : nonneg di = true.
Hypothesis d_pos : (0 < d)%Z.
Hypothesis a_b : a <> b.
Let tr := tr1 ++ EvAct (Fin z) a oa :: m ++ EvAct (Fin (z + d)) a oa' :: m'.
Hypothesis prompt : punctual di [] tr.
Hypothesis okay : Forall ev_ok tr.
Hypothesis sorted : StronglySorted (fun e f => n_leb (ev_time e) (ev_time f) = true) tr.
Hypothesis once_b : adds_of b tr1 = 1.
Hypothesis once_b' : adds_of b m = 0.
Hypothesis asks_b : paced di d b (tr1 ++ m).

Lemma within e : In e m -> n_leb (Fin z) (ev_time e) = true /\ n_leb (ev_time e) (Fin (z + d)) = true.
Proof.
  clear -sorted. unfold tr in sorted. induction tr1 as [|f l IH]; cbn in sorted; inversion sorted as [|? ? S1 S2]; subst; auto.
  intros I. rewrite Forall_forall in S2. split; [apply (S2 e), in_or_app; now left|].
  clear sorted S2. induction m as [|f l IH]; [contradiction|].
  cbn in S1. inversion S1 as [|? ? S2 S3]; subst. destruct I as [->|I]; [|apply IH; auto].
  rewrite Forall_forall in S3. apply (S3 (EvAct (Fin (z + d)) a oa')). apply in_or_app. right. left. reflexivity.
Qed.

Lemma at_most_two : List.length (acts_of b m) <= 2.
Proof.
  pose proof prompt as F. unfold tr in F. apply punctual_app in F. destruct F as [F1 F2].
  cbn [punctual] in F2. destruct F2 as [_ F2]. apply punctual_app in F2. destruct F2 as [Fm _].
  pose proof okay as OK. unfold tr in OK. apply Forall_app in OK. destruct OK as [OK1 OK2].
  inversion OK2 as [|? ? OKa OK3]; subst. apply Forall_app in OK3. destruct OK3 as [OKm _].
  set (ag1 := agenda di [] tr1) in *.
  set (ag2 := remove1 (Fin z, a) ag1 ++ opt_due a (next_due di (Fin z) oa)) in *.
  assert (times_ok ag1) as T1 by (apply agenda_times; auto; constructor).
  assert (times_ok ag2) as T2.
  { apply Forall_app. split; [apply remove1_times; exact T1|].
    destruct (next_due di (Fin z) oa) as [t'|] eqn:E; constructor; auto. exact (evok_next_due di (Fin z) a oa t' di_ok OKa E). }
  assert (forall l, Forall ev_ok l -> forall t c, In (EvAdd t c) l -> is_time t = true) as HA.
  { intros l O t c I. rewrite Forall_forall in O. exact (O _ I). }
  assert (forall l, Forall ev_ok l -> forall t c o t', In (EvAct t c o) l -> next_due di t o = Some t' -> is_time t' = true) as HN.
  { intros l O t c o t' I E. rewrite Forall_forall in O. eapply evok_next_due; [exact di_ok|exact (O _ I)|exact E]. }
  destruct (timetable_added di b tr1 [] (Forall_nil _) F1 eq_refl once_b (HA _ OK1) (HN _ OK1))
    as (t0 & rest & pend & FB & TB & DB). fold ag1 in DB.
  assert (paced di d b rest) as PR.
  { intros t o I. apply asks_b. apply in_or_app. left.
    assert (In (EvAct t b o) (filter (about b) tr1)) as J by (rewrite FB; right; exact I). apply filter_In in J. apply J. }
  destruct (paced_pend _ _ _ _ _ _ TB PR) as (s & ->).
  assert (In (s, b) ag1) as SB by (apply due_of_in'; rewrite DB; left; reflexivity).
  assert (is_time s = true) as Ts by (unfold times_ok in T1; rewrite Forall_forall in T1; exact (T1 _ SB)).
  assert (due_of b ag2 = [s]) as DB2.
  { unfold ag2. rewrite due_of_app, due_of_remove1_other, opt_due_of by auto. rewrite DB.
    rewrite (proj2 (Nat.eqb_neq b a)); auto. }
  destruct (timetable_one di b m ag2 s T2 Ts Fm DB2 once_b' (HA _ OKm) (HN _ OKm)) as (pend & TM & _).
  assert (paced di d b (filter (about b) m)) as PM.
  { intros t o I. apply filter_In in I. apply asks_b. apply in_or_app. right. apply I. }
  rewrite <- TurnProofs.acts_of_about. destruct s as [zs| | |]; try discriminate.
  - destruct (paced_table _ _ _ _ _ _ TM PM zs eq_refl) as (n & AM & _).
    rewrite AM, map_length, seq_length. destruct (le_lt_dec n 2) as [L|L]; auto. exfalso. rewrite TurnProofs.acts_of_about in AM.
    assert (forall k, k < n -> (z <= zs + Z.of_nat k * d <= z + d)%Z) as B.
    { intros k K. assert (In (Fin (zs + Z.of_nat k * d)) (acts_of b m)) as X.
      { rewrite AM. apply in_map_iff. exists k. split; [reflexivity|]. apply in_seq. lia. }
      apply TurnProofs.acts_of_in in X. destruct X as (o & X). destruct (within _ X) as [W1 W2]. cbn [ev_time] in *.
      unfold n_leb in W1, W2. cbn in W1, W2. apply orb_true_iff in W1, W2. rewrite Z.ltb_lt, Z.eqb_eq in W1, W2. lia. }
    pose proof (B 0 ltac:(lia)). pose proof (B 2 ltac:(lia)). lia.
  - assert (forall e, In e (filter (about b) m) -> In e m) as X by (intros e J; apply filter_In in J; apply J).
    clear PM. remember (filter (about b) m) as l. clear Heql. remember PInf as p eqn:Ep. destruct TM as [x|x o N|x o due' rst pend N T].
    + cbn. lia.
    + cbn. rewrite Nat.eqb_refl. cbn. lia.
    + exfalso. clear N T. specialize (X _ (or_introl eq_refl)). destruct (within _ X) as [_ W]. subst x. discriminate W.
Qed.
End Shuffled.

Lemma take_turns W (u : user W) di h w s' w' tr1 m m' z d a b oa oa' :
  forward_only u -> nonneg di = true -> (0 < d)%Z ->
  run_hist u h (timed_init false di) w
    = (s', w', tr1 ++ EvAct (Fin z) a oa :: m ++ EvAct (Fin (z + d)) a oa' :: m') ->
  no_exc (tr1 ++ EvAct (Fin z) a oa :: m ++ EvAct (Fin (z + d)) a oa' :: m') ->
  a <> b -> adds_of a tr1 = 1 -> adds_of b tr1 = 1 -> adds_of b m = 0 ->
  next_due di (Fin z) oa = Some (Fin (z + d)) -> paced di d b (tr1 ++ m) ->
  acts_of a m = [] -> exists x, acts_of b m = [x].
Proof.
  intros F D DP E NE N A1 B1 B2 NA P AM.
  eapply alternate; eauto.
  - eapply ordered_first; eauto.
  - exact (run_hist_evok u F h _ _ _ _ _ E (winv_init false di D)).
  - exact (proj2 (run_hist_sorted W u h F _ _ _ _ _ E (winv_init false di D))).
Qed.

Lemma turns_shuffled W (u : user W) sh di h w s' w' tr1 m m' z d a b oa oa' :
  forward_only u -> (sh = true -> fair_shuffle u) -> nonneg di = true -> (0 < d)%Z ->
  run_hist u h (timed_init sh di) w
    = (s', w', tr1 ++ EvAct (Fin z) a oa :: m ++ EvAct (Fin (z + d)) a oa' :: m') ->
  no_exc (tr1 ++ EvAct (Fin z) a oa :: m ++ EvAct (Fin (z + d)) a oa' :: m') ->
  a <> b -> adds_of b tr1 = 1 -> adds_of b m = 0 -> paced di d b (tr1 ++ m) ->
  List.length (acts_of b m) <= 2.
Proof.
  intros F FS D DP E NE N B1 B2 P.
  eapply at_most_two with (tr1 := tr1) (m' := m') (oa := oa) (oa' := oa'); eauto.
  - eapply (proj1 (agenda_punctual W u sh di h w s' w' _ F FS D E NE)).
  - exact (run_hist_evok u F h _ _ _ _ _ E (winv_init sh di D)).
  - exact (proj2 (run_hist_sorted W u h F _ _ _ _ _ E (winv_init sh di D))).
Qed.
