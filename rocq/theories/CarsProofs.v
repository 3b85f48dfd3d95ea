(** Lemmas about the drivers and passengers of the cars example. *)
From Coq Require Import ZArith List Bool Arith String Lia Permutation.
From Verif Require Import Num PyDict TimedModel AgentModel AgentProofs FsmModel FsmProofs EventModel PlainProofs YieldProofs InvProofs TimedProofs PatronProofs CarsModel CarsSpec.
Import ListNotations.

(** ** Lists of journeys *)
Lemma nth_skipn {V} n : forall (l : list V) k, nth_error (skipn n l) k = nth_error l (n + k).
Proof. induction n as [|n IH]; intros [|x l] k; cbn; auto. now destruct k. Qed.
Lemma update_nth {V} (l : list V) n f m :
  nth_error (update l n f) m = if Nat.eqb m n then option_map f (nth_error l n) else nth_error l m.
Proof.
  unfold update. destruct (nth_error l n) as [x|] eqn:E.
  - assert (L : (n < List.length l)%nat) by (apply nth_error_Some; congruence).
    assert (LF : List.length (firstn n l) = n) by (rewrite firstn_length; lia).
    destruct (Nat.eqb m n) eqn:M.
    + apply Nat.eqb_eq in M. subst m. rewrite nth_error_app2, LF, Nat.sub_diag by lia. reflexivity.
    + apply Nat.eqb_neq in M. destruct (lt_dec m n).
      * rewrite nth_error_app1 by lia. revert l m E L LF M l0. induction n as [|n IH]; intros l m E L LF M LT; [lia|].
        destruct l as [|y l]; [discriminate|]. destruct m; cbn; auto. apply IH; cbn in *; auto; lia.
      * rewrite nth_error_app2, LF by lia. destruct (m - n)%nat as [|k] eqn:D; [lia|]. cbn [app nth_error].
        assert (m = S n + k)%nat as -> by lia. apply nth_skipn.
  - apply nth_error_None in E. rewrite firstn_all2 by lia. rewrite skipn_all2 by lia. rewrite !app_nil_r. cbn.
    destruct (Nat.eqb m n) eqn:M; auto. apply Nat.eqb_eq in M. subst m. now apply nth_error_None.
Qed.

Section Cars.
Variable width height : Z.
Variable is_driver : aid -> bool.
Notation grid := (on_grid width height).

(** What an agent is doing. *)
Inductive phase :=
| DIdle | DHold | DAsk (k : nat) | DDrive | DCarry
| PNew | PWait (j : nat) | PHome | PGone.

Definition unpaid (e : cevents) (paid : list nat) (d : aid) : Prop :=
  exists j, cr_journey (e_rest e) d = Some j /\ ~ In j paid.
Definition jour (e : cevents) (j : nat) (x : journey) : Prop := nth_error (cr_journeys (e_rest e)) j = Some x.
Definition own (e : cevents) (p : aid) : Prop := exists j x, cr_journey (e_rest e) p = Some j /\ jour e j x /\ j_pass x = p.
Definition dphase (e : cevents) (paid : list nat) (d : aid) (ph : phase) : Prop :=
  match ph with
  | DIdle => forall j, cr_journey (e_rest e) d = Some j -> In j paid
  | DHold => cr_journey (e_rest e) d = None \/ unpaid e paid d
  | DAsk k => (k < e_asks e)%nat /\ exists j, cr_journey (e_rest e) d = Some j /\ ~ In j paid /\
      (e_reply e k = None \/ e_reply e k = Some j) /\
      forall a l m, e_inbox e a = Some l -> In m l -> m_ask m = Some k -> m_payload m = Some j
  | DDrive => unpaid e paid d
  | DCarry => unpaid e paid d /\
      forall j x, cr_journey (e_rest e) d = Some j -> jour e j x -> grid (j_dest x) = true ->
      cr_pos (e_rest e) (j_pass x) = cr_pos (e_rest e) d
  | _ => False
  end.
Definition pphase (e : cevents) (p : aid) (ph : phase) : Prop :=
  match ph with
  | PNew => forall j x, jour e j x -> j_pass x <> p
  | PWait j => (exists x, jour e j x /\ j_pass x = p) /\
      (cr_journey (e_rest e) p = None \/ cr_journey (e_rest e) p = Some j)
  | PHome => own e p
  | PGone => exists j x, cr_journey (e_rest e) p = Some j /\ jour e j x /\ j_pass x = p /\ cr_pos (e_rest e) p = j_dest x
  | _ => False
  end.
Record K (e : cevents) (ph : aid -> phase) (paid : list nat) : Prop := {
  k_box : forall a, exists l, e_inbox e a = Some l;
  k_dbox : forall d l m, is_driver d = true -> e_inbox e d = Some l -> In m l -> m_ask m = None;
  k_pbox : forall p l m, is_driver p = false -> e_inbox e p = Some l -> In m l ->
    exists j k x, m_payload m = Some j /\ m_ask m = Some k /\ (k < e_asks e)%nat /\ jour e j x /\ j_pass x = p;
  k_pass : forall j x, jour e j x -> is_driver (j_pass x) = false /\ (forall d, j_driver x = Some d -> is_driver d = true) /\
    (10 <= j_tip x <= 100)%Z /\ (0 <= fst (j_dest x) < height)%Z /\ (0 <= snd (j_dest x) < width)%Z;
  k_one : forall i j x y, jour e i x -> jour e j y -> j_pass x = j_pass y -> i = j;
  k_own : forall d j, is_driver d = true -> cr_journey (e_rest e) d = Some j -> exists x, jour e j x /\ j_driver x = Some d;
  k_pos : forall a, grid (cr_pos (e_rest e) a) = true;
  k_where : forall j x, jour e j x -> grid (j_dest x) = true ->
    (In j paid /\ cr_pos (e_rest e) (j_pass x) = j_dest x) \/
    (~ In j paid /\ (cr_pos (e_rest e) (j_pass x) = j_origin x \/
       exists d, j_driver x = Some d /\ ph d = DCarry /\ cr_journey (e_rest e) d = Some j));
  k_nodup : NoDup paid;
  k_paid : forall j, In j paid -> exists x d, jour e j x /\ j_driver x = Some d /\ grid (j_dest x) = true;
  k_earn : forall d, cr_earnings (e_rest e) d = tips (cr_journeys (e_rest e)) (filter (driven_by (cr_journeys (e_rest e)) d) paid);
  k_total : cr_total (e_rest e) = tips (cr_journeys (e_rest e)) paid;
  k_drv : forall d, is_driver d = true -> dphase e paid d (ph d);
  k_psg : forall p, is_driver p = false -> pphase e p (ph p) }.

Definition upd_ph (ph : aid -> phase) (a : aid) (p : phase) : aid -> phase := fun b => if Nat.eqb b a then p else ph b.
Lemma upd_same ph a p : upd_ph ph a p a = p.
Proof. unfold upd_ph. now rewrite Nat.eqb_refl. Qed.
Lemma upd_other ph a p b : b <> a -> upd_ph ph a p b = ph b.
Proof. intros N. unfold upd_ph. apply Nat.eqb_neq in N. now rewrite N. Qed.
Lemma at_same {V} (f : aid -> V) a v : at_agent f a v a = v.
Proof. unfold at_agent. now rewrite Nat.eqb_refl. Qed.
Lemma at_other {V} (f : aid -> V) a v b : b <> a -> at_agent f a v b = f b.
Proof. intros N. unfold at_agent. apply Nat.eqb_neq in N. now rewrite N. Qed.

(** Drivers and passengers are not the same. *)
Lemma differ a b : is_driver a = true -> is_driver b = false -> b <> a.
Proof. intros A B ->. congruence. Qed.

(** *** Changes of nothing that matters *)
Lemma k_draws e ph paid d : K e ph paid -> K (set_rest e (set_draws (e_rest e) d)) ph paid.
Proof. intros []. constructor; assumption. Qed.
Lemma k_rest_same e ph paid : K e ph paid -> K (set_rest e (e_rest e)) ph paid.
Proof. intros []. constructor; assumption. Qed.
Lemma k_ext e ph ph' paid : (forall a, ph' a = ph a) -> K e ph paid -> K e ph' paid.
Proof.
  intros X []. constructor; auto.
  - intros j x J G. destruct (k_where0 j x J G) as [H|[N [H|(d & D & P & C)]]]; auto. right. split; auto. right. exists d. rewrite X. auto.
  - intros d D. rewrite X. auto.
  - intros p D. rewrite X. auto.
Qed.

(** *** Phases *)
Lemma k_phase e ph paid d p : is_driver d = true -> K e ph paid -> ph d <> DCarry -> dphase e paid d p -> K e (upd_ph ph d p) paid.
Proof.
  intros D [] NC H. constructor; auto.
  - intros j x J G. destruct (k_where0 j x J G) as [X|[N [X|(b & B & P & C)]]]; auto. right. split; auto. right. exists b.
    rewrite upd_other by congruence. auto.
  - intros b B. destruct (Nat.eq_dec b d) as [->|NE]; [now rewrite upd_same|rewrite upd_other; auto].
  - intros b B. rewrite upd_other by now apply differ. auto.
Qed.
Lemma k_uncarry e ph paid d : is_driver d = true -> K e ph paid ->
  (forall j x, cr_journey (e_rest e) d = Some j -> jour e j x -> grid (j_dest x) = false) ->
  unpaid e paid d -> K e (upd_ph ph d DDrive) paid.
Proof.
  intros D [] NC H. constructor; auto.
  - intros j x J G. destruct (k_where0 j x J G) as [X|[N [X|(b & B & P & C)]]]; auto. right. split; auto. right. exists b.
    destruct (Nat.eq_dec b d) as [->|NE]; [|rewrite upd_other by congruence; auto]. rewrite (NC j x) in G by auto. discriminate.
  - intros b B. destruct (Nat.eq_dec b d) as [->|NE]; [now rewrite upd_same|rewrite upd_other; auto].
  - intros b B. rewrite upd_other by now apply differ. auto.
Qed.
Lemma k_phase_p e ph paid p q : is_driver p = false -> K e ph paid -> pphase e p q -> K e (upd_ph ph p q) paid.
Proof.
  intros D [] H. constructor; auto.
  - intros j x J G. destruct (k_where0 j x J G) as [X|[N [X|(b & B & P & C)]]]; auto. right. split; auto. right. exists b.
    rewrite upd_other; auto. intros ->. destruct (k_pass0 _ _ J) as (_ & X & _). rewrite (X p B) in D. discriminate.
  - intros b B. rewrite upd_other by (intros ->; congruence). auto.
  - intros b B. destruct (Nat.eq_dec b p) as [->|NE]; [now rewrite upd_same|rewrite upd_other; auto].
Qed.

(** *** Drivers *)
Lemma k_set_journey e ph paid d jo p : is_driver d = true -> K e ph paid -> ph d <> DCarry ->
  (forall j, jo = Some j -> exists x, jour e j x /\ j_driver x = Some d) ->
  dphase (set_rest e (set_journey (e_rest e) d jo)) paid d p ->
  K (set_rest e (set_journey (e_rest e) d jo)) (upd_ph ph d p) paid.
Proof.
  intros D [] NC O H. constructor; auto.
  - intros b j B. cbn. destruct (Nat.eq_dec b d) as [->|NE]; [rewrite at_same; apply O|rewrite at_other by auto; now apply k_own0].
  - intros j x J G. destruct (k_where0 j x J G) as [X|[N [X|(b & B & P & C)]]]; auto. right. split; auto. right. exists b.
    assert (b <> d) by congruence. rewrite upd_other by auto. cbn. rewrite at_other; auto.
  - intros b B. destruct (Nat.eq_dec b d) as [->|NE]; [now rewrite upd_same|rewrite upd_other by auto].
    specialize (k_drv0 b B). unfold dphase, unpaid, jour in *. cbn in *. now rewrite !(at_other _ d jo b) by auto.
  - intros b B. pose proof (differ d b D B) as NE. rewrite upd_other by auto. specialize (k_psg0 b B).
    unfold pphase, own, jour in *. cbn in *. now rewrite !(at_other _ d jo b) by auto.
Qed.
Lemma k_set_pos e ph paid d p : is_driver d = true -> K e ph paid -> ph d <> DCarry -> grid p = true ->
  K (set_rest e (set_pos (e_rest e) d p)) ph paid.
Proof.
  intros D [] NC G. assert (NP : forall j x, jour e j x -> j_pass x <> d).
  { intros j x J. destruct (k_pass0 j x J) as [X _]. now apply differ. }
  constructor; auto.
  - intros b. cbn. destruct (Nat.eq_dec b d) as [->|NE]; [now rewrite at_same|rewrite at_other; auto].
  - intros j x J GR. cbn. rewrite at_other by now apply (NP j x). exact (k_where0 j x J GR).
  - intros b B. specialize (k_drv0 b B). destruct (ph b) eqn:PB; auto. destruct k_drv0 as [U H]. split; auto.
    intros j x J X GR. cbn. assert (b <> d) by congruence. rewrite !at_other; eauto.
  - intros b B. specialize (k_psg0 b B). destruct (ph b); auto. destruct k_psg0 as (j & x & H). exists j, x. cbn.
    rewrite at_other by now apply differ. exact H.
Qed.
Lemma carry_origin e ph paid d j x : is_driver d = true -> K e ph paid -> cr_journey (e_rest e) d = Some j -> jour e j x ->
  grid (j_dest x) = true -> ph d = DCarry \/ ph d = DDrive /\ cr_pos (e_rest e) d = j_origin x ->
  ~ In j paid /\ cr_pos (e_rest e) (j_pass x) = cr_pos (e_rest e) d.
Proof.
  intros D [] J X G PH. destruct (k_own0 d j D J) as (x' & X' & OD). assert (x' = x) by (unfold jour in *; congruence). subst x'.
  pose proof (k_drv0 d D) as DD. destruct PH as [PH|[PH P]]; rewrite PH in DD; cbn in DD.
  - destruct DD as [(j' & J' & N) H]. assert (j' = j) by congruence. subst j'. split; auto. exact (H j x J X G).
  - destruct DD as (j' & J' & N). assert (j' = j) by congruence. subst j'. split; auto.
    destruct (k_where0 j x X G) as [[I _]|[_ [H|(b & B & PB & _)]]]; [contradiction|congruence|].
    assert (b = d) by congruence. subst b. congruence.
Qed.
Lemma k_carry e ph paid d j x p : is_driver d = true -> K e ph paid -> cr_journey (e_rest e) d = Some j -> jour e j x ->
  ph d = DCarry \/ ph d = DDrive /\ cr_pos (e_rest e) d = j_origin x ->
  cr_pos (e_rest e) d <> j_dest x -> grid p = true ->
  K (set_rest e (set_pos (set_pos (e_rest e) d p) (j_pass x) p)) (upd_ph ph d DCarry) paid.
Proof.
  intros D KK J X PH ND G.
  pose proof (fun GR => carry_origin e ph paid d j x D KK J X GR PH) as CO. destruct KK.
  destruct (k_own0 d j D J) as (x' & X' & OD). assert (x' = x) by (unfold jour in *; congruence). subst x'. clear X'.
  destruct (k_pass0 j x X) as (PD & _). pose proof (differ _ _ D PD) as NPD.
  assert (U : unpaid e paid d).
  { pose proof (k_drv0 d D) as DD. destruct PH as [PH|[PH _]]; rewrite PH in DD; [apply DD|exact DD]. }
  assert (UJ : ~ In j paid). { destruct U as (j' & J' & N). congruence. }
  assert (OTH : forall i y, jour e i y -> i <> j -> j_pass y <> j_pass x) by (intros i y Y NE E; apply NE; eapply k_one0; eauto).
  constructor; auto.
  - intros a. cbn. destruct (Nat.eq_dec a (j_pass x)) as [->|N1]; [now rewrite at_same|rewrite at_other by auto].
    destruct (Nat.eq_dec a d) as [->|N2]; [now rewrite at_same|now rewrite at_other by auto].
  - intros i y Y GR. change (jour e i y) in Y. cbn. destruct (Nat.eq_dec i j) as [->|NE].
    + right. split; auto. right. exists d. assert (y = x) by (unfold jour in *; congruence). subst y.
      rewrite upd_same. auto.
    + rewrite at_other by eauto. rewrite at_other by (apply differ; auto; apply (k_pass0 i y Y)).
      destruct (k_where0 i y Y GR) as [H|[N [H|(b & B & P & C)]]]; auto. right. split; auto. right. exists b.
      assert (b <> d) by congruence. rewrite upd_other; auto.
  - intros b B. destruct (Nat.eq_dec b d) as [->|NE].
    + rewrite upd_same. split; auto. intros i y I Y GR. cbn in *. assert (i = j) by congruence. subst i.
      assert (y = x) by (unfold jour in *; cbn in *; congruence). subst y. rewrite at_same, at_other, at_same by auto. reflexivity.
    + rewrite upd_other by auto. specialize (k_drv0 b B). destruct (ph b) eqn:PB; auto. destruct k_drv0 as [U' H]. split; auto.
      intros i y I Y GR. cbn in *. change (jour e i y) in Y.
      assert (i <> j). { intros ->. destruct (k_own0 b j B I) as (x' & X' & O'). unfold jour in *. congruence. }
      rewrite (at_other _ (j_pass x)) by eauto. rewrite (at_other _ d) by (apply differ; auto; apply (k_pass0 i y Y)).
      rewrite (at_other _ (j_pass x)) by (intros ->; congruence). rewrite (at_other _ d) by auto. eauto.
  - intros b B. rewrite upd_other by now apply differ. specialize (k_psg0 b B). destruct (ph b) eqn:PB; auto.
    destruct k_psg0 as (i & y & I & Y & P & DE). exists i, y. split; [exact I|]. split; [exact Y|]. split; [exact P|]. cbn.
    destruct (Nat.eq_dec b (j_pass x)) as [->|NE].
    + exfalso. assert (i = j) by (eapply k_one0; eauto). subst i. assert (y = x) by (unfold jour in *; congruence). subst y.
      destruct CO as [_ CO]; [rewrite <- DE; auto|]. congruence.
    + rewrite at_other by auto. rewrite at_other by now apply differ. exact DE.
Qed.

(** *** Sums *)
Lemma tips_ext l l' paid : (forall j, In j paid -> tip_of l j = tip_of l' j) -> tips l paid = tips l' paid.
Proof.
  unfold tips. induction paid as [|j paid IH]; intros H; cbn [fold_right]; auto. rewrite (H j) by now left.
  rewrite IH; auto. intros i I. apply H. now right.
Qed.
Lemma filter_ext_in' {V} (f g : V -> bool) l : (forall x, In x l -> f x = g x) -> filter f l = filter g l.
Proof. induction l as [|x l IH]; cbn; intros H; auto. rewrite (H x) by auto. rewrite IH; auto. Qed.
Lemma sums_ext l l' paid : (forall j, In j paid -> tip_of l j = tip_of l' j /\ forall d, driven_by l d j = driven_by l' d j) ->
  tips l paid = tips l' paid /\ forall d, tips l (filter (driven_by l d) paid) = tips l' (filter (driven_by l' d) paid).
Proof.
  intros H. split; [apply tips_ext; intros j J; apply (H j J)|]. intros d.
  rewrite (filter_ext_in' (driven_by l d) (driven_by l' d)) by (intros j J; apply (H j J)).
  apply tips_ext. intros j J. apply filter_In in J. apply (H j). apply J.
Qed.

Lemma k_pay e ph paid d j x : is_driver d = true -> K e ph paid -> cr_journey (e_rest e) d = Some j -> jour e j x ->
  ph d = DCarry \/ ph d = DDrive /\ cr_pos (e_rest e) d = j_origin x ->
  cr_pos (e_rest e) d = j_dest x ->
  K (set_rest e (pay (e_rest e) d (j_tip x))) (upd_ph ph d DIdle) (j :: paid).
Proof.
  intros D KK J X PH PD. assert (GR : grid (j_dest x) = true) by (rewrite <- PD; apply KK).
  destruct (carry_origin e ph paid d j x D KK J X GR PH) as [UJ PP]. destruct KK.
  destruct (k_own0 d j D J) as (x' & X' & OD). assert (x' = x) by (unfold jour in *; congruence). subst x'. clear X'.
  assert (DR : driven_by (cr_journeys (e_rest e)) d j = true).
  { unfold driven_by. unfold jour in X. rewrite X, OD. apply Nat.eqb_refl. }
  assert (DN : forall b, b <> d -> driven_by (cr_journeys (e_rest e)) b j = false).
  { intros b NE. unfold driven_by. unfold jour in X. rewrite X, OD. apply Nat.eqb_neq. auto. }
  assert (TI : tip_of (cr_journeys (e_rest e)) j = j_tip x) by (unfold tip_of, jour in *; now rewrite X).
  constructor; auto.
  - intros i y Y G. change (jour e i y) in Y. cbn. destruct (Nat.eq_dec i j) as [->|NE].
    + left. split; auto. assert (y = x) by (unfold jour in *; congruence). subst y. congruence.
    + destruct (k_where0 i y Y G) as [[H1 H2]|[N H]]; auto. right. split; [intros [->|I]; contradiction|].
      destruct H as [H|(b & B & P & C)]; auto. right. exists b. assert (b <> d) by congruence. rewrite upd_other; auto.
  - now constructor.
  - intros i [<-|I]; [exists x, d; auto|]. exact (k_paid0 i I).
  - intros b. cbn [e_rest set_rest pay cr_earnings cr_journeys filter]. destruct (Nat.eq_dec b d) as [->|NE].
    + rewrite DR, at_same. cbn [tips fold_right]. rewrite TI, k_earn0. unfold tips. lia.
    + rewrite DN, at_other by auto. apply k_earn0.
  - cbn [e_rest set_rest pay cr_total cr_journeys tips fold_right]. rewrite TI, k_total0. unfold tips. lia.
  - intros b B. destruct (Nat.eq_dec b d) as [->|NE]; [rewrite upd_same; intros i I; cbn in I; left; congruence|]. rewrite upd_other by auto. specialize (k_drv0 b B).
    assert (NJ : forall i, cr_journey (e_rest e) b = Some i -> ~ In i paid -> ~ In i (j :: paid)).
    { intros i I N [<-|I']; [|contradiction]. destruct (k_own0 b j B I) as (x' & X' & O'). unfold jour in *. congruence. }
    destruct (ph b); auto.
    + intros i I. right. exact (k_drv0 i I).
    + destruct k_drv0 as [H|(i & I & N)]; [now left|]. right. exists i. auto.
    + destruct k_drv0 as (H1 & i & I & N & H). split; auto. exists i. auto.
    + destruct k_drv0 as (i & I & N). exists i. auto.
    + destruct k_drv0 as [(i & I & N) H]. split; [exists i; auto|exact H].
  - intros b B. rewrite upd_other by now apply differ. exact (k_psg0 b B).
Qed.

(** *** Messages *)
Lemma k_count_ e ph paid a : K e ph paid -> K (add_count e a) ph paid.
Proof. intros []. constructor; assumption. Qed.
Lemma k_inbox e ph paid a l : K e ph paid ->
  (forall m, In m l -> (exists l0, e_inbox e a = Some l0 /\ In m l0) \/ is_driver a = true /\ m_ask m = None) ->
  K (set_inbox e a l) ph paid.
Proof.
  intros [] H.
  assert (IN : forall b l' m, e_inbox (set_inbox e a l) b = Some l' -> In m l' ->
    (exists l0, e_inbox e b = Some l0 /\ In m l0) \/ is_driver b = true /\ m_ask m = None).
  { intros b l' m. cbn. destruct (Nat.eqb b a) eqn:E; [|eauto]. apply Nat.eqb_eq in E. subst b. intros X. injection X as <-. apply H. }
  constructor; auto.
  - intros b. cbn. destruct (Nat.eqb b a); eauto.
  - intros d l' m D E J. destruct (IN d l' m E J) as [(l0 & L & I)|[_ I]]; eauto.
  - intros p l' m D E J. destruct (IN p l' m E J) as [(l0 & L & I)|[I _]]; [exact (k_pbox0 p l0 m D L I)|congruence].
  - intros d D. specialize (k_drv0 d D). destruct (ph d); auto. destruct k_drv0 as (LT & j & J & N & R & M). split; auto.
    exists j. split; auto. split; auto. split; auto. intros b l' m E I A. destruct (IN b l' m E I) as [(l0 & L & I')|[_ X]]; [eauto|congruence].
Qed.
Lemma k_append e ph paid d m : K e ph paid -> is_driver d = true -> m_ask m = None -> K (append e d m) ph paid.
Proof.
  intros KK D A. unfold append. destruct (e_inbox e d) as [l|] eqn:E; auto. apply k_inbox; auto.
  intros x J. apply in_app_or in J as [J|[<-|[]]]; eauto.
Qed.
Context {AR : Arith}.
Lemma k_broadcast now l : forall e ph paid p s ex ttl, K e ph paid -> (forall d, In d l -> is_driver d = true) ->
  K (broadcast now l p s ex ttl e) ph paid /\ e_rest (broadcast now l p s ex ttl e) = e_rest e.
Proof.
  induction l as [|d l IH]; intros e ph paid p s ex ttl KK H; cbn [broadcast]; auto.
  assert (H' : forall d, In d l -> is_driver d = true) by (intros; apply H; now right).
  destruct (match s with Some b => Nat.eqb d b | None => false end); [apply IH; auto|].
  destruct (IH (append e d (Msg p s (expiration_of now ex ttl) None)) ph paid p s ex ttl) as [A B]; auto.
  - apply k_append; auto. apply H. now left.
  - split; auto. rewrite B. unfold append. destruct (e_inbox e d); reflexivity.
Qed.

(** A driver takes a journey. *)
Lemma k_claim e ph paid d j x : is_driver d = true -> K e ph paid -> ph d = DHold -> cr_journey (e_rest e) d = None -> jour e j x ->
  j_driver x = None ->
  K (set_rest e (set_journey (set_journeys (e_rest e) (update (cr_journeys (e_rest e)) j (assign d))) d (Some j))) ph paid.
Proof.
  intros D [] PH JN X NO.
  set (e' := set_rest e _).
  assert (JX : forall i y, jour e' i y -> exists y0, jour e i y0 /\ j_origin y = j_origin y0 /\ j_dest y = j_dest y0 /\
    j_tip y = j_tip y0 /\ j_pass y = j_pass y0 /\ (i = j /\ j_driver y = Some d \/ i <> j /\ y = y0)).
  { intros i y. unfold jour, e'. cbn. rewrite update_nth. destruct (Nat.eqb i j) eqn:E.
    - apply Nat.eqb_eq in E. subst i. unfold jour in X. rewrite X. cbn. intros Y. injection Y as <-. exists x. cbn. auto 8.
    - apply Nat.eqb_neq in E. intros Y. exists y. auto 8. }
  assert (JY : forall i y0, jour e i y0 -> exists y, jour e' i y /\ j_origin y = j_origin y0 /\ j_dest y = j_dest y0 /\
    j_tip y = j_tip y0 /\ j_pass y = j_pass y0 /\ (forall b, j_driver y0 = Some b -> j_driver y = Some b) /\ (i = j -> j_driver y = Some d)).
  { intros i y0 Y. unfold jour, e'. cbn. rewrite update_nth. destruct (Nat.eqb i j) eqn:E.
    - apply Nat.eqb_eq in E. subst i. unfold jour in X, Y. rewrite X in Y |- *. injection Y as <-. cbn. eexists. split; [reflexivity|]. cbn.
      repeat split; auto. intros b B. congruence.
    - apply Nat.eqb_neq in E. exists y0. repeat split; auto. intros ->. congruence. }
  assert (NP : ~ In j paid). { intros I. destruct (k_paid0 j I) as (x' & b & X' & B & _). unfold jour in *. congruence. }
  assert (JO : forall b, b <> d -> cr_journey (e_rest e') b = cr_journey (e_rest e) b).
  { intros b NE. unfold e'. cbn. now rewrite at_other. }
  assert (JD : cr_journey (e_rest e') d = Some j) by (unfold e'; cbn; apply at_same).
  assert (SU : forall i, In i paid -> tip_of (cr_journeys (e_rest e')) i = tip_of (cr_journeys (e_rest e)) i /\
    forall b, driven_by (cr_journeys (e_rest e')) b i = driven_by (cr_journeys (e_rest e)) b i).
  { intros i I. unfold tip_of, driven_by, e'. cbn. rewrite update_nth.
    destruct (Nat.eqb i j) eqn:E; [apply Nat.eqb_eq in E; subst i; contradiction|]. auto. }
  apply sums_ext in SU as [SU1 SU2].
  constructor; auto.
  - intros p l m P E I. destruct (k_pbox0 p l m P E I) as (i & k & y & A1 & A2 & A3 & A4 & A5).
    destruct (JY i y A4) as (y' & Y' & _ & _ & _ & PP & _). exists i, k, y'. repeat split; auto. congruence.
  - intros i y Y. destruct (JX i y Y) as (y0 & Y0 & E1 & E2 & E3 & E4 & E5). destruct (k_pass0 i y0 Y0) as (A & B & C).
    rewrite E2, E3, E4. split; auto. split; auto. intros b BB. destruct E5 as [[-> E5]|[_ ->]]; [congruence|auto].
  - intros i i' y y' Y Y' P. destruct (JX i y Y) as (y0 & Y0 & _ & _ & _ & E4 & _). destruct (JX i' y' Y') as (y1 & Y1 & _ & _ & _ & E5 & _).
    eapply k_one0; eauto. congruence.
  - intros b i B. destruct (Nat.eq_dec b d) as [->|NE].
    + rewrite JD. intros I. injection I as <-. destruct (JY j x X) as (y & Y & _ & _ & _ & _ & _ & H). exists y. auto.
    + rewrite JO by auto. intros I. destruct (k_own0 b i B I) as (y0 & Y0 & O). destruct (JY i y0 Y0) as (y & Y & _ & _ & _ & _ & H & _).
      exists y. auto.
  - intros i y Y G. destruct (JX i y Y) as (y0 & Y0 & E1 & E2 & E3 & E4 & E5). rewrite E2 in G.
    change (cr_pos (e_rest e')) with (cr_pos (e_rest e)). rewrite E4, E2, E1.
    destruct (k_where0 i y0 Y0 G) as [H|[N [H|(b & B & P & C)]]]; auto. right. split; auto. right. exists b.
    rewrite JO by congruence. split; [|auto]. destruct E5 as [[-> _]|[_ ->]]; auto. unfold jour in *. congruence.
  - intros i I. destruct (k_paid0 i I) as (y0 & b & Y0 & B & G). destruct (JY i y0 Y0) as (y & Y & _ & E & _ & _ & H & _).
    exists y, b. rewrite E. auto.
  - intros b. change (cr_earnings (e_rest e')) with (cr_earnings (e_rest e)). rewrite k_earn0. symmetry. apply SU2.
  - change (cr_total (e_rest e')) with (cr_total (e_rest e)). rewrite k_total0. symmetry. apply SU1.
  - intros b B. destruct (Nat.eq_dec b d) as [->|NE].
    + rewrite PH. right. exists j. auto.
    + specialize (k_drv0 b B). unfold dphase, unpaid in *. rewrite JO by auto. destruct (ph b); auto.
      destruct k_drv0 as [U H]. split; auto. intros i y I Y G. destruct (JX i y Y) as (y0 & Y0 & _ & E2 & _ & E4 & _). rewrite E4. rewrite E2 in G.
      exact (H i y0 I Y0 G).
  - intros p P. specialize (k_psg0 p P). pose proof (differ d p D P) as NE. unfold pphase, own in *. rewrite JO by auto. destruct (ph p); auto.
    + intros i y Y E. destruct (JX i y Y) as (y0 & Y0 & _ & _ & _ & E4 & _). apply (k_psg0 i y0 Y0). congruence.
    + destruct k_psg0 as [(y0 & Y0 & E) H]. split; auto. destruct (JY j0 y0 Y0) as (y & Y & _ & _ & _ & E4 & _). exists y. split; auto. congruence.
    + destruct k_psg0 as (i & y0 & I & Y0 & E). destruct (JY i y0 Y0) as (y & Y & _ & _ & _ & E4 & _). exists i, y. repeat split; auto. congruence.
    + destruct k_psg0 as (i & y0 & I & Y0 & E & DE). destruct (JY i y0 Y0) as (y & Y & _ & E2 & _ & E4 & _). exists i, y. repeat split; auto; [congruence|].
      change (cr_pos (e_rest e')) with (cr_pos (e_rest e)). congruence.
Qed.
(** A passenger answers. *)
Lemma k_accept e ph paid p j k l m : is_driver p = false -> K e ph paid -> (exists i, ph p = PWait i) \/ ph p = PHome ->
  e_inbox e p = Some l -> In m l -> m_payload m = Some j -> m_ask m = Some k ->
  K (set_reply (set_rest e (set_journey (e_rest e) p (Some j))) k (Some j)) ph paid.
Proof.
  intros P [] PH E I MP MA. destruct (k_pbox0 p l m P E I) as (j' & k' & x & A1 & A2 & A3 & X & A5).
  assert (j' = j) by congruence. assert (k' = k) by congruence. subst j' k'.
  assert (ND : forall d, is_driver d = true -> d <> p) by (intros d D ->; congruence).
  constructor; auto.
  - intros d i D. cbn. rewrite at_other by auto. now apply k_own0.
  - intros i y Y G. destruct (k_where0 i y Y G) as [H|[N [H|(b & B & Q & C)]]]; auto. right. split; auto. right. exists b. cbn.
    rewrite at_other by (apply ND; apply (k_pass0 i y Y); auto). auto.
  - intros d D. specialize (k_drv0 d D). specialize (ND d D). unfold dphase, unpaid in *. cbn. rewrite at_other by auto.
    destruct (ph d); auto. destruct k_drv0 as (LT & i & I' & N & R & M). split; auto. exists i. split; auto. split; auto. split.
    + destruct (Nat.eqb k0 k) eqn:KE; auto. apply Nat.eqb_eq in KE. subst k0. right. specialize (M p l m E I MA). congruence.
    + exact M.
  - intros b B. specialize (k_psg0 b B). destruct (Nat.eq_dec b p) as [->|NE].
    + destruct PH as [[i PH]|PH]; rewrite PH in k_psg0 |- *; cbn.
      * destruct k_psg0 as [(y & Y & YP) _]. split; [exists y; auto|]. right. rewrite at_same. f_equal. eapply k_one0; eauto. congruence.
      * exists j, x. cbn. rewrite at_same. auto.
    + unfold pphase, own in *. cbn. rewrite at_other by auto. exact k_psg0.
Qed.
(** A driver asks. *)
Lemma k_ask e ph paid d j x : is_driver d = true -> K e ph paid -> ph d = DHold -> cr_journey (e_rest e) d = Some j -> jour e j x ->
  forall now t e' k dl, ask_start None now (j_pass x) (Some j) t e = (e', k, dl) ->
  K e' (upd_ph ph d (DAsk k)) paid /\ e_rest e' = e_rest e.
Proof.
  intros D KK PH J X now t e' k dl E. pose proof KK as []. destruct (k_pass0 j x X) as (PD & _ & _).
  assert (UJ : ~ In j paid).
  { specialize (k_drv0 d D). rewrite PH in k_drv0. destruct k_drv0 as [C|(i & I & N)]; congruence. }
  unfold ask_start in E. destruct (k_box0 (j_pass x)) as [l L].
  set (m := Msg (Some j) (Some (j_pass x)) None (Some (e_asks e))) in E. unfold append in E. cbn [e_inbox] in E. rewrite L in E. injection E as <- <- <-.
  split; [|reflexivity].
  assert (IN : forall b l' y, (if Nat.eqb b (j_pass x) then Some (l ++ [m]) else e_inbox e b) = Some l' -> In y l' ->
    (exists l0, e_inbox e b = Some l0 /\ In y l0) \/ b = j_pass x /\ y = m).
  { intros b l' y. destruct (Nat.eqb b (j_pass x)) eqn:E; [|eauto]. apply Nat.eqb_eq in E. subst b. intros H. injection H as <-. intros H.
    apply in_app_or in H as [H|[<-|[]]]; eauto. }
  assert (OLD : forall b l0 y k, e_inbox e b = Some l0 -> In y l0 -> m_ask y = Some k -> (k < e_asks e)%nat).
  { intros b l0 y k B Y A. destruct (is_driver b) eqn:DB; [rewrite (k_dbox0 b l0 y DB B Y) in A; discriminate|].
    destruct (k_pbox0 b l0 y DB B Y) as (i & k' & z & _ & A' & LT & _). congruence. }
  constructor; auto.
  - intros a. cbn. destruct (Nat.eqb a (j_pass x)); eauto.
  - intros b l' y B Y I. destruct (IN b l' y Y I) as [(l0 & B0 & I0)|[-> ->]]; [eauto|congruence].
  - intros p l' y P Y I. destruct (IN p l' y Y I) as [(l0 & B0 & I0)|[-> ->]].
    + destruct (k_pbox0 p l0 y P B0 I0) as (i & k & z & A1 & A2 & A3 & A4). exists i, k, z. cbn. repeat split; try tauto. lia.
    + exists j, (e_asks e), x. cbn. repeat split; auto.
  - intros i y Y G. destruct (k_where0 i y Y G) as [H|[N [H|(b & B & P & C)]]]; auto. right. split; auto. right. exists b.
    rewrite upd_other by congruence. auto.
  - intros b B. destruct (Nat.eq_dec b d) as [->|NE].
    + rewrite upd_same. cbn. split; [lia|]. exists j. split; auto. split; auto. rewrite Nat.eqb_refl. split; auto.
      intros b l' y Y I A. destruct (IN b l' y Y I) as [(l0 & B0 & I0)|[-> ->]]; [|reflexivity]. specialize (OLD b l0 y _ B0 I0 A). lia.
    + rewrite upd_other by auto. specialize (k_drv0 b B). destruct (ph b); auto. destruct k_drv0 as (LT & i & I & N & R & M). cbn. split; [lia|].
      exists i. split; auto. split; auto. split.
      * destruct (Nat.eqb k (e_asks e)) eqn:KE; auto.
      * intros b' l' y Y I' A. destruct (IN b' l' y Y I') as [(l0 & B0 & I0)|[-> ->]]; [eauto|]. cbn in A. injection A as <-. lia.
  - intros b B. rewrite upd_other by now apply differ. exact (k_psg0 b B).
Qed.
(** A passenger wants a journey. *)
Lemma k_create e ph paid p dest tip : is_driver p = false -> K e ph paid -> ph p = PNew -> (10 <= tip <= 100)%Z ->
  (0 <= fst dest < height)%Z /\ (0 <= snd dest < width)%Z ->
  K (set_rest e (set_journeys (set_journey (e_rest e) p None)
       (cr_journeys (e_rest e) ++ [Journey (cr_pos (e_rest e) p) dest tip p None])))
    (upd_ph ph p (PWait (List.length (cr_journeys (e_rest e))))) paid.
Proof.
  intros P [] PH TI DI. set (x0 := Journey _ dest tip p None). set (n := List.length (cr_journeys (e_rest e))). set (e' := set_rest e _).
  assert (ND : forall d, is_driver d = true -> d <> p) by (intros d D ->; congruence).
  pose proof (k_psg0 p P) as NEW. rewrite PH in NEW. cbn in NEW.
  assert (LT : forall i y, jour e i y -> (i < n)%nat) by (intros i y Y; apply nth_error_Some; unfold jour in Y; congruence).
  assert (JX : forall i y, jour e' i y -> jour e i y \/ i = n /\ y = x0).
  { intros i y. unfold jour, e'. cbn. intros Y. destruct (lt_dec i n).
    - rewrite nth_error_app1 in Y by auto. auto.
    - rewrite nth_error_app2 in Y by (fold n; lia). fold n in Y. destruct (i - n)%nat as [|q] eqn:Q; [|destruct q; discriminate].
      injection Y as <-. right. split; auto. lia. }
  assert (JY : forall i y, jour e i y -> jour e' i y).
  { intros i y Y. unfold jour, e'. cbn. rewrite nth_error_app1; auto. exact (LT i y Y). }
  assert (JN : jour e' n x0). { unfold jour, e'. cbn. rewrite nth_error_app2 by (unfold n; lia). fold n. now rewrite Nat.sub_diag. }
  assert (JO : forall b, b <> p -> cr_journey (e_rest e') b = cr_journey (e_rest e) b).
  { intros b NE. unfold e'. cbn. now rewrite at_other. }
  assert (NN : ~ In n paid). { intros I. destruct (k_paid0 n I) as (y & _ & Y & _). specialize (LT n y Y). lia. }
  assert (SU : forall i, In i paid -> tip_of (cr_journeys (e_rest e')) i = tip_of (cr_journeys (e_rest e)) i /\
    forall b, driven_by (cr_journeys (e_rest e')) b i = driven_by (cr_journeys (e_rest e)) b i).
  { intros i I. destruct (k_paid0 i I) as (y & _ & Y & _). specialize (LT i y Y). unfold tip_of, driven_by, e'. cbn.
    rewrite nth_error_app1 by auto. auto. }
  apply sums_ext in SU as [SU1 SU2].
  constructor; auto.
  - intros b l m B E I. destruct (k_pbox0 b l m B E I) as (i & k & y & A1 & A2 & A3 & A4 & A5). exists i, k, y. repeat split; auto.
  - intros i y Y. destruct (JX i y Y) as [Y0|[-> ->]]; [eauto|]. cbn. split; auto. split; [discriminate|]. auto.
  - intros i i' y y' Y Y' E. destruct (JX i y Y) as [Y0|[-> ->]], (JX i' y' Y') as [Y1|[-> ->]]; eauto; [|].
    + exfalso. exact (NEW i y Y0 E).
    + exfalso. exact (NEW i' y' Y1 (eq_sym E)).
  - intros d i D. rewrite JO by auto. intros I. destruct (k_own0 d i D I) as (y & Y & O). exists y. auto.
  - intros i y Y G. change (cr_pos (e_rest e')) with (cr_pos (e_rest e)). destruct (JX i y Y) as [Y0|[-> ->]]; [|right; cbn; auto].
    destruct (k_where0 i y Y0 G) as [H|[N [H|(b & B & Q & C)]]]; auto. right. split; auto. right. exists b.
    assert (b <> p) by (apply ND; apply (k_pass0 i y Y0); auto). rewrite JO, upd_other; auto.
  - intros i I. destruct (k_paid0 i I) as (y & b & Y & H). exists y, b. auto.
  - intros b. change (cr_earnings (e_rest e')) with (cr_earnings (e_rest e)). rewrite k_earn0. symmetry. apply SU2.
  - change (cr_total (e_rest e')) with (cr_total (e_rest e)). rewrite k_total0. symmetry. apply SU1.
  - intros b B. specialize (ND b B). rewrite upd_other by auto. specialize (k_drv0 b B). unfold dphase, unpaid in *. rewrite JO by auto.
    destruct (ph b); auto. destruct k_drv0 as [U H]. split; auto. intros i y I Y G. destruct (JX i y Y) as [Y0|[-> ->]]; [exact (H i y I Y0 G)|].
    destruct (k_own0 b n B I) as (y & Y0 & _). specialize (LT n y Y0). lia.
  - intros b B. destruct (Nat.eq_dec b p) as [->|NE].
    + rewrite upd_same. cbn. split; [exists x0; auto|]. left. apply at_same.
    + rewrite upd_other by auto. specialize (k_psg0 b B). unfold pphase, own in *. rewrite JO by auto. destruct (ph b); auto.
      * intros i y Y. destruct (JX i y Y) as [Y0|[-> ->]]; eauto.
      * destruct k_psg0 as [(y & Y & E) H]. split; auto. exists y. auto.
      * destruct k_psg0 as (i & y & I & Y & E). exists i, y. auto.
      * destruct k_psg0 as (i & y & I & Y & E & DE). exists i, y. auto.
Qed.

(** ** The code *)
Variable one : Z.
Notation recv := (receive is_driver).

Lemma driver_loop now d l : is_driver d = true -> forall e ph paid, K e ph paid -> ph d = DHold ->
  (forall m, In m l -> m_ask m = None) ->
  exists e' calls v, process_loop None recv now d l e = (e', calls, POk v) /\ K e' ph paid /\ e_inbox e' = e_inbox e.
Proof.
  intros D. induction l as [|m l IH]; intros e ph paid KK PH H; cbn [process_loop]; [eauto 8|].
  assert (H' : forall m, In m l -> m_ask m = None) by (intros; apply H; now right).
  pose proof (k_count_ _ _ _ d KK) as KC. destruct (expired m now).
  { destruct (IH (add_count e d) ph paid) as (e' & c & v & E & K' & B); auto. exists e', c, v. auto. }
  assert (NIL : forall r, (r = e_rest (add_count e d) /\ K (set_rest (add_count e d) r) ph paid \/
      K (set_rest (add_count e d) r) ph paid) ->
    exists e' calls v, (let '(w4, c, p) := process_loop None recv now d l (set_rest (add_count e d) r) in
       (w4, (m, Some None) :: c, match p with POk valid => POk (m :: valid) | _ => p end)) = (e', calls, POk v) /\
      K e' ph paid /\ e_inbox e' = e_inbox e).
  { intros r X. assert (X' : K (set_rest (add_count e d) r) ph paid) by (destruct X as [[_ X]|X]; auto).
    destruct (IH _ ph paid X' PH H') as (e' & c & v & E & K' & B). rewrite E. exists e', ((m, Some None) :: c), (m :: v). auto. }
  assert (MA : m_ask m = None) by (apply H; now left). rewrite MA. unfold receive.
  destruct (m_payload m) as [j|]; [|apply NIL; auto using k_rest_same].
  rewrite D. destruct (cr_journey (e_rest (add_count e d)) d) eqn:J; [apply NIL; auto using k_rest_same|].
  destruct (nth_error (cr_journeys (e_rest (add_count e d))) j) as [x|] eqn:X; [|apply NIL; auto using k_rest_same].
  destruct (j_driver x) eqn:DR; [apply NIL; auto using k_rest_same|].
  apply NIL. right. now apply (k_claim _ ph paid d j x).
Qed.
Lemma driver_process now d e ph paid : is_driver d = true -> K e ph paid -> ph d = DHold ->
  exists e', process is_driver now d e = Some e' /\ K e' ph paid.
Proof.
  intros D KK PH. unfold process, process_messages. destruct (k_box _ _ _ KK d) as [l L]. rewrite L.
  destruct (driver_loop now d l D e ph paid KK PH) as (e' & c & v & E & K' & B).
  { intros m I. exact (k_dbox _ _ _ KK d l m D L I). }
  rewrite E. eexists. split; [reflexivity|]. apply k_inbox; auto. intros m [].
Qed.
Lemma passenger_loop now p l0 : is_driver p = false -> forall l e ph paid, K e ph paid -> (exists i, ph p = PWait i) \/ ph p = PHome ->
  e_inbox e p = Some l0 -> incl l l0 ->
  exists e' calls v, process_loop None recv now p l e = (e', calls, POk v) /\ K e' ph paid /\ e_inbox e' = e_inbox e.
Proof.
  intros P. induction l as [|m l IH]; intros e ph paid KK PH B I; cbn [process_loop]; [eauto 8|].
  assert (I' : incl l l0) by (intros x X; apply I; now right).
  pose proof (k_count_ _ _ _ p KK) as KC. destruct (expired m now).
  { destruct (IH (add_count e p) ph paid) as (e' & c & v & E & K' & B'); auto. exists e', c, v. auto. }
  destruct (k_pbox _ _ _ KK p l0 m P B (I m (or_introl eq_refl))) as (j & k & x & MP & MA & _).
  assert (RC : recv now p (m_payload m) (m_sender m) (add_count e p) = (set_journey (e_rest (add_count e p)) p (Some j), [], Some (Some j)))
    by (unfold receive; now rewrite MP, P).
  rewrite RC, MA. cbn [run_sendings fold_left existsb].
  destruct (IH (set_reply (set_rest (add_count e p) (set_journey (e_rest (add_count e p)) p (Some j))) k (Some j)) ph paid) as (e' & c & v & E & K' & B'); auto.
  { eapply k_accept; eauto. apply I. now left. }
  unfold run_sendings. cbn [fold_left]. rewrite E. eexists _, _, _. split; [reflexivity|]. split; auto.
Qed.
Lemma passenger_received now p dl e ph paid : is_driver p = false -> K e ph paid -> (exists i, ph p = PWait i) \/ ph p = PHome ->
  exists e' calls r, received_resume None recv now p dl true e = (e', calls, r) /\ K e' ph paid /\ r <> RRaise.
Proof.
  intros P KK PH. unfold received_resume. destruct (n_ltb now dl); [|eexists _, _, _; split; [reflexivity|]; split; [auto|discriminate]].
  destruct (k_box _ _ _ KK p) as [l L]. rewrite L. destruct l as [|m l]; [eexists _, _, _; split; [reflexivity|]; split; [auto|discriminate]|].
  unfold process_messages. rewrite L.
  destruct (passenger_loop now p (m :: l) P (m :: l) e ph paid KK PH L) as (e' & c & v & E & K' & B); [apply incl_refl|].
  rewrite E. eexists _, _, _. split; [reflexivity|]. split; [|discriminate]. apply k_inbox; auto. intros y [].
Qed.

(** What is known of an agent that is doing that. *)
Definition idle (co : option (gobj (frame cpoint))) : Prop := co = None \/ co = Some GDone.
Definition link (al : bool) (cur : option (state cfun)) (co : option (gobj (frame cpoint))) (ph : phase) : Prop :=
  match ph with
  | DIdle => idle co /\ (al = false \/ cur = Some wandering)
  | DHold => al = true /\ cur = Some wandering /\ exists t, co = Some (GSusp (FIn (CWander t)))
  | DAsk k => al = true /\ cur = Some wandering /\ exists dl, co = Some (GSusp (FIn (CConfirm k dl)))
  | DDrive => al = true /\ cur = Some driving /\ (idle co \/ co = Some (GSusp (FIn CToOrigin)))
  | DCarry => al = true /\ cur = Some driving /\ co = Some (GSusp (FIn CToDest))
  | PNew => al = true /\ cur = Some asking /\ idle co
  | PWait j => al = true /\ cur = Some asking /\ exists ex dl, co = Some (GSusp (FIn (CWait j ex dl)))
  | PHome => al = true /\ cur = Some driving_home /\ (idle co \/ exists dl, co = Some (GSusp (FIn (CHome dl))))
  | PGone => al = false /\ idle co
  end.
Definition result (s : sched) (a : aid) (st : state cfun) (ops : list (fop cfun)) (g : gout cpoint (pyval cfun)) (ph : phase) : Prop :=
  match g with
  | GYield _ q => ops = [] /\ link true (Some st) (Some (GSusp (FIn q))) ph
  | GRaise d => ops = [] /\ d = false /\ link true (Some st) (Some GDone) ph
  | GReturn v => plain_value v /\ (ops = [] /\ link true (goes_to v (Some st)) None ph \/
                                   ops = [FDie a] /\ link false (goes_to v (Some st)) None ph /\
                                     (is_driver a = true -> check_passengers is_driver s = false))
  end.
Definition good (s : sched) (a : aid) (ph : aid -> phase) (paid : list nat) (st : state cfun)
    (o : cevents * list (fop cfun) * gout cpoint (pyval cfun)) : Prop :=
  let '(e', ops, g) := o in
  exists ph' paid', K e' ph' paid' /\ incl paid paid' /\ (forall b, b <> a -> ph' b = ph b) /\ result s a st ops g (ph' a).
Lemma good_in s a ph ph1 paid st e ops g p : K e (upd_ph ph1 a p) paid -> (forall b, b <> a -> ph1 b = ph b) -> result s a st ops g p ->
  good s a ph paid st (e, ops, g).
Proof.
  intros KK O R. exists (upd_ph ph1 a p), paid. split; auto. split; [apply incl_refl|]. split; [|now rewrite upd_same].
  intros b NE. rewrite upd_other; auto.
Qed.
Lemma good_same s a ph ph1 paid st e ops g : K e ph1 paid -> (forall b, b <> a -> ph1 b = ph b) -> result s a st ops g (ph1 a) ->
  good s a ph paid st (e, ops, g).
Proof. intros KK O R. exists ph1, paid. split; auto. split; [apply incl_refl|]. auto. Qed.
Lemma good_from s a ph ph1 paid st o : (forall b, b <> a -> ph1 b = ph b) -> good s a ph1 paid st o -> good s a ph paid st o.
Proof.
  intros O. destruct o as [[e ops] g]. intros (ph' & paid' & KK & I & OT & R). exists ph', paid'. split; auto. split; auto. split; auto.
  intros b NE. rewrite OT, O; auto.
Qed.

Lemma confirm_good s d k dl e ph paid : is_driver d = true -> K e ph paid -> ph d = DAsk k -> good s d ph paid wandering (confirm one s d k dl e).
Proof.
  intros D KK PH. unfold confirm, ask_resume. pose proof (k_drv _ _ _ KK d D) as DD. rewrite PH in DD. destruct DD as (LT & j & J & N & R & M).
  assert (NC : ph d <> DCarry) by congruence.
  destruct (n_ltb (s_time s) dl).
  - destruct R as [R|R]; rewrite R; cbn [a_journey].
    + eapply good_same; eauto. rewrite PH. cbn. eauto 6.
    + eapply good_in; [apply (k_set_journey e ph paid d (Some j) DDrive); auto|auto|].
      * intros i I. injection I as <-. exact (k_own _ _ _ KK d j D J).
      * exists j. cbn. rewrite at_same. auto.
      * cbn. split; [constructor|]. left. split; auto. split; auto. split; auto. left. now left.
  - eapply good_in; [apply (k_set_journey e ph paid d None DIdle); auto|auto|].
    + discriminate.
    + intros i. cbn. rewrite at_same. discriminate.
    + cbn. split; [constructor|]. left. split; auto. split; [now left|auto].
Qed.
Lemma start_asking_good s d e ph paid : is_driver d = true -> K e ph paid -> ph d = DHold -> cr_journey (e_rest e) d <> None ->
  good s d ph paid wandering (start_asking one s d e).
Proof.
  intros D KK PH NJ. unfold start_asking. destruct (cr_journey (e_rest e) d) as [j|] eqn:J; [|congruence].
  destruct (k_own _ _ _ KK d j D J) as (x & X & O). unfold jour in X. rewrite X.
  destruct (ask_start None (s_time s) (j_pass x) (Some j) (Some (secs one 60)) e) as [[e1 k] dl] eqn:E.
  destruct (k_ask e ph paid d j x D KK PH J X _ _ _ _ _ E) as [K1 _].
  apply (good_from s d ph (upd_ph ph d (DAsk k))); [intros b NE; now apply upd_other|].
  apply confirm_good; auto. apply upd_same.
Qed.
Lemma next_on_grid p t : grid p = true -> grid t = true -> grid (next_cell p t) = true.
Proof.
  destruct p as [x y], t as [x' y']. unfold next_cell. cbn [fst snd].
  destruct (Z.ltb_spec x x'); [|destruct (Z.ltb_spec x' x); [|destruct (Z.ltb_spec y y'); [|destruct (Z.ltb_spec y' y)]]];
    unfold on_grid; cbn [fst snd]; rewrite !andb_true_iff, !Z.leb_le, !Z.ltb_lt; lia.
Qed.
Lemma here_eq (p t : cell) : (fst t =? fst p)%Z && (snd t =? snd p)%Z = true <-> p = t.
Proof.
  rewrite andb_true_iff, !Z.eqb_eq. destruct p, t. cbn. split; [intros [-> ->]; auto|]. intros E. injection E as -> ->. auto.
Qed.
Lemma alone_move e ph paid d t r b : is_driver d = true -> K e ph paid -> ph d <> DCarry ->
  move_towards width height (e_rest e) d t false = (r, b) ->
  K (set_rest e r) ph paid /\ cr_journey r = cr_journey (e_rest e) /\ cr_journeys r = cr_journeys (e_rest e) /\
  (b = Some false -> r = e_rest e /\ cr_pos r d = t).
Proof.
  intros D KK NC. unfold move_towards, move_agent. destruct (_ && _) eqn:H.
  - intros E. injection E as <- <-. split; [now apply k_rest_same|]. apply here_eq in H. auto 6.
  - destruct (grid (next_cell (cr_pos (e_rest e) d) t)) eqn:G; intros E; injection E as <- <-.
    + split; [now apply k_set_pos|]. split; auto. split; auto. discriminate.
    + split; [now apply k_rest_same|]. split; auto. split; auto. discriminate.
Qed.
Lemma die_good s d ph ph1 paid st e : is_driver d = true -> K e (upd_ph ph1 d DIdle) paid -> (forall b, b <> d -> ph1 b = ph b) ->
  check_passengers is_driver s = false -> good s d ph paid st (dies e d).
Proof.
  intros D KK O CP. unfold dies. eapply good_in; eauto. cbn. split; [constructor|]. right. split; auto. split; [split; [now left|auto]|auto].
Qed.
Lemma wander_good s d t e ph paid : is_driver d = true -> K e ph paid -> ph d = DHold ->
  good s d ph paid wandering (wander one width height is_driver s d t e).
Proof.
  intros D KK PH. unfold wander. assert (NC : ph d <> DCarry) by congruence.
  destruct (cr_journey (e_rest e) d) as [j|] eqn:J; [apply start_asking_good; auto; congruence|].
  assert (NT : forall r1 t1, new_target width height (e_rest e) d t = (r1, t1) ->
    K (set_rest e r1) ph paid /\ cr_journey r1 d = None).
  { intros r1 t1. unfold new_target.
    assert (M : forall r0 m, match t with None => (e_rest e, Some false) | Some t => move_towards width height (e_rest e) d t false end = (r0, m) ->
      K (set_rest e r0) ph paid /\ cr_journey r0 d = None).
    { intros r0 m. destruct t as [t|].
      - intros E. destruct (alone_move e ph paid d t r0 m D KK NC E) as (K1 & E1 & _). split; auto. congruence.
      - intros E. injection E as <- <-. split; auto using k_rest_same. }
    destruct (match t with None => _ | Some _ => _ end) as [r0 m]. destruct (M r0 m eq_refl) as [K0 J0]. destruct m as [[|]|].
    - intros E. injection E as <- <-. auto.
    - unfold choice. destruct (nth_error _ _); intros E; injection E as <- <-; auto.
      split; [|exact J0]. exact (k_draws _ _ _ _ K0).
    - intros E. injection E as <- <-. auto. }
  destruct (new_target width height (e_rest e) d t) as [r1 [t1|]]; destruct (NT r1 _ eq_refl) as [K1 J1]; clear NT.
  - destruct (negb (check_passengers is_driver s)) eqn:CP; [apply negb_true_iff in CP|].
    + apply (die_good s d ph ph); auto. apply k_phase; auto. intros i I. cbn in I. congruence.
    + destruct (driver_process (s_time s) d (set_rest e r1) ph paid D K1 PH) as (e2 & -> & K2).
      eapply good_same; eauto. rewrite PH. cbn. eauto 6.
  - eapply good_in; [apply (k_phase _ ph paid d DIdle); auto; intros i I; cbn in I; congruence|auto|]. cbn. split; auto. split; auto. split; [now right|auto].
Qed.
Lemma wandering_good s d e ph paid : is_driver d = true -> K e ph paid -> ph d = DIdle ->
  good s d ph paid wandering (wandering_fn one width height is_driver s d e).
Proof.
  intros D KK PH. unfold wandering_fn. assert (NC : ph d <> DCarry) by congruence. destruct (negb (check_passengers is_driver s)) eqn:CP; [apply negb_true_iff in CP|].
  - apply (die_good s d ph ph); auto. apply k_phase; auto.
    pose proof (k_drv _ _ _ KK d D) as DD. rewrite PH in DD. exact DD.
  - apply (good_from s d ph (upd_ph ph d DHold)); [intros b NE; now apply upd_other|]. apply wander_good; [auto| |apply upd_same].
    apply k_set_journey; auto; [discriminate|]. left. cbn. apply at_same.
Qed.
Lemma to_destination_good s d e ph paid : is_driver d = true -> K e ph paid ->
  (ph d = DCarry \/ ph d = DDrive /\ forall j x, cr_journey (e_rest e) d = Some j -> jour e j x -> cr_pos (e_rest e) d = j_origin x) ->
  good s d ph paid driving (to_destination one width height is_driver s d e).
Proof.
  intros D KK PH. unfold to_destination.
  assert (U : unpaid e paid d).
  { pose proof (k_drv _ _ _ KK d D) as DD. destruct PH as [PH|[PH _]]; rewrite PH in DD; [apply DD|exact DD]. }
  pose proof U as (j & J & N). rewrite J. destruct (k_own _ _ _ KK d j D J) as (x & X & O). pose proof X as X'. unfold jour in X'. rewrite X'.
  assert (PH' : ph d = DCarry \/ ph d = DDrive /\ cr_pos (e_rest e) d = j_origin x) by (destruct PH as [PH|[PH H]]; eauto).
  unfold move_towards, move_agent. destruct (_ && _) eqn:H.
  - apply here_eq in H. pose proof (k_pay e ph paid d j x D KK J X PH' H) as K1.
    destruct (negb (check_passengers is_driver s)) eqn:CP; [apply negb_true_iff in CP|].
    + exists (upd_ph ph d DIdle), (j :: paid). split; auto. split; [intros i I; now right|]. split; [intros b NE; now apply upd_other|].
      rewrite upd_same. cbn. split; [constructor|]. right. split; auto. split; [split; [now left|auto]|auto].
    + exists (upd_ph ph d DIdle), (j :: paid). split; auto. split; [intros i I; now right|]. split; [intros b NE; now apply upd_other|].
      rewrite upd_same. cbn. split; [constructor|]. left. split; auto. split; [now left|auto].
  - assert (ND : cr_pos (e_rest e) d <> j_dest x). { intros E. apply here_eq in E. congruence. }
    destruct (grid (next_cell (cr_pos (e_rest e) d) (j_dest x))) eqn:G.
    + cbn [set_pos cr_journey cr_journeys]. rewrite J, X'. pose proof (k_carry e ph paid d j x _ D KK J X PH' ND G) as K1.
      cbn [cr_pos set_pos] in K1 |- *. rewrite ?at_same in *. eapply good_in; [exact K1|auto|]. cbn. auto.
    + eapply good_in; [apply (k_uncarry _ ph paid d); auto using k_rest_same| auto |].
      * intros i y I Y. cbn in *. assert (i = j) by congruence. subst i. assert (y = x) by (unfold jour in *; cbn in *; congruence). subst y.
        destruct (grid (j_dest x)) eqn:GD; auto. rewrite next_on_grid in G; auto. apply KK.
      * cbn. split; auto. split; auto. split; auto. split; auto. left. now right.
Qed.
Lemma to_origin_good s d e ph paid : is_driver d = true -> K e ph paid -> ph d = DDrive ->
  good s d ph paid driving (to_origin one width height is_driver s d e).
Proof.
  intros D KK PH. unfold to_origin. assert (NC : ph d <> DCarry) by congruence.
  pose proof (k_drv _ _ _ KK d D) as U. rewrite PH in U. destruct U as (j & J & N). rewrite J.
  destruct (k_own _ _ _ KK d j D J) as (x & X & O). pose proof X as X'. unfold jour in X'. rewrite X'.
  destruct (move_towards width height (e_rest e) d (j_origin x) false) as [r [[|]|]] eqn:M;
    destruct (alone_move e ph paid d _ _ _ D KK NC M) as (K1 & E1 & E2 & E3).
  - eapply good_same; eauto. rewrite PH. cbn. auto 8.
  - destruct (E3 eq_refl) as [-> P]. apply to_destination_good; auto. right. split; auto. intros i y I Y. cbn in *.
    assert (i = j) by congruence. subst i. assert (y = x) by (unfold jour in *; cbn in *; congruence). subst y. exact P.
  - eapply good_same; eauto. rewrite PH. cbn. split; auto. split; auto. split; auto. split; auto. left. now right.
Qed.

(** Passengers *)
Lemma rebroadcast_k s p j e ph paid : K e ph paid -> K (broadcast_to_drivers one is_driver s p j e) ph paid.
Proof. intros KK. apply k_broadcast; auto. intros d I. now apply filter_In in I. Qed.
Lemma wait_good s p j turns : is_driver p = false -> forall e ex dl ph paid, K e ph paid -> ph p = PWait j ->
  good s p ph paid asking (wait_for_driver one is_driver turns s p j ex dl e).
Proof.
  intros P. induction turns as [|n IH]; intros e ex dl ph paid KK PH; cbn [wait_for_driver].
  { eapply good_same; eauto. rewrite PH. cbn. eauto 8. }
  destruct (passenger_received (s_time s) p dl e ph paid P KK) as (e1 & c & r & -> & K1 & NR); [eauto|]. destruct r; [| | |congruence].
  - eapply good_same; eauto. rewrite PH. cbn. eauto 8.
  - destruct (cr_journey (e_rest e1) p) eqn:J; [|now apply IH].
    eapply good_in; [apply (k_phase_p _ ph paid p PHome); auto|auto|].
    + pose proof (k_psg _ _ _ K1 p P) as PP. rewrite PH in PP. destruct PP as [(x & X & XP) [H|H]]; [congruence|]. exists j, x. auto.
    + cbn. split; [constructor|]. left. split; auto. split; auto. split; auto. left. now left.
  - apply IH; auto. now apply rebroadcast_k.
Qed.
Lemma randint_in lo hi r x r' : randint lo hi r = Some (x, r') -> (lo <= x <= hi)%Z /\ exists d, r' = set_draws r d.
Proof.
  unfold randint. destruct (Z.ltb_spec hi lo); [discriminate|]. intros E. injection E as <- <-. split; [|eauto].
  pose proof (Z.mod_pos_bound (Z.of_nat (cr_draws r 0)) (hi - lo + 1)). lia.
Qed.
Lemma asking_good s p e ph paid : is_driver p = false -> K e ph paid -> ph p = PNew ->
  good s p ph paid asking (asking_fn one width height is_driver s p e).
Proof.
  intros P KK PH. unfold asking_fn.
  destruct (randint 0 (height - 1) (e_rest e)) as [[x r1]|] eqn:R1.
  2:{ eapply good_same; eauto. rewrite PH. cbn. split; auto. split; auto. split; auto. split; auto. now right. }
  destruct (randint_in _ _ _ _ _ R1) as (RX & d1 & ->).
  destruct (randint 0 (width - 1) _) as [[y r2]|] eqn:R2.
  2:{ eapply good_same; [apply (k_draws _ _ _ _ KK)|auto|]. rewrite PH. cbn. split; auto. split; auto. split; auto. split; auto. now right. }
  destruct (randint_in _ _ _ _ _ R2) as (RY & d2 & ->).
  destruct (randint 10 100 _) as [[tip r4]|] eqn:R3; [|unfold randint in R3; cbn in R3; discriminate].
  destruct (randint_in _ _ _ _ _ R3) as (TI & d3 & ->).
  set (r5 := set_journeys _ _). set (n := List.length _).
  assert (K5 : K (set_rest e r5) (upd_ph ph p (PWait n)) paid).
  { pose proof (k_draws _ _ _ d3 (k_create e ph paid p (x, y) tip P KK PH TI ltac:(cbn; lia))) as K5. exact K5. }
  apply (good_from s p ph (upd_ph ph p (PWait n))); [intros b NE; now apply upd_other|].
  apply wait_good; auto; [|apply upd_same]. now apply rebroadcast_k.
Qed.
Lemma home_cases s e ph paid p st : is_driver p = false -> K e ph paid -> ph p = PHome -> (st = driving_home) ->
  exists b, at_home (e_rest e) p = Some b /\ (b = true -> good s p ph paid st (e, [FDie p], GReturn PNone)).
Proof.
  intros P KK PH ->. pose proof (k_psg _ _ _ KK p P) as PP. rewrite PH in PP. destruct PP as (j & x & J & X & XP).
  unfold at_home. unfold jour in X. rewrite J, X. eexists. split; [reflexivity|]. intros H.
  assert (DE : cr_pos (e_rest e) p = j_dest x).
  { rewrite andb_true_iff, !Z.eqb_eq in H. destruct (cr_pos (e_rest e) p), (j_dest x). cbn in H. destruct H as [-> ->]. reflexivity. }
  eapply good_in; [apply (k_phase_p _ ph paid p PGone); auto|auto|].
  - exists j, x. auto.
  - cbn. split; [constructor|]. right. split; auto. split; [split; auto; now left|congruence].
Qed.
Lemma ride_good s p turns : is_driver p = false -> forall e dl ph paid, K e ph paid -> ph p = PHome ->
  good s p ph paid driving_home (ride one is_driver turns s p dl e).
Proof.
  intros P. induction turns as [|n IH]; intros e dl ph paid KK PH; cbn [ride].
  { eapply good_same; eauto. rewrite PH. cbn. eauto 8. }
  destruct (passenger_received (s_time s) p dl e ph paid P KK) as (e1 & c & r & -> & K1 & NR); [eauto|].
  destruct (home_cases s e1 ph paid p driving_home P K1 PH eq_refl) as (b & B & H). rewrite B.
  destruct r; [| | |congruence].
  - eapply good_same; eauto. rewrite PH. cbn. eauto 8.
  - destruct b; auto.
  - destruct b; auto.
Qed.
Lemma home_good s p e ph paid : is_driver p = false -> K e ph paid -> ph p = PHome ->
  good s p ph paid driving_home (home_fn one is_driver s p e).
Proof.
  intros P KK PH. unfold home_fn. destruct (home_cases s e ph paid p driving_home P KK PH eq_refl) as (b & B & H). rewrite B.
  destruct b; auto. now apply ride_good.
Qed.

(** ** A run *)
Variable total : nat.
Definition passengers (reg : list aid) : list aid := filter (fun b => negb (is_driver b)) reg.
Definition town (reg : list aid) (x : cworld * cors (frame cpoint)) : Prop :=
  (forall a, exists states, fa_kind (fw_agents (fst x) a) = KFsm states) /\
  (exists ph paid, K (fw_rest (fst x)) ph paid /\
    forall a, link (fa_alive (fw_agents (fst x) a)) (fa_cur (fw_agents (fst x) a)) (get_co (snd x) a) (ph a)) /\
  (forall a, (a < total)%nat -> In a reg <-> fa_alive (fw_agents (fst x) a) = true) /\
  (forall a, In a reg -> (a < total)%nat) /\
  (forall d, (d < total)%nat -> is_driver d = true -> fa_alive (fw_agents (fst x) d) = false -> passengers reg = []).
Definition listed (x : cworld * cors (frame cpoint)) (a : aid) : Prop := (a < total)%nat.

Lemma link_no_start al cur co ph : link al cur co ph -> co <> Some (GSusp FStart).
Proof.
  intros H ->. unfold link, idle in H. destruct ph;
  repeat match goal with
  | H : _ /\ _ |- _ => destruct H
  | H : _ \/ _ |- _ => destruct H
  | H : exists _, _ |- _ => destruct H
  end; discriminate.
Qed.
Lemma link_idle al cur co co' ph : link al cur co ph -> idle co -> idle co' -> link al cur co' ph.
Proof.
  intros H I I'. unfold link in *. destruct ph; try tauto.
  1-3: exfalso; destruct I as [->| ->];
    repeat match goal with H : _ /\ _ |- _ => destruct H | H : exists _, _ |- _ => destruct H end; discriminate.
  exfalso; destruct I as [->| ->];
    repeat match goal with H : _ /\ _ |- _ => destruct H | H : exists _, _ |- _ => destruct H end; discriminate.
Qed.

Lemma code_good s a q w c ph paid : K (fw_rest w) ph paid ->
  link (fa_alive (fw_agents w a)) (fa_cur (fw_agents w a)) (get_co c a) (ph a) ->
  resumes (cars_code one width height is_driver) w c a q ->
  exists st, fa_alive (fw_agents w a) = true /\ fa_cur (fw_agents w a) = Some st /\
  good s a ph paid st (c_resume (cars_code one width height is_driver) s a q w).
Proof.
  intros KK L R. unfold resumes in R. cbn [c_start cars_code] in R.
  assert (T : (is_driver a = true /\ dphase (fw_rest w) paid a (ph a)) \/ (is_driver a = false /\ pphase (fw_rest w) a (ph a))).
  { destruct (is_driver a) eqn:D; [left|right]; split; auto; apply KK; auto. }
  unfold link, idle in L. destruct (ph a) eqn:PH; destruct T as [[D T]|[D T]]; try (destruct T; fail); cbn [c_resume cars_code].
  - (* DIdle *) destruct L as [[L|L] LL]; destruct R as [R|(st & R1 & R2 & R3 & ->)]; try congruence.
    destruct LL as [LL|LL]; [congruence|]. exists wandering. split; auto. split; auto. cbn. rewrite LL in R3. injection R3 as <-. cbn.
    now apply wandering_good.
  - destruct L as (L1 & L2 & t & L3). destruct R as [R|(st & R1 & _)]; [|congruence]. rewrite L3 in R. injection R as <-.
    exists wandering. split; auto. split; auto. now apply wander_good.
  - destruct L as (L1 & L2 & t & L3). destruct R as [R|(st & R1 & _)]; [|congruence]. rewrite L3 in R. injection R as <-.
    exists wandering. split; auto. split; auto. now apply confirm_good.
  - destruct L as (L1 & L2 & [[L|L]|L]); destruct R as [R|(st & R1 & R2 & R3 & ->)]; try congruence; exists driving; split; auto; split; auto.
    + rewrite L2 in R3. injection R3 as <-. now apply to_origin_good.
    + rewrite L in R. injection R as <-. now apply to_origin_good.
  - destruct L as (L1 & L2 & L3). destruct R as [R|(st & R1 & _)]; [|congruence]. rewrite L3 in R. injection R as <-.
    exists driving. split; auto. split; auto. apply to_destination_good; auto.
  - destruct L as (L1 & L2 & [L|L]); destruct R as [R|(st & R1 & R2 & R3 & ->)]; try congruence; exists asking; split; auto; split; auto.
    rewrite L2 in R3. injection R3 as <-. now apply asking_good.
  - destruct L as (L1 & L2 & ex & dl & L3). destruct R as [R|(st & R1 & _)]; [|congruence]. rewrite L3 in R. injection R as <-.
    exists asking. split; auto. split; auto. now apply wait_good.
  - destruct L as (L1 & L2 & [[L|L]|[dl L]]); destruct R as [R|(st & R1 & R2 & R3 & ->)]; try congruence; exists driving_home; split; auto; split; auto.
    + rewrite L2 in R3. injection R3 as <-. now apply home_good.
    + rewrite L in R. injection R as <-. now apply ride_good.
  - destruct L as (L1 & [L|L]); destruct R as [R|(st & R1 & R2 & R3 & ->)]; congruence.
Qed.

Lemma town_step_inv shuffle : step_inv (cars_user one width height is_driver shuffle) town listed.
Proof.
  intros s a [w c] [w' c'] ops o (KI & (ph & paid & KK & L) & RG & RL & DD) Q E. cbn [fst snd] in *.
  destruct (KI a) as [states KA]. cbn [u_step cars_user agent_user] in E.
  assert (NS : get_co c a <> Some (GSusp FStart)) by (eapply link_no_start; apply L).
  destruct (yield_step (cars_code one width height is_driver) (fun _ => None) s a w c w' c' ops o states) as [(-> & -> & H)|H]; auto.
  - intros q r ops0 g R CR. destruct (code_good s a q w c ph paid KK (L a) R) as (st & _ & _ & G). rewrite CR in G.
    destruct G as (ph' & paid' & _ & _ & _ & RE). destruct g; auto. apply RE.
  - split; [|split; [auto|intros b t []]]. cbn [run_ops fst]. unfold town. cbn [fst snd]. split; [exact KI|]. split; [|auto].
    exists ph, paid. split; [exact KK|]. intros b. destruct (Nat.eq_dec b a) as [->|NE].
    + assert (X : idle (get_co c a) /\ idle (get_co c' a)).
      { unfold idle. destruct H as [(H1 & [H2 _] & _)|(H1 & [H2 _] & _)]; rewrite H1, H2; auto. }
      destruct X. eapply link_idle; eauto.
    + assert (get_co c' b = get_co c b) as ->; [|apply L]. destruct H as [(_ & [_ H] & _)|(_ & [_ H] & _)]; auto.
  - destruct H as (q & r & fops & g & w1 & R & CR & RF & H).
    destruct (code_good s a q w c ph paid KK (L a) R) as (st & AL & CU & G). rewrite CR in G.
    destruct G as (ph' & paid' & K' & _ & OT & RE).
    assert (CAO : forall x, co_after c c' a x -> forall b, b <> a -> get_co c' b = get_co c b) by (intros x [_ X]; exact X).
    (* no death *)
    assert (QUIET : forall x cur', fops = [] -> co_after c c' a x -> fw_rest w' = r -> (forall b, b <> a -> fw_agents w' b = fw_agents w b) ->
      fw_agents w' a = set_cur (fw_agents w a) cur' -> link true cur' x (ph' a) ->
      town (s_reg (fst (run_ops s ops))) (w', c') /\ (forall b, listed (w, c) b -> listed (w', c') b) /\
      (forall b t, In (SAdd b t) ops -> listed (w', c') b)).
    { intros x cur' -> CA FR FO FA LK. cbn in RF. injection RF as <- <-. split; [|split; [auto|intros b t []]]. cbn [run_ops fst].
      assert (ALE : forall b, fa_alive (fw_agents w' b) = fa_alive (fw_agents w b)).
      { intros b. destruct (Nat.eq_dec b a) as [->|NE]; [now rewrite FA|now rewrite FO]. }
      unfold town. cbn [fst snd]. split; [|split; [|split; [|split]]].
      - intros b. destruct (Nat.eq_dec b a) as [->|NE]; [rewrite FA; exact (KI a)|rewrite FO by auto; exact (KI b)].
      - exists ph', paid'. rewrite FR. split; [exact K'|]. intros b. destruct (Nat.eq_dec b a) as [->|NE].
        + rewrite FA. destruct CA as [-> _]. cbn. rewrite AL. exact LK.
        + rewrite FO, OT, (CAO _ CA) by auto. apply L.
      - intros b B. rewrite ALE. auto.
      - exact RL.
      - intros d B D X. rewrite ALE in X. eauto. }
    assert (ID : forall x : fagent cfun, x = set_cur x (fa_cur x)) by (now intros []).
    destruct g as [v q'|v|dd]; cbn [result] in RE.
    + destruct RE as [-> LK]. destruct H as (-> & CA & _). pose proof RF as RF'. cbn in RF. injection RF as <- <-.
      apply (QUIET _ (Some st) eq_refl CA); auto; rewrite <- CU; apply ID.
    + destruct RE as (PV & RE). destruct H as (CA & _ & _ & FR & FO & FA).
      destruct RE as [[-> LK]|(-> & LK & CP)].
      * pose proof RF as RF'. cbn in RF'. injection RF' as <- <-. cbn in FA. rewrite CU in FA. eapply QUIET; eauto.
      * cbn [run_fops] in RF. injection RF as <- <-. split; [|split; [auto|intros b t [X|[]]; discriminate]].
        unfold upd in *. cbn [fw_agents fw_rest] in *. rewrite Nat.eqb_refl in FA.
        assert (FO' : forall b, b <> a -> fw_agents w' b = fw_agents w b).
        { intros b NE. rewrite FO by auto. apply Nat.eqb_neq in NE. now rewrite NE. }
        cbn [run_ops run_op fst reg_rem set_reg s_reg]. unfold town. cbn [fst snd]. split; [|split; [|split; [|split]]].
        { intros b. destruct (Nat.eq_dec b a) as [->|NE]; [rewrite FA; exact (KI a)|rewrite FO' by auto; exact (KI b)]. }
        { exists ph', paid'. rewrite FR. split; [exact K'|]. intros b. destruct (Nat.eq_dec b a) as [->|NE].
          - rewrite FA. destruct CA as [-> _]. cbn. rewrite CU. exact LK.
          - rewrite FO', OT, (CAO _ CA) by auto. apply L. }
        { intros b B. rewrite filter_In. destruct (Nat.eq_dec b a) as [->|NE].
          - rewrite FA. cbn. rewrite Nat.eqb_refl. split; [intros [_ X]; discriminate|discriminate].
          - rewrite FO', <- RG by auto. rewrite Nat.eqb_sym. apply Nat.eqb_neq in NE. rewrite NE. tauto. }
        { intros b J. apply filter_In in J as [J _]. auto. }
        { assert (SUB : forall reg, passengers reg = [] -> passengers (filter (fun b => negb (Nat.eqb a b)) reg) = []).
          { intros reg X. destruct (passengers (filter (fun b => negb (Nat.eqb a b)) reg)) as [|y l] eqn:Y; auto. exfalso.
            assert (J : In y (passengers (filter (fun b => negb (Nat.eqb a b)) reg))) by (rewrite Y; now left).
            unfold passengers in J. rewrite !filter_In in J. destruct J as [[J _] J2].
            assert (In y (passengers reg)) by (apply filter_In; auto). rewrite X in H. destruct H. }
          intros d B D X. apply SUB. destruct (Nat.eq_dec d a) as [->|NE].
          - specialize (CP D). unfold check_passengers in CP. apply negb_false_iff, Nat.eqb_eq in CP.
            unfold passengers. destruct (filter _ (s_reg s)); auto. discriminate.
          - rewrite FO' in X by auto. eauto. }
    + destruct RE as (-> & -> & LK). destruct H as (-> & CA & _). pose proof RF as RF'. cbn in RF. injection RF as <- <-.
      apply (QUIET _ (Some st) eq_refl CA); auto; rewrite <- CU; apply ID.
Qed.
Lemma town_shuffle_inv shuffle : fair shuffle -> shuffle_inv (cars_user one width height is_driver shuffle) town listed.
Proof.
  intros FA l reg [w c] [w' c'] l' (KI & (ph & paid & KK & L) & R) E. cbn [fst snd] in *.
  cbn [u_shuffle cars_user agent_user fst snd] in E. specialize (FA l (fw_rest w)).
  destruct (shuffle l (fw_rest w)) as [e' l2]. destruct FA as [PE [d D]]. injection E as <- <- <-.
  split; [|split; [auto|]].
  - split; [exact KI|]. split; [|exact R]. exists ph, paid. split; [|exact L]. cbn. rewrite D. now apply k_draws.
  - intros b J. eapply Permutation_in; [apply Permutation_sym; exact PE|exact J].
Qed.
End Cars.

(** ** What a run reaches *)
Lemma city_start {AR : Arith} width height n_cars place draws : (forall a, on_grid width height (place a) = true) ->
  K width height (a_driver n_cars) (fw_rest (city_world n_cars place draws)) (fun a => if a_driver n_cars a then DIdle else PNew) [].
Proof.
  intros G. cbn [city_world fw_rest].
  assert (NJ : forall j x, ~ jour (EWorld (fun _ => Some []) (fun _ => 0) (fun _ => None) 0
       (CRest [] place (fun _ => None) (fun _ => 0%Z) 0 draws)) j x).
  { intros j x H. unfold jour in H. cbn in H. destruct j; discriminate. }
  constructor; try (intros; exfalso; eapply NJ; eassumption); cbn.
  - eauto.
  - intros d l m D E. injection E as <-. intros [].
  - intros p l m D E. injection E as <-. intros [].
  - discriminate.
  - exact G.
  - constructor.
  - intros j [].
  - reflexivity.
  - reflexivity.
  - intros d D. rewrite D. cbn. discriminate.
  - intros p D. rewrite D. intros j x H. exfalso. eapply NJ; eauto.
Qed.
Lemma reached_town width height n_cars n_passengers s w c : reached width height n_cars n_passengers s w c ->
  town width height (a_driver n_cars) (n_cars + n_passengers) (s_reg s) (w, c).
Proof.
  intros (AR & one & shuffle & ordered & di & place & draws & n & tr & FA & G & E).
  unfold city_run in E. rewrite run_hist_app in E.
  destruct (add_run (cars_user one width height (a_driver n_cars) shuffle) (seq 0 (n_cars + n_passengers)) (timed_init (negb ordered) di)
    (city_world n_cars place draws, no_cors)) as (s0 & tr0 & E0 & R & Q); [cbn [timed_init s_reg app]; apply seq_NoDup|].
  rewrite E0 in E. destruct (run_hist _ (repeat CStep n) s0 _) as [[s1 x1] tr1] eqn:E1. injection E as -> -> <-.
  cbn [timed_init s_reg app] in R.
  destruct (steps_inv _ (town width height (a_driver n_cars) (n_cars + n_passengers)) (listed (n_cars + n_passengers))
    (town_step_inv width height (a_driver n_cars) one (n_cars + n_passengers) shuffle)
    (town_shuffle_inv width height (a_driver n_cars) one (n_cars + n_passengers) shuffle FA) n s0 (city_world n_cars place draws, no_cors) s (w, c) tr1) as [H _]; auto.
  split.
  - unfold town. cbn [fst snd]. split; [intros a; cbn; eauto|]. split; [|rewrite R; split; [|split]].
    + exists (fun a => if a_driver n_cars a then DIdle else PNew), []. split; [now apply city_start|].
      intros a. cbn [city_world fw_agents]. destruct (a_driver n_cars a).
      * cbn. unfold idle. auto.
      * cbn. unfold idle. auto.
    + intros a L. rewrite in_seq. cbn. split; [reflexivity|intros _; lia].
    + intros a L. rewrite in_seq in L. lia.
    + intros d _ _ X. cbn in X. discriminate.
  - intros t b a J B. destruct (Q t b a J B) as [H|(t' & b' & [] & _)]. unfold listed. rewrite in_seq in H. lia.
Qed.

(** ** Sums and ways *)
Lemma shared_out l n : forall paid, (forall j, In j paid -> exists d, (d < n)%nat /\ forall b, driven_by l b j = Nat.eqb d b) ->
  tips l paid = fold_right Z.add 0%Z (map (fun d => tips l (filter (driven_by l d) paid)) (seq 0 n)).
Proof.
  assert (Z0 : forall m k, fold_right Z.add 0%Z (map (fun _ => 0%Z) (seq k m)) = 0%Z).
  { induction m as [|m IH]; intros k; cbn [seq map fold_right]; auto. rewrite IH. reflexivity. }
  assert (ADD : forall (f g : nat -> Z) x d m k, (forall b, f b = (if Nat.eqb d b then x + g b else g b)%Z) ->
    fold_right Z.add 0%Z (map f (seq k m)) = ((if (k <=? d)%nat && (d <? k + m)%nat then x else 0) + fold_right Z.add 0 (map g (seq k m)))%Z).
  { intros f g x d m. induction m as [|m IH]; intros k H; cbn [seq map fold_right].
    - destruct (Nat.leb_spec k d), (Nat.ltb_spec d (k + 0)); cbn; try lia.
    - rewrite (IH (S k) H), (H k). destruct (Nat.eqb_spec d k), (Nat.leb_spec (S k) d), (Nat.ltb_spec d (S k + m)), (Nat.leb_spec k d), (Nat.ltb_spec d (k + S m)); cbn [andb]; lia. }
  induction paid as [|j paid IH]; intros H.
  - cbn [filter]. unfold tips at 2. cbn [fold_right]. now rewrite Z0.
  - destruct (H j (or_introl eq_refl)) as (d & L & E).
    rewrite (ADD _ (fun b => tips l (filter (driven_by l b) paid)) (tip_of l j) d).
    + unfold tips at 1. cbn [fold_right]. fold (tips l paid). rewrite IH by (intros i I; apply H; now right).
      replace ((0 <=? d)%nat && (d <? 0 + n)%nat) with true; [reflexivity|]. symmetry. apply andb_true_iff. split; [reflexivity|]. now apply Nat.ltb_lt.
    + intros b. cbn [filter]. rewrite E. destruct (Nat.eqb d b); reflexivity.
Qed.
Lemma no_distance p q : (distance p q <= 0)%Z -> p = q.
Proof. destruct p as [x y], q as [x' y']. unfold distance. cbn [fst snd]. intros H. f_equal; lia. Qed.
Lemma nearer width height r a target with_passenger r' b :
  on_grid width height (cr_pos r a) = true -> on_grid width height target = true ->
  (with_passenger = true -> exists j x, cr_journey r a = Some j /\ nth_error (cr_journeys r) j = Some x) ->
  move_towards width height r a target with_passenger = (r', b) ->
  (cr_pos r a = target /\ b = Some false /\ r' = r) \/
  (cr_pos r a <> target /\ b = Some true /\
   (distance (cr_pos r' a) target = distance (cr_pos r a) target - 1)%Z /\ distance (cr_pos r a) (cr_pos r' a) = 1%Z /\
   on_grid width height (cr_pos r' a) = true /\
   (with_passenger = true -> forall j x, cr_journey r a = Some j -> nth_error (cr_journeys r) j = Some x ->
      cr_pos r' (j_pass x) = cr_pos r' a) /\
   (with_passenger = false -> forall o, o <> a -> cr_pos r' o = cr_pos r o)).
Proof.
  intros P T W. unfold move_towards, move_agent. destruct (_ && _) eqn:H.
  { apply here_eq in H. intros E. injection E as <- <-. auto. }
  rewrite next_on_grid by auto. assert (NE : cr_pos r a <> target). { intros E. apply here_eq in E. congruence. }
  set (n := next_cell (cr_pos r a) target).
  assert (N : (distance n target = distance (cr_pos r a) target - 1)%Z /\ distance (cr_pos r a) n = 1%Z).
  { subst n. unfold next_cell. destruct (cr_pos r a) as [x y], target as [x' y']. cbn [fst snd].
    destruct (Z.ltb_spec x x'); [|destruct (Z.ltb_spec x' x); [|destruct (Z.ltb_spec y y'); [|destruct (Z.ltb_spec y' y)]]];
      unfold distance; cbn [fst snd]; try lia. exfalso. apply NE. f_equal; lia. }
  assert (G : on_grid width height n = true) by (now apply next_on_grid). destruct N as [N1 N2].
  destruct with_passenger.
  - destruct (W eq_refl) as (j & x & J & X). cbn [set_pos cr_journey cr_journeys cr_pos]. rewrite J, X, at_same. intros E. injection E as <- <-.
    right. cbn. assert (Q : forall o, at_agent (at_agent (cr_pos r) a n) (j_pass x) n o = if Nat.eqb o a || Nat.eqb o (j_pass x) then n else cr_pos r o).
    { intros o. unfold at_agent. destruct (Nat.eqb o (j_pass x)), (Nat.eqb o a); reflexivity. }
    rewrite Q, Nat.eqb_refl. cbn. split; auto. split; auto. split; auto. split; auto. split; auto. split; [|discriminate].
    intros _ i y I Y. assert (i = j) by congruence. subst i. assert (y = x) by congruence. subst y. rewrite at_same. reflexivity.
  - intros E. injection E as <- <-. right. cbn. rewrite at_same. split; auto. split; auto. split; auto. split; auto. split; auto. split; [discriminate|].
    intros _ o NO. now apply at_other.
Qed.
