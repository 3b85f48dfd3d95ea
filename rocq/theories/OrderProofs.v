(** Proofs about the order of the agents of one instant without shuffling. *)
From Coq Require Import ZArith List Bool Arith Permutation Lia Sorted.
From Verif Require Import Num TimedModel TimedSpec TimedProofs PQueueModel PQueueSpec
  PQueueProofs OrderSpec.
Import ListNotations.

Section Arith.
Context {AR : Arith}.

Lemma first_come_app di t1 : forall ag t2,
  first_come di ag (t1 ++ t2) <-> first_come di ag t1 /\ first_come di (agenda di ag t1) t2.
Proof.
  induction t1 as [|[t a|t a o] t1 IH]; simpl; intros ag t2; [tauto| |]; rewrite ?IH; tauto.
Qed.

Lemma due_at_first t a l ag : is_time t = true -> due_at t ag = a :: l ->
  exists l1 l2, ag = l1 ++ (t, a) :: l2 /\ (forall p, In p l1 -> n_eqb (fst p) t = false).
Proof.
  intros T. induction ag as [|[t' b] ag IH]; unfold due_at; simpl; [discriminate|].
  destruct (n_eqb t' t) eqn:E.
  - intros H. injection H as -> _. apply n_eqb_eq in E. subst t'. exists [], ag. split; [reflexivity|].
    intros p [].
  - intros H. destruct (IH H) as (l1&l2&->&N). exists ((t', b) :: l1), l2. split; [reflexivity|].
    intros p [<-|I]; auto.
Qed.

(** In the middle of a bucket: [rb] are the agents that have not run yet, in order. *)
Definition obinv (rb : list aid) (s : sched) (ag : list (num * aid)) : Prop :=
  binv rb s ag /\ due_at (s_time s) ag = rb ++ bucket_of (s_time s) (s_queue s).

Lemma binv_late rb s ag p : binv rb s ag -> In p ag -> n_leb (s_time s) (fst p) = true.
Proof.
  intros (H1&H2&_&H4) I. destruct p as [t a]. simpl.
  assert (is_time t = true) as T.
  { unfold times_ok in H2. rewrite Forall_forall in H2. apply (H2 _ I). }
  assert (is_time (s_time s) = true) as Ts by apply nonneg_is_time, H1.
  destruct (n_ltb t (s_time s)) eqn:L; [|apply n_total; auto].
  apply in_due_at in I; auto. rewrite H4 in I; auto; [|apply n_ltb_neq; auto].
  rewrite (wfq_bucket_lt _ _ _ (proj2 (proj2 H1)) L) in I. contradiction.
Qed.

Lemma obinv_first a rb s ag : obinv (a :: rb) s ag ->
  exists l1 l2, ag = l1 ++ (s_time s, a) :: l2 /\
    (forall p, In p l1 -> n_ltb (s_time s) (fst p) = true) /\
    (forall p, In p l2 -> n_leb (s_time s) (fst p) = true).
Proof.
  intros [B D]. assert (is_time (s_time s) = true) as Ts by apply nonneg_is_time, B.
  simpl in D. destruct (due_at_first _ _ _ _ Ts D) as (l1&l2&E&N). exists l1, l2.
  split; [exact E|]. split.
  - intros p I. assert (n_leb (s_time s) (fst p) = true) as L.
    { apply (binv_late _ _ _ _ B). rewrite E. apply in_or_app; auto. }
    unfold n_leb in L. destruct (n_ltb (s_time s) (fst p)) eqn:LT; auto. simpl in L.
    specialize (N p I). apply n_eqb_eq in L. rewrite <- L in N. rewrite n_eqb_refl in N; congruence.
  - intros p I. apply (binv_late _ _ _ _ B). rewrite E. apply in_or_app; right; right; auto.
Qed.

Lemma run_op_obinv rb s op s' tr ag : run_op s op = (s', tr) -> obinv rb s ag ->
  obinv rb s' (agenda (s_di s) ag tr) /\ first_come (s_di s) ag tr.
Proof.
  intros E [B D]. destruct (run_op_binv _ _ _ _ _ _ E B) as (B'&_&_).
  pose proof B as (H1&_). destruct (run_op_winv _ _ _ _ E H1) as [_ C].
  destruct C as (C1&_).
  split; [split; [exact B'|]|].
  - assert (is_time (s_time s) = true) as T by apply nonneg_is_time, H1.
    destruct op as [a when|a]; simpl in E; injection E as <- <-.
    + cbn [agenda]. rewrite C1, timed_add_queue, due_at_app, due_at_one, D, n_eqb_refl; auto.
      rewrite (insert_bucket_of (s_time s)); auto using n_leb_refl; [|apply H1].
      rewrite n_eqb_refl; auto. now rewrite app_assoc.
    + exact D.
  - destruct op as [a when|a]; simpl in E; injection E as <- <-; simpl; auto.
Qed.

Lemma run_ops_obinv rb ops : forall s s' tr ag, run_ops s ops = (s', tr) -> obinv rb s ag ->
  obinv rb s' (agenda (s_di s) ag tr) /\ first_come (s_di s) ag tr /\ same_clock s s'.
Proof.
  induction ops as [|op ops IH]; simpl; intros s s' tr ag E H.
  - injection E as <- <-. simpl. auto using same_clock_refl.
  - destruct (run_op s op) as [s1 e1] eqn:E1.
    destruct (run_ops s1 ops) as [s2 e2] eqn:E2. injection E as <- <-.
    destruct (run_op_obinv _ _ _ _ _ _ E1 H) as (H1&P1).
    destruct (run_op_winv _ _ _ _ E1 (proj1 (proj1 H))) as [_ C1].
    destruct (IH _ _ _ _ E2 H1) as (H2&P2&C2).
    assert (s_di s1 = s_di s) as D by apply C1. rewrite D in *.
    split; [rewrite agenda_app; exact H2|]. split; [rewrite first_come_app; auto|].
    eauto using same_clock_trans.
Qed.

Lemma act_obinv a rb s ag o : obinv (a :: rb) s ag -> good_delay o ->
  match next_due (s_di s) (s_time s) o with
  | None => obinv rb s (agenda (s_di s) ag [EvAct (s_time s) a o])
  | Some t => obinv rb (timed_schedule s a (Some t))
                   (agenda (s_di s) ag [EvAct (s_time s) a o])
  end.
Proof.
  intros [B D] G. destruct (act_binv _ _ _ _ _ B G) as [B' _].
  pose proof B as (H1&_).
  assert (is_time (s_time s) = true) as T by apply nonneg_is_time, H1.
  assert (due_at (s_time s) (remove1 (s_time s, a) ag) =
          rb ++ bucket_of (s_time s) (s_queue s)) as D'.
  { rewrite due_at_remove1, n_eqb_refl, D; auto. simpl. now rewrite Nat.eqb_refl. }
  destruct (next_due (s_di s) (s_time s) o) as [t|] eqn:ND.
  - split; [exact B'|].
    assert (n_leb (s_time s) t = true) as L.
    { unfold next_due in ND. destruct o as [r| |]; try discriminate.
      set (d := match r with None => s_di s | Some v => if n_eqb v (Fin 0) then s_di s else v end) in *.
      destruct (n_eqb (n_add (s_time s) d) PInf); inversion ND; subst t.
      apply n_add_leb; auto. subst d. destruct r as [v|]; [|apply H1].
      destruct (n_eqb v (Fin 0)); [apply H1|exact G]. }
    destruct (timed_schedule_winv s a t H1 L) as (W1&C1&Q1).
    assert (s_time (timed_schedule s a (Some t)) = s_time s) as Tm by apply C1.
    simpl agenda. rewrite ND. rewrite Tm, Q1.
    rewrite (insert_bucket_of (s_time s)); auto; [|apply H1].
    simpl opt_due. rewrite due_at_app, due_at_one, D'. now rewrite app_assoc.
  - split; [exact B'|]. simpl. rewrite ND. simpl. rewrite app_nil_r. exact D'.
Qed.

Section U.
Context {W : Type} (u : user W) (Hf : forward_only u).

Lemma run_bucket_obinv b : forall s w s' w' tr x ag,
  run_bucket u (s_time s) b s w = (s', w', tr, x) -> obinv b s ag ->
  first_come (s_di s) ag tr.
Proof.
  induction b as [|a b IH]; simpl; intros s w s' w' tr x ag E H.
  - injection E as <- <- <- <-. simpl. auto.
  - destruct (u_step u s a w) as [[w1 ops] o] eqn:EU.
    destruct (run_ops s ops) as [s1 tr1] eqn:EO.
    destruct (run_ops_obinv _ _ _ _ _ _ EO H) as (H1&P1&C1).
    pose proof (forward_good _ _ _ _ _ _ _ Hf EU) as G.
    assert (s_time s1 = s_time s) as T1 by apply C1.
    assert (s_di s1 = s_di s) as D1 by apply C1.
    pose proof (act_obinv _ _ _ _ _ H1 G) as H2.
    pose proof (obinv_first _ _ _ _ H1) as F1.
    rewrite D1, T1 in H2. rewrite T1 in F1.
    assert (first_come (s_di s) ag (tr1 ++ [EvAct (s_time s) a o])) as P2.
    { rewrite first_come_app. split; [exact P1|]. simpl. auto. }
    assert (forall s2 w2 s3 w3 tr3 x3,
      same_clock s1 s2 ->
      obinv b s2 (agenda (s_di s) (agenda (s_di s) ag tr1) [EvAct (s_time s) a o]) ->
      run_bucket u (s_time s) b s2 w2 = (s3, w3, tr3, x3) ->
      first_come (s_di s) ag ((tr1 ++ [EvAct (s_time s) a o]) ++ tr3)) as K.
    { intros s2 w2 s3 w3 tr3 x3 C2 B2 EB.
      assert (s_time s2 = s_time s) as T2 by (destruct C2 as (C2&_); congruence).
      assert (s_di s2 = s_di s) as D2 by (destruct C2 as (_&C2&_); congruence).
      rewrite <- T2 in EB.
      pose proof (IH _ _ _ _ _ _ _ EB B2) as P3.
      rewrite D2 in P3. rewrite first_come_app. split; [exact P2|].
      rewrite agenda_app. exact P3. }
    destruct o as [r| |].
    + rewrite D1 in E. set (t := n_add (or_num r (s_di s)) (s_time s)) in *.
      set (s2 := if negb (n_eqb t PInf) then timed_schedule s1 a (Some t) else s1) in *.
      destruct (run_bucket u (s_time s) b s2 w1) as [[[s3 w3] tr3] x3] eqn:EB.
      injection E as <- <- <- <-.
      eapply (K s2); eauto.
      * subst s2. destruct (n_eqb t PInf); simpl; auto using same_clock_refl.
        repeat split.
      * rewrite next_due_when in H2. cbv zeta in H2. fold t in H2. subst s2.
        destruct (n_eqb t PInf); simpl; auto.
    + destruct (run_bucket u (s_time s) b s1 w1) as [[[s3 w3] tr3] x3] eqn:EB.
      injection E as <- <- <- <-.
      eapply (K s1); eauto using same_clock_refl.
    + injection E as <- <- <- <-. exact P2.
Qed.

Lemma timed_step_first s w s' w' tr x ag : s_shuffle s = false ->
  timed_step u s w = (s', w', tr, x) -> inv s ag -> first_come (s_di s) ag tr.
Proof.
  intros SH E H. pose proof H as (HW&HT&HB). unfold timed_step in E. rewrite SH in E.
  assert (is_time (s_time s) = true) as T by apply nonneg_is_time, HW.
  destruct (s_queue s) as [|[k b] q] eqn:EQ.
  - injection E as <- <- <- <-. simpl. auto.
  - assert (n_leb (s_time s) k = true /\ b <> [] /\ above k q) as (L&B&A).
    { destruct HW as (_&_&HW). rewrite EQ in HW. exact HW. }
    destruct (n_ltb (s_time s) k) eqn:LT; [injection E as <- <- <- <-; simpl; auto|].
    assert (k = s_time s) as ->.
    { apply n_leb_antisym; auto. apply n_total; auto. eapply n_leb_is_time; eauto. }
    set (s0 := set_queue s q) in *.
    assert (due_at (s_time s) ag = b) as Db.
    { rewrite HB; auto. apply bucket_head; auto. }
    assert (obinv b s0 ag) as B0.
    { split; [split; [|split; [auto|split]]|].
      - destruct HW as (H1&H2&H3). repeat split; auto. simpl. apply above_wfq; auto.
      - exists b. split; auto. simpl. rewrite Db.
        rewrite (above_bucket _ _ _ A); auto using n_leb_refl. now rewrite app_nil_r.
      - intros k' Tk' N. simpl in *. rewrite HB; auto. simpl.
        destruct (n_eqb (s_time s) k') eqn:E'; auto.
        apply n_eqb_eq in E'; subst. rewrite n_eqb_refl in N; congruence.
      - simpl. rewrite Db. rewrite (above_bucket _ _ _ A); auto using n_leb_refl.
        now rewrite app_nil_r. }
    destruct (run_bucket u (s_time s) b s0 w) as [[[s1 w1] tr1] x1] eqn:EB.
    pose proof (run_bucket_obinv b s0 w s1 w1 tr1 x1 ag EB B0) as F.
    assert (tr1 = tr) as ->.
    { destruct x1; [|simpl in E; destruct (s_queue s1) as [|[? ?] ?]];
      injection E as _ _ E _; auto. }
    exact F.
Qed.

Lemma run_hist_first h : forall s w s' w' tr ag, s_shuffle s = false ->
  run_hist u h s w = (s', w', tr) -> inv s ag -> no_exc tr -> first_come (s_di s) ag tr.
Proof.
  induction h as [|c h IH]; simpl; intros s w s' w' tr ag SH E H NE.
  - injection E as <- <- <-. simpl; auto.
  - destruct (run_cmd u s w c) as [[s1 w1] tr1] eqn:E1.
    destruct (run_hist u h s1 w1) as [[s2 w2] tr2] eqn:E2. injection E as <- <- <-.
    apply no_exc_app in NE. destruct NE as [NE1 NE2].
    assert (s_shuffle s = true -> fair_shuffle u) as FS by (rewrite SH; discriminate).
    destruct (run_cmd_inv _ Hf _ _ _ _ _ _ _ FS E1 H NE1) as [H1 P1].
    destruct (run_cmd_shuffle _ _ _ _ _ _ _ E1) as [S1 D1].
    rewrite SH in S1. pose proof (IH _ _ _ _ _ _ S1 E2 H1 NE2) as F2. rewrite D1 in F2.
    rewrite first_come_app. split; [|exact F2].
    destruct c as [|a when|a|f]; cbn [run_cmd] in E1.
    + destruct (timed_step u s w) as [[[s3 w3] tr3] x3] eqn:ES. injection E1 as <- <- <-.
      eapply timed_step_first; eauto.
    + cbn [run_op] in E1. injection E1 as <- <- <-. simpl; auto.
    + cbn [run_op] in E1. injection E1 as <- <- <-. simpl; auto.
    + injection E1 as <- <- <-. simpl; auto.
Qed.
End U.

Lemma ordered_first W (u : user W) di h w s' w' tr :
  forward_only u -> nonneg di = true ->
  run_hist u h (timed_init false di) w = (s', w', tr) -> no_exc tr ->
  first_come di [] tr.
Proof.
  intros F D E NE.
  exact (run_hist_first u F h (timed_init false di) w s' w' tr [] eq_refl E (inv_init _ _ D) NE).
Qed.

(** From the agenda to two agents. *)
Lemma due_eqb_iff x y : is_time (fst x) = true -> due_eqb x y = true <-> x = y.
Proof.
  intros T. unfold due_eqb. destruct x as [t a], y as [t' b]; simpl in *.
  rewrite andb_true_iff, Nat.eqb_eq. split.
  - intros [E ->]. apply n_eqb_eq in E. now subst.
  - intros [= -> ->]. split; [apply n_eqb_refl|]; auto.
Qed.

Lemma remove1_app x l1 l2 : ~ In x l1 -> is_time (fst x) = true -> remove1 x (l1 ++ l2) = l1 ++ remove1 x l2.
Proof.
  intros N T. induction l1 as [|y l1 IH]; simpl; auto.
  destruct (due_eqb x y) eqn:E.
  - apply due_eqb_iff in E; auto. subst. exfalso. apply N. left; auto.
  - rewrite IH; auto. intros I. apply N. right; auto.
Qed.
Lemma remove1_in x l1 l2 : In x l1 -> is_time (fst x) = true -> remove1 x (l1 ++ l2) = remove1 x l1 ++ l2.
Proof.
  intros I T. induction l1 as [|y l1 IH]; simpl; [contradiction|].
  destruct (due_eqb x y) eqn:E; auto. simpl. rewrite IH; auto.
  destruct I as [->|I]; auto. assert (due_eqb x x = true) by (apply due_eqb_iff; auto). congruence.
Qed.
Lemma remove1_incl x l p : In p (remove1 x l) -> In p l.
Proof.
  induction l as [|y l IH]; simpl; auto. destruct (due_eqb x y); simpl; [auto|].
  intros [->|I]; auto.
Qed.

Lemma in_dec_due (x : num * aid) l : In x l \/ ~ In x l.
Proof.
  destruct (in_dec (fun x y : num * aid => ltac:(decide equality; [apply Nat.eq_dec|decide equality; apply Z.eq_dec])) x l); auto.
Qed.

Lemma no_overtaking_spec di t a b m : forall ag p1 p2 o m',
  times_ok ag -> Forall (fun e => match e with EvAdd t _ => is_time t = true | EvAct t _ o =>
     match next_due di t o with Some t' => is_time t' = true | None => True end end) m ->
  first_come di ag (m ++ EvAct t b o :: m') -> a <> b ->
  ag = p1 ++ (t, a) :: p2 -> ~ In (t, b) p1 -> exists o', In (EvAct t a o') m.
Proof.
  induction m as [|[t1 c|t1 c o1] m IH]; simpl; intros ag p1 p2 o m' TO TM F N E NI.
  - destruct F as [(l1&l2&E'&L1&L2) _]. exfalso. rewrite E in E'.
    assert (In (t, a) l1) as I.
    { clear -E' N NI. revert NI l1 E'. induction p1 as [|p p1 IHp]; intros NI [|y l1]; simpl; intros E'.
      - injection E' as E' _. congruence.
      - injection E' as <- _. left; auto.
      - injection E' as -> _. exfalso. apply NI. left; auto.
      - injection E' as -> E'. right. apply IHp; auto. intros I; apply NI; right; auto. }
    specialize (L1 _ I). simpl in L1. rewrite n_ltb_irrefl in L1. discriminate.
  - inversion TM as [|? ? T1 TM']; subst.
    destruct (IH (p1 ++ (t, a) :: p2 ++ [(t1, c)]) p1 (p2 ++ [(t1, c)]) o m') as (o'&I); auto.
    + replace (p1 ++ (t, a) :: p2 ++ [(t1, c)]) with ((p1 ++ (t, a) :: p2) ++ [(t1, c)])
        by (rewrite <- app_assoc; reflexivity).
      apply Forall_app; split; auto.
    + rewrite <- app_assoc in F. exact F.
    + exists o'. right; exact I.
  - inversion TM as [|? ? T1 TM']; subst. destruct F as [(l1&l2&E'&_) F].
    assert (is_time t1 = true) as Tt1.
    { unfold times_ok in TO. rewrite Forall_forall in TO.
      specialize (TO (t1, c)). rewrite E' in TO. apply TO. apply in_or_app; right; left; auto. }
    destruct (in_dec_due (t1, c) p1) as [I|NI1].
    + destruct (IH (remove1 (t1, c) p1 ++ (t, a) :: (p2 ++ opt_due c (next_due di t1 o1)))
                   (remove1 (t1, c) p1) (p2 ++ opt_due c (next_due di t1 o1)) o m') as (o'&I'); auto.
      * replace (remove1 (t1, c) p1 ++ (t, a) :: (p2 ++ opt_due c (next_due di t1 o1)))
          with (remove1 (t1, c) (p1 ++ (t, a) :: p2) ++ opt_due c (next_due di t1 o1)).
        2:{ rewrite remove1_in; auto. rewrite <- app_assoc. reflexivity. }
        apply Forall_app; split; [apply remove1_times; exact TO|].
        destruct (next_due di t1 o1); constructor; auto.
      * rewrite remove1_in in F; auto. rewrite <- app_assoc in F. exact F.
      * intros I'. apply NI. eapply remove1_incl; eauto.
      * exists o'. right; exact I'.
    + rewrite remove1_app in F; auto.
      pose proof (remove1_app (t1, c) p1 ((t, a) :: p2) NI1 Tt1) as R. simpl in F, R.
      destruct (due_eqb (t1, c) (t, a)) eqn:Ea.
      * apply due_eqb_iff in Ea; auto. injection Ea as -> ->. exists o1. left; auto.
      * destruct (IH (p1 ++ (t, a) :: (remove1 (t1, c) p2 ++ opt_due c (next_due di t1 o1))) p1
                     (remove1 (t1, c) p2 ++ opt_due c (next_due di t1 o1)) o m') as (o'&I'); auto.
        -- replace (p1 ++ (t, a) :: (remove1 (t1, c) p2 ++ opt_due c (next_due di t1 o1)))
             with (remove1 (t1, c) (p1 ++ (t, a) :: p2) ++ opt_due c (next_due di t1 o1)).
           2:{ rewrite R. rewrite <- app_assoc. reflexivity. }
           apply Forall_app; split; [apply remove1_times; exact TO|].
           destruct (next_due di t1 o1); constructor; auto.
        -- rewrite <- app_assoc in F. exact F.
        -- exists o'. right; exact I'.
Qed.

Lemma agenda_times di tr : nonneg di = true -> Forall ev_ok tr -> forall ag, times_ok ag -> times_ok (agenda di ag tr).
Proof.
  intros D. induction tr as [|[t a|t a o] tr IH]; intros F ag T; simpl; auto;
    inversion F as [|? ? F1 F2]; subst; apply IH; auto; apply Forall_app; split; auto.
  - apply remove1_times; auto.
  - destruct (next_due di t o) as [t'|] eqn:E; constructor; auto. simpl.
    eapply evok_next_due; eauto.
Qed.

Lemma no_overtaking W (u : user W) di h w s' w' tr1 m o m' t a b p1 p2 :
  forward_only u -> nonneg di = true ->
  run_hist u h (timed_init false di) w = (s', w', tr1 ++ m ++ EvAct t b o :: m') ->
  no_exc (tr1 ++ m ++ EvAct t b o :: m') ->
  a <> b -> agenda di [] tr1 = p1 ++ (t, a) :: p2 -> ~ In (t, b) p1 ->
  exists o', In (EvAct t a o') m.
Proof.
  intros F D E NE N A NI.
  pose proof (ordered_first _ _ _ _ _ _ _ _ F D E NE) as FC.
  pose proof (run_hist_evok u F h _ _ _ _ _ E (winv_init false di D)) as V.
  apply first_come_app in FC. destruct FC as [_ FC].
  apply Forall_app in V. destruct V as [V1 V2]. apply Forall_app in V2. destruct V2 as [V2 _].
  eapply (no_overtaking_spec di t a b m (agenda di [] tr1)); eauto.
  - apply agenda_times; auto. constructor.
  - eapply Forall_impl; [|exact V2]. intros [t1 c|t1 c o1] V; simpl in V; [exact V|].
    destruct (next_due di t1 o1) as [t'|] eqn:ND; auto. exact (evok_next_due di t1 c o1 t' D V ND).
Qed.

Lemma keeps_order W (u : user W) di h w s' w' tr1 m o m' t oa t' a b :
  forward_only u -> nonneg di = true ->
  run_hist u h (timed_init false di) w = (s', w', tr1 ++ EvAct t a oa :: m ++ EvAct t' b o :: m') ->
  no_exc (tr1 ++ EvAct t a oa :: m ++ EvAct t' b o :: m') ->
  a <> b -> next_due di t oa = Some t' -> ~ In (t', b) (agenda di [] tr1) ->
  exists o', In (EvAct t' a o') m.
Proof.
  intros F D E NE N ND NI.
  replace (tr1 ++ EvAct t a oa :: m ++ EvAct t' b o :: m')
    with ((tr1 ++ [EvAct t a oa]) ++ m ++ EvAct t' b o :: m') in * by (rewrite <- app_assoc; reflexivity).
  eapply (no_overtaking W u di h w s' w' (tr1 ++ [EvAct t a oa]) m o m' t' a b
    (remove1 (t, a) (agenda di [] tr1)) []); eauto.
  - rewrite agenda_app. simpl. rewrite ND. reflexivity.
  - intros I. apply NI. eapply remove1_incl; eauto.
Qed.

(** ** The priority queue *)

Definition ekey (x y : entry) : Prop := before (proj x) (proj y).
Definition pord (s : pq) : Prop :=
  p_shuffle s = false /\ StronglySorted ekey (p_heap s) /\
  Forall (fun e => snd (fst e) = Z.of_nat (e_agent e)) (p_heap s) /\
  NoDup (map e_agent (p_heap s)).

Lemma before_trans x y z : before x y -> before y z -> before x z.
Proof.
  destruct x as [t a], y as [t1 b], z as [t2 c]. unfold before; simpl.
  intros [L|[-> L]] [M|[-> M]]; auto.
  - left. eapply n_ltb_trans; eauto.
  - right. split; auto. lia.
Qed.

Lemma key_before e x : is_time (e_when e) = true -> is_time (e_when x) = true ->
  snd (fst e) = Z.of_nat (e_agent e) -> snd (fst x) = Z.of_nat (e_agent x) ->
  e_agent e <> e_agent x ->
  if key_ltb e x then ekey e x else ekey x e.
Proof.
  intros Te Tx E X N. unfold key_ltb, ekey, before, proj. simpl.
  change (fst (fst e)) with (e_when e). change (fst (fst x)) with (e_when x).
  destruct (n_eqb (e_when e) (e_when x)) eqn:Q.
  - apply n_eqb_eq in Q. rewrite E, X.
    destruct (Z.ltb_spec (Z.of_nat (e_agent e)) (Z.of_nat (e_agent x))); right; split; auto; lia.
  - destruct (n_ltb (e_when e) (e_when x)) eqn:L; [left; auto|]. left.
    assert (n_leb (e_when x) (e_when e) = true) as M by (apply n_total; auto).
    unfold n_leb in M. apply orb_true_iff in M. destruct M as [M|M]; auto.
    apply n_eqb_eq in M. rewrite M in Q. rewrite n_eqb_refl in Q; congruence.
Qed.

Lemma heappush_ekey h e : is_time (e_when e) = true -> times_h h ->
  snd (fst e) = Z.of_nat (e_agent e) -> Forall (fun e => snd (fst e) = Z.of_nat (e_agent e)) h ->
  ~ In (e_agent e) (map e_agent h) -> StronglySorted ekey h -> StronglySorted ekey (heappush h e).
Proof.
  intros Te TH E FE N. induction h as [|x h IH]; intros SS; cbn [heappush].
  - repeat constructor.
  - inversion TH as [|? ? T1 T2]; subst. inversion FE as [|? ? F1 F2]; subst.
    inversion SS as [|? ? S1 S2]; subst.
    assert (e_agent e <> e_agent x) as Nx by (intros Q; apply N; left; auto).
    pose proof (key_before e x Te T1 E F1 Nx) as K.
    destruct (key_ltb e x).
    + constructor; auto. constructor; auto. eapply Forall_impl; [|exact S2].
      intros y Y. unfold ekey in *. eapply before_trans; eauto.
    + constructor; [apply IH; auto; intros I; apply N; right; auto|].
      rewrite Forall_forall in *. intros y I.
      apply (Permutation_in _ (heappush_perm _ _)) in I. destruct I as [<-|I]; auto.
Qed.

Lemma before_later x t t' (a : aid) : before x (t, a) -> n_ltb t t' = true -> before x (t', a).
Proof.
  destruct x as [t0 b]. unfold before; simpl. intros [L|[-> L]] M; left; auto.
  eapply n_ltb_trans; eauto.
Qed.

Section Fixed.
Context {W : Type} (u : puser W) (Hf : p_forward_only u) (Hn : p_adds_nobody u).

(** What a piece of a run leaves: its activations are in order, they are before all that
    is pending, and what was before all that was pending still is. *)
Definition pord_ok (s : pq) (tr : list ev) (s' : pq) : Prop :=
  pord s' /\ StronglySorted before (acts tr) /\
  (forall x, In x (acts tr) -> Forall (before x) (map proj (p_heap s'))) /\
  (forall x, Forall (before x) (map proj (p_heap s)) ->
     Forall (before x) (acts tr) /\ Forall (before x) (map proj (p_heap s'))).

Lemma pord_ok_nil s s' : pord s' -> p_heap s' = p_heap s -> pord_ok s [] s'.
Proof.
  intros P E. split; [exact P|]. split; [constructor|]. split; [intros x []|].
  intros x F. rewrite E. split; auto; constructor.
Qed.

Lemma pord_ok_app s1 t1 s2 t2 s3 : pord_ok s1 t1 s2 -> pord_ok s2 t2 s3 -> pord_ok s1 (t1 ++ t2) s3.
Proof.
  intros (P1&S1&A1&B1) (P2&S2&A2&B2). split; [exact P2|]. rewrite acts_app. split; [|split].
  - clear B1. induction (acts t1) as [|x l IH]; simpl; auto. inversion S1; subst.
    constructor; [apply IH; auto; intros y I; apply A1; right; auto|].
    apply Forall_app. split; auto. apply B2. apply A1. left; auto.
  - intros x I. apply in_app_or in I. destruct I as [I|I]; [apply B2; auto|auto].
  - intros x F. destruct (B1 x F) as [F1 F2]. destruct (B2 x F2) as [F3 F4].
    split; auto. apply Forall_app; auto.
Qed.

Lemma pord_time s t n r : pord s -> pord (PQ t n (p_heap s) (p_reg s) (p_shuffle s) (p_di s) r).
Proof. intros (A&B&C). repeat split; simpl; auto; apply C. Qed.

Lemma pq_loop_ord fuel : forall s w ag, pinv s ag -> pord s ->
  match pq_loop u fuel (p_time s) s w with
  | PDone s' w' tr next => onward tr (p_di s) -> pord_ok s tr s'
  | _ => True
  end.
Proof.
  induction fuel as [|fuel IH]; intros s w ag H PO; [exact I|].
  destruct (p_heap s) as [|e h] eqn:EH.
  - cbn [pq_loop]. rewrite EH. intros _. apply pord_ok_nil; auto.
  - destruct (n_ltb (p_time s) (e_when e)) eqn:L.
    + cbn [pq_loop]. rewrite EH, L. intros _. apply pord_ok_nil; auto.
    + destruct (pq_loop_S u Hf Hn fuel s w e h ag H EH L)
        as (EW&o&w1&s1&I&G&SO&H1&T1&D1&SH1&N1&E&_).
      assert (pinv s1 ag) as Hs1 by (apply (pinv_same s); auto; congruence).
      pose proof (pinv_times _ _ H) as TH. rewrite EH in TH.
      inversion TH as [|? ? TH1 TH2]; subst.
      destruct PO as (PS&SS&FE&ND0). rewrite EH in SS, FE, ND0.
      inversion SS as [|? ? SS1 SS2]; subst. inversion FE as [|? ? FE1 FE2]; subst.
      simpl in ND0. inversion ND0 as [|? ? ND1 ND2]; subst.
      pose proof EW as EW'. rewrite <- T1 in EW'.
      destruct (pinv_act s1 ag e h (snd (p_step u s (e_agent e) w)) Hs1 H1 EW' G) as [_ K].
      set (o := snd (p_step u s (e_agent e) w)) in *.
      rewrite T1, D1 in K. rewrite E. clear E.
      assert (forall h2 w2, o <> Exc ->
        (onward [EvAct (p_time s) (e_agent e) o] (p_di s) ->
         pord (pset_heap s1 h2) /\ Forall (before (proj e)) (map proj h2) /\
         (forall x, Forall (before x) (map proj (e :: h)) -> Forall (before x) (map proj h2))) ->
        pinv (pset_heap s1 h2) (agenda (p_di s) ag [EvAct (p_time s) (e_agent e) o]) ->
        match pres_pre [EvAct (p_time s) (e_agent e) o] (pq_loop u fuel (p_time s) (pset_heap s1 h2) w2) with
        | PDone s' w' tr next => onward tr (p_di s) -> pord_ok s tr s'
        | _ => True
        end) as KK.
      { intros h2 w2 NX B H2.
        destruct (pq_loop u fuel (p_time s) (pset_heap s1 h2) w2) as [s' w' tr next| |] eqn:EL;
          simpl; auto. intros ON.
        inversion ON as [|? ? ON1 ON2]; subst.
        assert (onward [EvAct (p_time s) (e_agent e) o] (p_di s)) as ON1' by (apply Forall_cons; [exact ON1|constructor]).
        destruct (B ON1') as (B1&B2&B3).
        specialize (IH (pset_heap s1 h2) w2 _ H2 B1).
        cbn [p_time p_di pset_heap] in IH. rewrite T1, D1 in IH.
        rewrite EL in IH. specialize (IH ON2).
        change (EvAct (p_time s) (e_agent e) o :: tr) with ([EvAct (p_time s) (e_agent e) o] ++ tr).
        eapply pord_ok_app; [|exact IH]. split; [exact B1|]. split; [repeat constructor|]. split.
        - intros x [<-|[]]. unfold proj in B2 at 1. rewrite EW in B2. exact B2.
        - intros x F. rewrite EH in F. split; [|apply B3; exact F].
          inversion F as [|? ? Fx _]; subst. unfold proj in Fx. rewrite EW in Fx.
          apply Forall_cons; [exact Fx|constructor]. }
      assert (Forall (before (proj e)) (map proj h)) as BH.
      { rewrite Forall_map. exact SS2. }
      assert (pord (pset_heap s1 h)) as PH by (repeat split; simpl; auto; congruence).
      assert (match next_due (p_di s) (p_time s) o with
              | Some t => n_ltb (p_time s) t = true -> is_time t = true ->
                 pord (pset_heap s1 (heappush h (t, Z.of_nat (e_agent e), e_agent e))) /\
                 Forall (before (proj e)) (map proj (heappush h (t, Z.of_nat (e_agent e), e_agent e))) /\
                 (forall x, Forall (before x) (map proj (e :: h)) ->
                    Forall (before x) (map proj (heappush h (t, Z.of_nat (e_agent e), e_agent e))))
              | None => True
              end) as KS.
      { destruct (next_due (p_di s) (p_time s) o) as [t|]; auto. intros Lt Tt.
        assert (forall x, before x (t, e_agent e) -> Forall (before x) (map proj h) ->
          Forall (before x) (map proj (heappush h (t, Z.of_nat (e_agent e), e_agent e)))) as Q.
        { intros x X F. rewrite Forall_map in *. rewrite Forall_forall in *. intros y Y.
          apply (Permutation_in _ (heappush_perm _ _)) in Y. destruct Y as [<-|Y]; [exact X|auto]. }
        split; [|split].
        - split; [simpl; congruence|]. simpl. split; [|split].
          + apply heappush_ekey; auto.
          + rewrite Forall_forall in *. intros y Y.
            apply (Permutation_in _ (heappush_perm _ _)) in Y. destruct Y as [<-|Y]; auto.
          + eapply Permutation_NoDup; [symmetry; apply Permutation_map, heappush_perm|].
            simpl. constructor; auto.
        - apply Q; auto. unfold proj. rewrite EW. left. exact Lt.
        - intros x F. inversion F as [|? ? Fx Fh]; subst. apply Q; auto.
          unfold proj in Fx. rewrite EW in Fx. eapply before_later; eauto. }
      assert (forall t, next_due (p_di s) (p_time s) o = Some t -> is_time t = true) as TT.
      { intros t Q. eapply (evok_next_due (p_di s) (p_time s) (e_agent e)); eauto; [apply H|].
        split; auto. apply nonneg_is_time, H. }
      destruct o as [r| |] eqn:Eo; [| |exact Logic.I].
      * destruct (next_due (p_di s) (p_time s) (Ret r)) as [t|] eqn:ND.
        -- rewrite PS. apply KK; [discriminate| |].
           ++ intros ON. inversion ON as [|? ? ON1 _]; subst. rewrite ND in ON1. auto.
           ++ cbn [agenda]. rewrite ND. apply K.
        -- apply KK; [discriminate| |].
           ++ intros _. split; [exact PH|]. split; [exact BH|]. intros x F. inversion F; auto.
           ++ cbn [agenda]. rewrite ND. apply K.
      * apply KK; [discriminate| |].
        -- intros _. split; [exact PH|]. split; [exact BH|]. intros x F. inversion F; auto.
        -- simpl in *. apply K.
Qed.

Lemma onward_app t1 t2 di : onward (t1 ++ t2) di <-> onward t1 di /\ onward t2 di.
Proof. unfold onward. apply Forall_app. Qed.

Lemma pq_hist_ord fuel h : forall s w s' w' tr ag, pinv s ag -> pord s -> adds_nobody h ->
  pq_hist u fuel h s w = Some (s', w', tr) -> no_exc tr -> onward tr (p_di s) -> pord_ok s tr s'.
Proof.
  induction h as [|c h IH]; cbn [pq_hist]; intros s w s' w' tr ag H PO NA E NE ON.
  - injection E as <- <- <-. apply pord_ok_nil; auto.
  - unfold adds_nobody in NA. simpl in NA. apply andb_true_iff in NA. destruct NA as [NA1 NA2].
    destruct (pq_cmd u fuel s w c) as [[[s1 w1] tr1]|] eqn:EC; [|discriminate].
    destruct (pq_hist u fuel h s1 w1) as [[[s2 w2] tr2]|] eqn:EH; [|discriminate].
    injection E as <- <- <-. apply no_exc_app in NE. destruct NE as [NE1 NE2].
    apply onward_app in ON. destruct ON as [ON1 ON2].
    destruct (pq_cmd_inv u Hf Hn _ _ _ _ _ _ _ _ H NA1 EC NE1) as (H1&D1&P1).
    assert (pord_ok s tr1 s1) as K1.
    { destruct c as [|a when|a|f]; cbn [pq_cmd] in EC; try discriminate.
      - unfold pq_step in EC. destruct (n_eqb (p_time s) PInf).
        + injection EC as <- <- <-. apply pord_ok_nil; auto.
        + pose proof (pq_loop_ord fuel s w _ H PO) as K.
          pose proof (pq_loop_inv u Hf Hn fuel s w _ H) as KI.
          destruct (pq_loop u fuel (p_time s) s w) as [s3 w3 tr3 next|s3 w3 tr3|]; [| |discriminate].
          * injection EC as <- <- <-. destruct (K ON1) as (K1&K2). split; [apply pord_time; exact K1|exact K2].
          * injection EC as <- <- <-. destruct KI as [KI _]. contradiction.
      - injection EC as <- <- <-. apply pord_ok_nil; auto.
      - injection EC as <- <- <-. apply pord_ok_nil; auto. }
    eapply pord_ok_app; [exact K1|]. rewrite <- D1 in ON2.
    eapply IH; eauto. apply K1.
Qed.
End Fixed.

Lemma acts_adds t l : acts (map (EvAdd t) l) = [].
Proof. induction l; simpl; auto. Qed.

Lemma pord_adds W (u : puser W) fuel l : forall s w, p_shuffle s = false -> p_time s = Fin 0 -> times_h (p_heap s) -> pord s ->
  NoDup (l ++ map e_agent (p_heap s)) -> forall s' w' tr,
  pq_hist u fuel (add_all l) s w = Some (s', w', tr) -> pord s'.
Proof.
  induction l as [|a l IH]; intros s w SH T TH PO N s' w' tr E.
  - cbn in E. injection E as <- <- <-. exact PO.
  - cbn [add_all map pq_hist pq_cmd] in E.
    unfold pq_add, pq_schedule in E. rewrite T, SH in E.
    cbn [n_truthy n_eqb negb] in E. change (n_truthy (Fin 0)) with false in E. cbv iota zeta in E.
    set (e := (Fin 0, Z.of_nat a, a)) in *.
    set (s1 := preg_add (pset_heap s (heappush (p_heap s) e)) a) in *.
    assert (p_time s1 = Fin 0 /\ p_shuffle s1 = false /\ p_heap s1 = heappush (p_heap s) e)
      as (T1&S1&H1).
    { subst s1. unfold preg_add. destruct (existsb _ _); simpl; auto. }
    simpl in N. inversion N as [|? ? N1 N2]; subst.
    destruct (pq_hist u fuel (map (fun a => CAdd a None) l) s1 w) as [[[s2 w2] tr2]|] eqn:E2; [|discriminate].
    injection E as <- <- <-.
    assert (Permutation (map e_agent (p_heap s1)) (a :: map e_agent (p_heap s))) as PP.
    { rewrite H1. rewrite (Permutation_map e_agent (heappush_perm _ _)). reflexivity. }
    eapply (IH s1); eauto.
    + rewrite H1. unfold times_h in *. rewrite Forall_forall in *. intros y Y.
      apply (Permutation_in _ (heappush_perm _ _)) in Y. destruct Y as [<-|Y]; auto.
    + destruct PO as (P1&P2&P3&P4). split; [exact S1|]. rewrite H1. split; [|split].
      * apply heappush_ekey; auto. intros I. apply N1. apply in_or_app; auto.
      * rewrite Forall_forall in *. intros y Y.
        apply (Permutation_in _ (heappush_perm _ _)) in Y. destruct Y as [<-|Y]; auto.
      * rewrite <- H1. eapply Permutation_NoDup; [symmetry; exact PP|]. constructor; auto.
        intros I. apply N1. apply in_or_app; auto.
    + eapply Permutation_NoDup; [symmetry; apply Permutation_app_head; exact PP|].
      eapply Permutation_NoDup; [apply Permutation_middle|]. constructor; auto.
Qed.

Lemma pq_ordered W (u : puser W) fuel di l h w s' w' tr :
  p_forward_only u -> p_adds_nobody u -> nonneg di = true -> adds_nobody h -> NoDup l ->
  pq_hist u fuel (add_all l ++ h) (pq_init false di) w = Some (s', w', tr) ->
  no_exc tr -> onward tr di ->
  StronglySorted before (acts tr) /\
  forall x y, In x (acts tr) -> In y (agenda di [] tr) -> before x y.
Proof.
  intros F N D NA ND E NE ON. pose proof (pq_fixed _ _ _ _ _ _ _ _ _ _ _ F N D NA E NE) as [(_&_&_&_&P) _].
  rewrite pq_hist_app in E.
  destruct (add_all_inv W u fuel l (pq_init false di) w [] (pinv_init _ _ D) eq_refl)
    as (s1&w1&E1&I1&T1&D1&_). rewrite E1 in E.
  destruct (pq_hist u fuel h s1 w1) as [[[s2 w2] tr2]|] eqn:EH; [|discriminate].
  injection E as <- <- <-. apply no_exc_app in NE. destruct NE as [NE1 NE2].
  assert (pord s1) as PO.
  { eapply (pord_adds W u fuel l (pq_init false di) w); eauto; try reflexivity.
    - constructor.
    - repeat split; simpl; auto; constructor.
    - simpl. rewrite app_nil_r. exact ND. }
  apply onward_app in ON. destruct ON as [_ ON]. change di with (p_di (pq_init false di)) in ON. rewrite <- D1 in ON.
  destruct (pq_hist_ord u F N fuel h s1 w1 s2 w2 tr2 _ I1 PO NA EH NE2 ON) as (K1&K2&K3&_).
  rewrite acts_app, acts_adds. simpl. split; [exact K2|].
  intros x y X Y. specialize (K3 x X). rewrite Forall_forall in K3. apply K3.
  eapply Permutation_in; [symmetry; exact P|exact Y].
Qed.
End Arith.
