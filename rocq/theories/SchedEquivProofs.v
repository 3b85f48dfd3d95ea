(** Both schedulers produce the same timetable for order-free behaviours. *)
From Coq Require Import ZArith List Bool Arith Lia Permutation Sorted.
From Verif Require Import Num TimedModel TimedSpec TimedProofs PQueueModel PQueueSpec
  PQueueProofs PQueueProofs2.
Import ListNotations.

Section Arith.
Context {AR : Arith}.

Section Equiv.
Context {HP : Precise AR} {W : Type} (R : W -> W -> Prop) (beh : num -> aid -> W -> W * outcome).
Context (Ho : order_free R beh) (Hc : calm beh).
Context (shuffle : list aid -> W -> W * list aid) (draw : W -> W * Z).
Context (Hs1 : forall l w, Permutation l (snd (shuffle l w))).
Context (Hs2 : forall l w, R (fst (shuffle l w)) w).
Context (Hd : forall w, R (fst (draw w)) w).

Notation ut := (as_user beh shuffle).
Notation up := (as_puser beh draw).

(** Running a list of agents in order. *)
Fixpoint runl (now : num) (l : list aid) (w : W) : W * list (aid * outcome) :=
  match l with
  | [] => (w, [])
  | a :: l' =>
      let '(w1, o) := beh now a w in
      let '(w2, os) := runl now l' w1 in
      (w2, (a, o) :: os)
  end.

Lemma runl_cons now a l w : runl now (a :: l) w =
  (fst (runl now l (fst (beh now a w))),
   (a, snd (beh now a w)) :: snd (runl now l (fst (beh now a w)))).
Proof.
  simpl. destruct (beh now a w) as [w1 o]. simpl. destruct (runl now l w1). reflexivity.
Qed.

Lemma runl_ext now l : forall w w', R w w' ->
  R (fst (runl now l w)) (fst (runl now l w')) /\ snd (runl now l w) = snd (runl now l w').
Proof.
  induction l as [|a l IH]; intros w w' H; [auto|].
  rewrite !runl_cons. destruct (of_ext _ _ Ho now a w w' H) as [H1 H2].
  destruct (IH _ _ H1) as [H3 H4]. simpl. rewrite H2, H4. auto.
Qed.

Lemma runl_perm now l l' : Permutation l l' -> NoDup l -> forall w w', R w w' ->
  R (fst (runl now l w)) (fst (runl now l' w')) /\
  Permutation (snd (runl now l w)) (snd (runl now l' w')).
Proof.
  induction 1 as [|x l l' P IH|x y l|l l' l'' P1 IH1 P2 IH2]; intros ND w w' H.
  - auto.
  - rewrite !runl_cons. inversion ND; subst.
    destruct (of_ext _ _ Ho now x w w' H) as [H1' H2'].
    destruct (IH H3 _ _ H1') as [H4 H5]. simpl. rewrite H2'. auto.
  - rewrite !runl_cons. cbn [fst snd].
    inversion ND as [|? ? N1 N2]; subst. assert (x <> y) as NE by (intros ->; apply N1; left; auto).
    destruct (of_ext _ _ Ho now x w w' H) as [A1 A2].
    destruct (of_ext _ _ Ho now y w w' H) as [B1 B2].
    destruct (of_comm _ _ Ho now x y w' NE) as [C1 C2].
    destruct (of_comm _ _ Ho now y x w' (not_eq_sym NE)) as [D1 D2].
    destruct (of_ext _ _ Ho now x _ _ B1) as [E1 E2].
    assert (R (fst (beh now x (fst (beh now y w)))) (fst (beh now y (fst (beh now x w'))))) as F.
    { eapply (of_trans _ _ Ho); [exact E1|exact D1]. }
    destruct (runl_ext now l _ _ F) as [G1 G2]. split; auto.
    rewrite G2, E2, D2, B2, C2. apply perm_swap.
  - destruct (IH1 ND w w (of_refl _ _ Ho w)) as [A1 A2].
    destruct (IH2 (Permutation_NoDup P1 ND) w w' H) as [B1 B2].
    split; [eapply (of_trans _ _ Ho); eauto|eapply Permutation_trans; eauto].
Qed.

Lemma runl_agents now l : forall w, map fst (snd (runl now l w)) = l.
Proof.
  induction l as [|a l IH]; intros w; [auto|]. rewrite runl_cons. cbn [snd fst map].
  now rewrite IH.
Qed.

Definition evs (now : num) (os : list (aid * outcome)) : list ev :=
  map (fun p => EvAct now (fst p) (snd p)) os.

Lemma runl_calm now l : forall w, Forall (fun p => snd p <> Exc /\ good_delay (snd p)) (snd (runl now l w)).
Proof.
  induction l as [|a l IH]; intros w; [constructor|].
  rewrite runl_cons. cbn [snd]. constructor; auto. cbn [snd].
  specialize (Hc now a w). destruct (snd (beh now a w)) as [[d|]| |]; simpl; split;
    auto; try discriminate; tauto.
Qed.

Lemma evs_no_exc now os : Forall (fun p : aid * outcome => snd p <> Exc /\ good_delay (snd p)) os ->
  no_exc (evs now os).
Proof.
  induction 1 as [|[a o] os [N _] _ IH]; [reflexivity|].
  unfold no_exc in *. simpl. rewrite IH. destruct o; try reflexivity; simpl in N; congruence.
Qed.

(** ** The agenda after one instant *)

Definition news (di now : num) (os : list (aid * outcome)) : list (num * aid) :=
  flat_map (fun p => opt_due (fst p) (next_due di now (snd p))) os.

Definition others (now : num) (ag : list (num * aid)) : list (num * aid) :=
  filter (fun p => negb (n_eqb (fst p) now)) ag.

Lemma next_due_later di now o t : is_time now = true -> n_eqb now PInf = false ->
  n_ltb (Fin 0) di = true -> good_delay o -> next_due di now o = Some t ->
  n_ltb now t = true /\ n_eqb t PInf = false.
Proof.
  intros T NI D G E. destruct o as [r| |]; try discriminate.
  rewrite next_due_when in E. cbv zeta in E.
  destruct (n_eqb (n_add (or_num r di) now) PInf) eqn:EI; [discriminate|].
  injection E as <-. split; auto. apply later_ltb; auto. apply or_num_pos; auto.
Qed.

Lemma others_remove1 now a ag : is_time now = true ->
  others now (remove1 (now, a) ag) = others now ag.
Proof.
  intros T. induction ag as [|[t b] ag IH]; simpl; auto.
  destruct (due_eqb (now, a) (t, b)) eqn:E.
  - unfold due_eqb in E. simpl in E. apply andb_true_iff in E. destruct E as [E _].
    apply n_eqb_eq in E. subst t. rewrite n_eqb_refl by auto. reflexivity.
  - simpl. rewrite IH. reflexivity.
Qed.

Lemma others_app now l1 l2 : others now (l1 ++ l2) = others now l1 ++ others now l2.
Proof. apply filter_app. Qed.

Lemma agenda_evs di now os : is_time now = true -> n_eqb now PInf = false ->
  n_ltb (Fin 0) di = true -> Forall (fun p : aid * outcome => snd p <> Exc /\ good_delay (snd p)) os ->
  forall ag, Permutation (due_at now ag) (map fst os) ->
  Permutation (agenda di ag (evs now os)) (others now ag ++ news di now os).
Proof.
  intros T NI D. induction 1 as [|[a o] os [N G] _ IH]; intros ag P.
  - simpl in *. rewrite app_nil_r. apply Permutation_sym, Permutation_nil in P.
    unfold due_at in P. apply map_eq_nil in P.
    assert (others now ag = ag) as ->; [|auto].
    unfold others. clear -P. induction ag as [|p ag IH]; simpl in *; auto.
    destruct (n_eqb (fst p) now); [discriminate|]. simpl. now rewrite IH.
  - cbn [evs map agenda fst snd] in *.
    assert (due_at now (opt_due a (next_due di now o)) = [] /\
            others now (opt_due a (next_due di now o)) = opt_due a (next_due di now o)) as [K1 K2].
    { destruct (next_due di now o) as [t|] eqn:E; [|auto].
      destruct (next_due_later _ _ _ _ T NI D G E) as [L _].
      simpl. unfold due_at. simpl. rewrite (n_ltb_neq' _ _ L). auto. }
    rewrite IH.
    + rewrite others_app, others_remove1, K2 by auto. cbn [news flat_map fst snd].
      rewrite <- app_assoc. reflexivity.
    + rewrite due_at_app, K1, app_nil_r, due_at_remove1, n_eqb_refl by auto.
      apply rem1n_perm. exact P.
Qed.

Lemma due_at_perm k ag ag' : Permutation ag ag' -> Permutation (due_at k ag) (due_at k ag').
Proof. intros P. apply Permutation_map, filter_perm, P. Qed.

(** ** One step of the timed scheduler *)

Lemma ut_forward : forward_only ut.
Proof.
  intros s a w. simpl. specialize (Hc (s_time s) a w).
  destruct (beh (s_time s) a w) as [w' o]. destruct o as [[d|]| |]; auto.
Qed.

Lemma ut_fair : fair_shuffle ut.
Proof. intros l w. apply Hs1. Qed.

Lemma run_bucket_runl b : forall s w, exists s',
  run_bucket ut (s_time s) b s w =
    (s', fst (runl (s_time s) b w), evs (s_time s) (snd (runl (s_time s) b w)), false) /\
  s_steps s' = s_steps s.
Proof.
  induction b as [|a b IH]; intros s w.
  - exists s. auto.
  - rewrite runl_cons. cbn [run_bucket]. simpl u_step.
    destruct (beh (s_time s) a w) as [w1 o] eqn:EB. cbn [run_ops fst snd app].
    pose proof (Hc (s_time s) a w) as C. rewrite EB in C. cbn [snd] in C.
    destruct o as [r| |]; [| |contradiction].
    + match goal with |- context [run_bucket ut _ b ?s2 w1] => set (s2' := s2) end.
      destruct (IH s2' w1) as (s'&E&N).
      assert (s_time s2' = s_time s /\ s_steps s2' = s_steps s) as [T N2].
      { subst s2'. destruct (negb _); auto. }
      rewrite T in E. rewrite E. exists s'. split; [reflexivity|congruence].
    + destruct (IH s w1) as (s'&E&N). rewrite E. exists s'. split; [reflexivity|congruence].
Qed.

Lemma timed_step_runl s w ag : inv s ag -> due_at (s_time s) ag <> [] ->
  exists order w0 s', Permutation (due_at (s_time s) ag) order /\ R w0 w /\
    timed_step ut s w =
      (s', fst (runl (s_time s) order w0), evs (s_time s) (snd (runl (s_time s) order w0)), false).
Proof.
  intros H ND. pose proof H as (HW&HT&HB).
  assert (is_time (s_time s) = true) as T by apply nonneg_is_time, HW.
  unfold timed_step. destruct (s_queue s) as [|[k b] q] eqn:EQ.
  - rewrite HB in ND by auto. exfalso. apply ND. reflexivity.
  - destruct (inv_head _ _ _ _ _ H EQ) as [HE HD].
    assert (n_leb (s_time s) k = true /\ b <> [] /\ above k q) as (L&B&A).
    { destruct HW as (_&_&HW). rewrite EQ in HW. exact HW. }
    assert (is_time k = true) as Tk by (eapply n_leb_is_time; eauto).
    destruct (n_ltb (s_time s) k) eqn:LT.
    + exfalso. apply ND. rewrite HB; auto. simpl. rewrite (n_ltb_neq' _ _ LT). simpl.
      apply (above_bucket k); auto.
    + assert (k = s_time s) as -> by (apply n_leb_antisym; auto; apply n_total; auto).
      destruct (if s_shuffle s then u_shuffle ut b w else (w, b)) as [w0 b0] eqn:ESH.
      assert (Permutation b b0 /\ R w0 w) as [PB RW].
      { destruct (s_shuffle s).
        - simpl in ESH. pose proof (Hs1 b w) as X1. pose proof (Hs2 b w) as X2.
          rewrite ESH in X1, X2. auto.
        - injection ESH as <- <-. split; auto. apply (of_refl _ _ Ho). }
      destruct (run_bucket_runl b0 (set_queue s q) w0) as (s1&E1&_).
      simpl in E1. rewrite E1.
      eexists b0, w0, _. rewrite HD. split; [auto|split; [auto|]]. reflexivity.
Qed.

(** ** One step of the priority-queue scheduler *)

Lemma up_forward : p_forward_only up.
Proof.
  intros s a w. simpl. specialize (Hc (p_time s) a w).
  destruct (beh (p_time s) a w) as [w' o]. destruct o as [[d|]| |]; auto.
Qed.

Lemma up_nobody : p_adds_nobody up.
Proof. intros s a w. simpl. destruct (beh (p_time s) a w); reflexivity. Qed.

Definition due_h (now : num) (h : list entry) : list aid :=
  map e_agent (filter (fun e => n_eqb (e_when e) now) h).

Lemma due_h_push now h e : n_eqb (e_when e) now = false -> due_h now (heappush h e) = due_h now h.
Proof.
  intros N. unfold due_h. induction h as [|x h IH]; simpl.
  - now rewrite N.
  - destruct (key_ltb e x); simpl.
    + now rewrite N.
    + destruct (n_eqb (e_when x) now); simpl; congruence.
Qed.

Lemma due_h_due_at now h : due_h now h = due_at now (map proj h).
Proof.
  unfold due_h, due_at. induction h as [|e h IH]; simpl; auto.
  destruct (n_eqb (e_when e) now); simpl; congruence.
Qed.

Lemma pq_loop_runl fuel : forall s w ag s' w' tr next, pinv s ag ->
  n_eqb (p_time s) PInf = false -> n_ltb (Fin 0) (p_di s) = true ->
  pq_loop up fuel (p_time s) s w = PDone s' w' tr next ->
  tr = evs (p_time s) (snd (runl (p_time s) (due_h (p_time s) (p_heap s)) w)) /\
  R w' (fst (runl (p_time s) (due_h (p_time s) (p_heap s)) w)) /\
  p_steps s' = p_steps s /\ length (p_heap s') <= length (p_heap s).
Proof.
  induction fuel as [|fuel IH]; intros s w ag s' w' tr next H NI D E; [discriminate|].
  assert (is_time (p_time s) = true) as T by apply nonneg_is_time, H.
  destruct (p_heap s) as [|e h] eqn:EH.
  - cbn [pq_loop] in E. rewrite EH in E. injection E as <- <- <- <-. rewrite EH. simpl.
    repeat split; auto. apply (of_refl _ _ Ho).
  - destruct (n_ltb (p_time s) (e_when e)) eqn:L.
    + cbn [pq_loop] in E. rewrite EH, L in E. injection E as <- <- <- <-. rewrite EH.
      assert (due_h (p_time s) (e :: h) = []) as ->.
      { destruct H as (_&_&_&S&_). rewrite EH in S. inversion S as [|? ? S1 S2]; subst.
        unfold due_h. simpl. rewrite (n_ltb_neq' _ _ L).
        rewrite Forall_forall in S2.
        clear -S2 L. induction h as [|x h IH]; simpl; auto.
        assert (n_ltb (p_time s) (e_when x) = true) as Lx.
        { eapply n_ltb_leb_trans; [exact L|]. apply S2. left; auto. }
        rewrite (n_ltb_neq' _ _ Lx). apply IH. intros y I. apply S2. right; auto. }
      simpl. repeat split; auto. apply (of_refl _ _ Ho).
    + destruct (pq_loop_S up up_forward up_nobody fuel s w e h ag H EH L)
        as (EW&o&w1&s1&I&G&SO&H1&T1&D1&SH1&N1&E1&W1).
      cbn [p_step as_puser] in SO, W1.
      assert (pinv s1 ag) as Hs1' by (apply (pinv_same s); auto; congruence).
      rewrite E1 in E. clear E1.
      assert (e_when e = p_time s1) as EW1 by congruence.
      destruct (pinv_act s1 ag e h o Hs1' H1 EW1 G) as [_ K].
      rewrite T1, D1 in K.
      assert (due_h (p_time s) (e :: h) = e_agent e :: due_h (p_time s) h) as ED.
      { unfold due_h. simpl. rewrite EW, n_eqb_refl by auto. reflexivity. }
      rewrite ED, runl_cons. cbn [fst snd].
      assert (o = snd (beh (p_time s) (e_agent e) w)) as EO.
      { destruct (beh (p_time s) (e_agent e) w); auto. }
      assert (w1 = fst (beh (p_time s) (e_agent e) w)) as EW2.
      { destruct (beh (p_time s) (e_agent e) w); auto. }
      rewrite <- EO, <- EW2.
      assert (forall s2 w2 ag2, pinv s2 ag2 -> p_time s2 = p_time s -> p_di s2 = p_di s ->
        p_steps s2 = p_steps s -> length (p_heap s2) <= S (length h) ->
        due_h (p_time s) (p_heap s2) = due_h (p_time s) h -> R w2 w1 ->
        pres_pre [EvAct (p_time s) (e_agent e) o] (pq_loop up fuel (p_time s) s2 w2)
          = PDone s' w' tr next ->
        tr = evs (p_time s) ((e_agent e, o) :: snd (runl (p_time s) (due_h (p_time s) h) w1)) /\
        R w' (fst (runl (p_time s) (due_h (p_time s) h) w1)) /\
        p_steps s' = p_steps s /\ length (p_heap s') <= length (e :: h)) as KK.
      { intros s2 w2 ag2 P2 T2 D2 N2 L2 DH RW E2.
        destruct (pq_loop up fuel (p_time s) s2 w2) as [s3 w3 tr3 nx|s3 w3 tr3|] eqn:EL;
          try discriminate.
        injection E2 as <- <- <- <-.
        rewrite <- T2 in EL. specialize (IH s2 w2 ag2 s3 w3 tr3 nx P2).
        rewrite T2, D2 in IH. rewrite T2 in EL.
        destruct (IH NI D EL) as (IA&IB&IC&ID). rewrite DH in *.
        destruct (runl_ext (p_time s) (due_h (p_time s) h) _ _ RW) as [X1 X2].
        rewrite X2 in IA. split; [simpl; f_equal; exact IA|].
        split; [eapply (of_trans _ _ Ho); eauto|]. split; [congruence|]. simpl. lia. }
      destruct o as [r| |].
      * destruct (next_due (p_di s) (p_time s) (Ret r)) as [t|] eqn:ND.
        -- destruct (if p_shuffle s then p_draw up w1 else (w1, Z.of_nat (e_agent e)))
             as [w2 tie] eqn:EDR.
           eapply (KK _ w2 _ (K tie)); auto.
           ++ simpl. rewrite heappush_length. lia.
           ++ simpl. apply due_h_push. unfold e_when. cbn [fst].
              destruct (next_due_later _ _ _ _ T NI D G ND) as [LT _].
              apply n_ltb_neq'; auto.
           ++ destruct (p_shuffle s).
              ** simpl in EDR. pose proof (Hd w1) as X. rewrite EDR in X. exact X.
              ** injection EDR as <- _. apply (of_refl _ _ Ho).
        -- eapply (KK _ w1 _ K); auto. apply (of_refl _ _ Ho).
      * eapply (KK _ w1 _ K); auto. apply (of_refl _ _ Ho).
      * discriminate.
Qed.

(** ** Simulation *)

Record sim (N : nat) (s : sched) (wT : W) (p : pq) (wP : W) (aT aP : list (num * aid)) : Prop := {
  si_inv : inv s aT;
  si_pinv : pinv p aP;
  si_perm : Permutation aT aP;
  si_time : s_time s = p_time p;
  si_steps : s_steps s = p_steps p;
  si_di : s_di s = p_di p;
  si_world : R wT wP;
  si_nodup : NoDup (map snd aT);
  si_fin : Forall (fun q => n_eqb (fst q) PInf = false) aT;
  si_early : aT = [] /\ s_time s = PInf \/ earliest aT (s_time s);
  si_len : length (p_heap p) <= N }.

Lemma earliest_perm ag ag' t : Permutation ag ag' -> earliest ag t -> earliest ag' t.
Proof.
  intros P [(a&I) H]. split.
  - exists a. eapply Permutation_in; eauto.
  - intros t' b I'. apply (H t' b). eapply Permutation_in; [symmetry; exact P|auto].
Qed.

Lemma earliest_unique ag t t' : earliest ag t -> earliest ag t' -> t = t'.
Proof.
  intros [(a&I) H] [(a'&I') H']. apply n_leb_antisym; eauto.
Qed.

Lemma news_perm di now os os' : Permutation os os' -> Permutation (news di now os) (news di now os').
Proof. intros P. apply Permutation_flat_map. exact P. Qed.

Lemma news_agents di now os : incl (map snd (news di now os)) (map fst os).
Proof.
  intros a I. apply in_map_iff in I. destruct I as ([t b]&<-&I).
  apply in_flat_map in I. destruct I as ([c o]&I1&I2). simpl in *.
  destruct (next_due di now o); simpl in I2; [|contradiction].
  destruct I2 as [I2|[]]. injection I2 as <- <-.
  apply in_map_iff. exists (c, o). auto.
Qed.

Lemma news_nodup di now os : NoDup (map fst os) -> NoDup (map snd (news di now os)).
Proof.
  induction os as [|[a o] os IH]; simpl; intros ND; [constructor|].
  inversion ND; subst. destruct (next_due di now o); simpl; auto.
  constructor; auto. intros I. apply H1. eapply news_agents; eauto.
Qed.

Lemma others_in now ag p : In p (others now ag) <-> In p ag /\ n_eqb (fst p) now = false.
Proof. unfold others. rewrite filter_In, negb_true_iff. tauto. Qed.

Lemma nodup_map_filter {A B} (f : A -> B) (g : A -> bool) l :
  NoDup (map f l) -> NoDup (map f (filter g l)).
Proof.
  induction l as [|x l IH]; simpl; intros ND; [constructor|].
  inversion ND; subst. destruct (g x); auto. simpl. constructor; auto.
  intros I. apply H1. apply in_map_iff in I. destruct I as (y&E&I).
  apply filter_In in I. apply in_map_iff. exists y. tauto.
Qed.

Lemma nodup_app_intro {A} (l1 l2 : list A) : NoDup l1 -> NoDup l2 ->
  (forall x, In x l1 -> In x l2 -> False) -> NoDup (l1 ++ l2).
Proof.
  induction 1 as [|x l1 N1 N2 IH]; simpl; intros H2 D; auto. constructor.
  - rewrite in_app_iff. intros [I|I]; [auto|]. eapply D; eauto.
  - apply IH; auto. intros y I1 I2. eapply D; eauto.
Qed.

Lemma nodup_agents_inj (ag : list (num * aid)) t t' a : NoDup (map snd ag) ->
  In (t, a) ag -> In (t', a) ag -> t = t'.
Proof.
  induction ag as [|[t1 b] ag IH]; simpl; [tauto|]. intros ND I1 I2.
  inversion ND as [|? ? N1 N2]; subst.
  destruct I1 as [I1|I1], I2 as [I2|I2]; eauto; try congruence.
  - injection I1 as -> ->. exfalso. apply N1. change a with (snd (t', a)). apply in_map. auto.
  - injection I2 as -> ->. exfalso. apply N1. change a with (snd (t, a)). apply in_map. auto.
Qed.

Lemma sim_step N fuel s wT p wP aT aP : N < fuel -> n_ltb (Fin 0) (s_di s) = true ->
  sim N s wT p wP aT aP ->
  exists s' wT' trT p' wP' trP aT' aP',
    timed_step ut s wT = (s', wT', trT, false) /\
    pq_step up fuel p wP = Some (p', wP', trP, false) /\
    Permutation (activations trT) (activations trP) /\
    s_di s' = s_di s /\ sim N s' wT' p' wP' aT' aP'.
Proof.
  intros LN D [H1 H2 P ET EN ED RW ND FN EA LE].
  destruct EA as [[-> TI]|EA].
  - (* exhausted *)
    assert (s_queue s = []) as Q by (apply (inv_empty _ _ H1); auto).
    exists s, wT, [], p, wP, [], [], aP.
    rewrite step_empty by auto. unfold pq_step.
    assert (n_eqb (p_time p) PInf = true) as -> by (rewrite <- ET, TI; reflexivity).
    repeat split; auto; apply H1 || apply H2.
  - set (now := s_time s) in *.
    assert (is_time now = true) as T by apply nonneg_is_time, H1.
    assert (n_eqb now PInf = false) as NI.
    { destruct EA as [(a&I) _]. rewrite Forall_forall in FN. apply (FN _ I). }
    assert (due_at now aT <> []) as DN.
    { destruct EA as [(a&I) _]. apply in_due_at in I; auto. intros E. rewrite E in I. auto. }
    destruct (timed_step_runl s wT aT H1 DN) as (order&w0&s'&PO&RW0&ES). fold now in PO, ES.
    set (osT := snd (runl now order w0)) in *.
    assert (Forall (fun q => snd q <> Exc /\ good_delay (snd q)) osT) as CT by apply runl_calm.
    assert (no_exc (evs now osT)) as NET by (apply evs_no_exc; auto).
    assert (s_shuffle s = true -> fair_shuffle ut) as FS by (intros _; apply ut_fair).
    destruct (step_effect ut ut_forward _ _ _ _ _ _ _ FS ES H1 NET)
      as [(E&_)|[(E&_)|(_&_&SN&SE)]]; [subst aT; exfalso; apply DN; reflexivity
                                      |fold now in E; contradiction|].
    destruct (timed_step_inv ut ut_forward _ _ _ _ _ _ _ FS ES H1 NET) as (_&H1'&_).
    fold now in SE, SN. set (aT' := agenda (s_di s) aT (evs now osT)) in *.
    (* the other scheduler *)
    assert (pq_step up fuel p wP <> None) as TM.
    { apply pq_step_terminates; auto using up_forward, up_nobody.
      - rewrite <- ET. auto.
      - rewrite <- ED. auto.
      - lia. }
    destruct (pq_step up fuel p wP) as [[[[p' wP'] trP] x]|] eqn:EP; [|congruence].
    pose proof EP as EP0. unfold pq_step in EP0.
    assert (n_eqb (p_time p) PInf = false) as NIP by (rewrite <- ET; auto).
    rewrite NIP in EP0.
    pose proof (pq_loop_inv up up_forward up_nobody fuel p wP aP H2) as LI.
    destruct (pq_loop up fuel (p_time p) p wP) as [p1 w1 tr1 next|p1 w1 tr1|] eqn:EL;
      [| |discriminate].
    2:{ (* calm behaviours do not raise *)
        exfalso. destruct LI as (LI&_). apply LI. clear - EL Hc H2.
        assert (forall fuel p w ag, pinv p ag -> match pq_loop up fuel (p_time p) p w with
                                  | PRaised _ _ _ => False | _ => True end) as K.
        { clear fuel p wP aP p1 w1 tr1 EL H2.
          induction fuel as [|fuel IH]; intros p w ag H; [exact I|].
          destruct (p_heap p) as [|e h] eqn:EH.
          - cbn [pq_loop]. rewrite EH. auto.
          - destruct (n_ltb (p_time p) (e_when e)) eqn:L.
            + cbn [pq_loop]. rewrite EH, L. auto.
            + destruct (pq_loop_S up up_forward up_nobody fuel p w e h ag H EH L)
                as (EW&o&w1&s1&I&G&SO&H1&T1&D1&SH1&N1&E1&W1).
              assert (pinv s1 ag) as Hs1' by (apply (pinv_same p); auto; congruence).
              rewrite E1. clear E1. rewrite <- T1 in EW.
              destruct (pinv_act s1 ag e h o Hs1' H1 EW G) as [_ K].
              rewrite T1, D1 in K.
              pose proof (Hc (p_time p) (e_agent e) w) as C. simpl in SO.
              assert (snd (beh (p_time p) (e_agent e) w) = o) as SO'
                by (destruct (beh (p_time p) (e_agent e) w); auto).
              rewrite SO' in C.
              assert (forall s2 w2 ag2 tr, pinv s2 ag2 -> p_time s2 = p_time p ->
                match pres_pre tr (pq_loop up fuel (p_time p) s2 w2) with
                | PRaised _ _ _ => False | _ => True end) as KK.
              { intros s2 w2 ag2 tr P2 T2. specialize (IH s2 w2 ag2 P2). rewrite T2 in IH.
                destruct (pq_loop up fuel (p_time p) s2 w2); simpl; auto. }
              destruct o as [r| |]; [| |contradiction].
              * destruct (next_due (p_di p) (p_time p) (Ret r)) as [t|].
                -- destruct (if p_shuffle p then _ else _) as [w2 tie].
                   eapply KK; [apply (K tie)|auto].
                -- eapply KK; [apply K|auto].
              * eapply KK; [apply K|auto]. }
        specialize (K fuel p wP aP H2). rewrite EL in K. contradiction. }
    injection EP0 as <- <- <- <-.
    assert (n_ltb (Fin 0) (p_di p) = true) as DP by (rewrite <- ED; auto).
    destruct (pq_loop_runl fuel p wP aP p1 w1 tr1 next H2 NIP DP EL) as (TR&RP&SP&LP).
    rewrite <- ET in TR, RP. set (ord2 := due_h now (p_heap p)) in *.
    set (osP := snd (runl now ord2 wP)) in *.
    assert (Permutation (due_at now aT) ord2) as PO2.
    { unfold ord2. rewrite due_h_due_at. apply due_at_perm.
      rewrite P. symmetry. apply H2. }
    assert (NoDup (due_at now aT)) as NDD.
    { unfold due_at. apply nodup_map_filter; auto. }
    assert (R w0 wP) as RWP by (eapply (of_trans _ _ Ho); eauto).
    assert (Permutation order ord2) as POO by (rewrite <- PO; exact PO2).
    assert (NoDup order) as NDO by (eapply Permutation_NoDup; eauto).
    destruct (runl_perm now order ord2 POO NDO w0 wP RWP) as [RX PX].
    fold osT osP in PX.
    assert (Forall (fun q => snd q <> Exc /\ good_delay (snd q)) osP) as CP by apply runl_calm.
    assert (no_exc tr1) as NEP by (rewrite TR; apply evs_no_exc; auto).
    destruct (pq_step_inv up up_forward up_nobody _ _ _ _ _ _ _ _ H2 EP NEP)
      as (_&H2'&DP'&_&SEP). specialize (SEP NIP).
    set (aP' := agenda (p_di p) aP tr1) in *.
    assert (Permutation aT' (others now aT ++ news (s_di s) now osT)) as AT.
    { unfold aT'. apply agenda_evs; auto. unfold osT. rewrite runl_agents. auto. }
    assert (Permutation aP' (others now aP ++ news (s_di s) now osP)) as AP.
    { unfold aP'. rewrite TR, <- ED. apply agenda_evs; auto.
      unfold osP. rewrite runl_agents. rewrite <- PO2. apply due_at_perm. symmetry; auto. }
    assert (Permutation aT' aP') as PA.
    { rewrite AT, AP. apply Permutation_app.
      - apply filter_perm; auto.
      - apply news_perm; auto. }
    assert (s_di s' = s_di s) as DS.
    { pose proof (run_cmd_shuffle ut CStep s wT) as X. simpl in X. rewrite ES in X.
      destruct (X _ _ _ eq_refl); auto. }
    exists s', (fst (runl now order w0)), (evs now osT),
      (PQ next (S (p_steps p1)) (p_heap p1) (p_reg p1) (p_shuffle p1) (p_di p1)
          (if n_eqb next PInf then false else p_running p1)), w1, tr1, aT', aP'.
    split; [exact ES|]. split; [reflexivity|].
    split.
    { rewrite TR. unfold activations, evs.
      assert (forall os, flat_map (fun e => match e with
                | EvAdd _ _ => [] | EvAct t a o => [(t, a, o)] end)
                (map (fun q : aid * outcome => EvAct now (fst q) (snd q)) os)
              = map (fun q => (now, fst q, snd q)) os) as K.
      { induction os as [|q os IH]; simpl; congruence. }
      rewrite !K. apply Permutation_map. auto. }
    split; auto.
    assert (n_eqb next PInf = true -> p_heap p1 = []) as NX.
    { destruct LI as (_&_&_&_&_&[(Q&_)|(e&h&Q&->&L)]); auto.
      intros E. exfalso. apply n_eqb_eq in E.
      assert (In (e_when e, e_agent e) aP') as IE.
      { destruct H2' as (_&_&_&_&PP). eapply Permutation_in; [exact PP|].
        simpl. rewrite Q. left. reflexivity. }
      apply (Permutation_in _ AP) in IE. apply in_app_or in IE. destruct IE as [IE|IE].
      - apply others_in in IE. destruct IE as [IE _].
        apply (Permutation_in _ (Permutation_sym P)) in IE.
        rewrite Forall_forall in FN. specialize (FN _ IE). simpl in FN. rewrite E in FN. discriminate.
      - apply in_flat_map in IE. destruct IE as ([c o]&I1&I2). simpl in I2.
        destruct (next_due (s_di s) now o) as [t|] eqn:E3; simpl in I2; [|contradiction].
        destruct I2 as [I2|[]]. injection I2 as I2 _.
        rewrite Forall_forall in CP. destruct (CP _ I1) as [_ G].
        destruct (next_due_later _ _ _ _ T NI D G E3) as [_ F]. rewrite I2, E in F. discriminate. }
    constructor; auto.
    + (* time *)
      destruct SE as [(A0&TT)|SE], SEP as [(Q&TP)|(e&h&Q&TP)]; simpl in *.
      * congruence.
      * exfalso. destruct H2' as (_&_&_&_&PP). simpl in PP. rewrite Q in PP.
        rewrite A0 in PA. apply Permutation_nil in PA. rewrite PA in PP.
        apply Permutation_sym, Permutation_nil in PP. discriminate.
      * exfalso. destruct H2' as (_&_&_&_&PP). simpl in PP. rewrite Q in PP.
        apply Permutation_nil in PP. rewrite PP in PA.
        apply Permutation_sym, Permutation_nil in PA.
        destruct SE as [(a&I) _]. fold aT' in I. rewrite PA in I. auto.
      * apply (earliest_unique aP'); [eapply earliest_perm; eauto|].
        destruct H2' as (_&_&_&S&PP). simpl in PP, S. rewrite Q in PP, S. rewrite TP.
        split.
        -- exists (e_agent e). eapply Permutation_in; [exact PP|]. left; reflexivity.
        -- intros t' b I. apply (Permutation_in _ (Permutation_sym PP)) in I.
           apply in_map_iff in I. destruct I as (e2&E2&I). injection E2 as <- <-.
           destruct I as [<-|I].
           ++ apply n_leb_refl. apply (n_leb_is_time now).
              ** auto.
              ** destruct H2 as (_&_&F2&_). destruct LI as (LI1&LI2&_).
                 destruct LI1 as (_&_&F1&_). rewrite Q in F1.
                 inversion F1; subst. rewrite LI2, <- ET in *. auto.
           ++ inversion S as [|? ? S1 S2]; subst. rewrite Forall_forall in S2. apply S2; auto.
    + simpl. rewrite SN, SP. congruence.
    + rewrite DS, DP'. auto.
    + eapply (of_trans _ _ Ho); [exact RX|]. apply (of_sym _ _ Ho). exact RP.
    + (* distinct agents *)
      eapply Permutation_NoDup; [apply Permutation_map; symmetry; exact AT|].
      rewrite map_app. apply nodup_app_intro.
      * apply nodup_map_filter; auto.
      * apply news_nodup. unfold osT. rewrite runl_agents. auto.
      * intros a I1 I2. apply news_agents in I2. unfold osT in I2. rewrite runl_agents in I2.
        apply (Permutation_in _ (Permutation_sym PO)) in I2. apply in_due_at in I2; auto.
        apply in_map_iff in I1. destruct I1 as ([t b]&<-&I1). apply others_in in I1.
        destruct I1 as [I1 NE]. simpl in *.
        pose proof (nodup_agents_inj aT t now b ND I1 I2) as X. subst t.
        rewrite n_eqb_refl in NE; auto; discriminate.
    + rewrite Forall_forall. intros q I. apply (Permutation_in _ AT) in I.
      apply in_app_or in I. destruct I as [I|I].
      * apply others_in in I. rewrite Forall_forall in FN. apply FN. tauto.
      * apply in_flat_map in I. destruct I as ([c o]&I1&I2). simpl in I2.
        destruct (next_due (s_di s) now o) as [t|] eqn:E3; simpl in I2; [|contradiction].
        destruct I2 as [<-|[]]. simpl.
        rewrite Forall_forall in CT. destruct (CT _ I1) as [_ G].
        destruct (next_due_later _ _ _ _ T NI D G E3); auto.
    + simpl. lia.
Qed.

Lemma sim_steps N fuel n : N < fuel -> forall s wT p wP aT aP,
  n_ltb (Fin 0) (s_di s) = true -> sim N s wT p wP aT aP ->
  exists s' wT' trT p' wP' trP aT' aP',
    run_hist ut (repeat CStep n) s wT = (s', wT', trT) /\
    pq_hist up fuel (repeat CStep n) p wP = Some (p', wP', trP) /\
    Permutation (activations trT) (activations trP) /\
    sim N s' wT' p' wP' aT' aP'.
Proof.
  intros LN. induction n as [|n IH]; intros s wT p wP aT aP D S.
  - exists s, wT, [], p, wP, [], aT, aP. simpl. auto.
  - destruct (sim_step N fuel _ _ _ _ _ _ LN D S)
      as (s1&wT1&tT1&p1&wP1&tP1&aT1&aP1&E1&E2&P1&D1&S1).
    assert (n_ltb (Fin 0) (s_di s1) = true) as D1' by (rewrite D1; auto).
    destruct (IH _ _ _ _ _ _ D1' S1) as (s2&wT2&tT2&p2&wP2&tP2&aT2&aP2&F1&F2&P2&S2).
    exists s2, wT2, (tT1 ++ tT2), p2, wP2, (tP1 ++ tP2), aT2, aP2.
    cbn [repeat run_hist run_cmd pq_hist pq_cmd]. rewrite E1, E2, F1, F2.
    repeat split; auto; try apply S2. unfold activations in *. rewrite !flat_map_app.
    apply Permutation_app; auto.
Qed.

Lemma timed_add_all l : forall s w ag, inv s ag -> s_time s = Fin 0 ->
  exists s', run_hist ut (add_all l) s w = (s', w, map (EvAdd (Fin 0)) l) /\
    inv s' (ag ++ map (pair (Fin 0)) l) /\ s_time s' = Fin 0 /\ s_di s' = s_di s /\
    s_steps s' = s_steps s.
Proof.
  induction l as [|a l IH]; intros s w ag H T.
  - exists s. simpl. rewrite app_nil_r. auto.
  - cbn [add_all map run_hist run_cmd run_op]. rewrite T.
    destruct (run_op_binv [] s (SAdd a None) _ _ _ eq_refl (inv_binv _ _ H)) as (H1&_&_).
    apply binv_inv in H1. cbn [agenda] in H1. rewrite T in H1.
    destruct (timed_add_clock s a None) as (C1&C2&C3&C4).
    destruct (IH _ w _ H1 ltac:(congruence)) as (s'&E&I'&T'&D'&N').
    unfold add_all in E. rewrite E. exists s'. split; [reflexivity|].
    rewrite <- app_assoc in I'. simpl in I'. repeat split; try congruence; apply I'.
Qed.

Lemma schedulers_agree shT shP di l n fuel w s wT trT :
  n_ltb (Fin 0) di = true -> l <> [] -> NoDup l -> length l < fuel ->
  run_hist ut (add_all l ++ repeat CStep n) (timed_init shT di) w = (s, wT, trT) ->
  exists p wP trP,
    pq_hist up fuel (add_all l ++ repeat CStep n) (pq_init shP di) w = Some (p, wP, trP) /\
    s_time s = p_time p /\ s_steps s = p_steps p /\
    Permutation (activations trT) (activations trP) /\ R wT wP.
Proof.
  intros D NE ND LF E.
  assert (nonneg di = true) as D0 by (apply n_ltb_leb; auto).
  destruct (timed_add_all l (timed_init shT di) w [] (inv_init _ _ D0) eq_refl)
    as (s1&E1&I1&T1&D1&N1).
  destruct (add_all_inv W up fuel l (pq_init shP di) w [] (pinv_init _ _ D0) eq_refl)
    as (p1&w1&F1&J1&U1&V1&_&M1&RW1&L1). simpl in *.
  rewrite run_hist_app, E1 in E. rewrite pq_hist_app, F1.
  assert (sim (length l) s1 w p1 w1 (map (pair (Fin 0)) l) (map (pair (Fin 0)) l)) as S.
  { constructor; auto; try congruence.
    - apply (of_sym _ _ Ho). apply RW1; [apply (of_refl _ _ Ho)|apply (of_trans _ _ Ho)|apply Hd].
    - rewrite map_map. simpl. rewrite map_id. auto.
    - rewrite Forall_forall. intros q I. apply in_map_iff in I. destruct I as (a&<-&_). reflexivity.
    - right. rewrite T1. split.
      + destruct l as [|a l]; [congruence|]. exists a. left; reflexivity.
      + intros t a I. apply in_map_iff in I. destruct I as (b&Eb&_). injection Eb as <- <-. reflexivity.
    - lia. }
  assert (n_ltb (Fin 0) (s_di s1) = true) as D1' by (rewrite D1; auto).
  destruct (sim_steps (length l) fuel n LF _ _ _ _ _ _ D1' S)
    as (s2&wT2&tT2&p2&wP2&tP2&aT2&aP2&G1&G2&P2&S2).
  rewrite G1 in E. injection E as <- <- <-. rewrite G2.
  exists p2, wP2, (map (EvAdd (Fin 0)) l ++ tP2).
  split; [reflexivity|]. destruct S2. repeat split; auto.
  unfold activations in *. rewrite !flat_map_app. apply Permutation_app; auto.
Qed.
End Equiv.
End Arith.
