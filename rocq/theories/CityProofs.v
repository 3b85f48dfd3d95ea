(** Proofs about CityModel. *)
From Coq Require Import ZArith QArith_base List Bool Arith Lia Permutation.
From Verif Require Import Num PyDict TimedModel TimedSpec TimedProofs AgentModel AgentProofs FsmModel LockstepModel InvProofs PatronProofs WealthModel WealthProofs
  DelaySpec DelayProofs YieldProofs CityModel CitySpec.
Import ListNotations.
Local Open Scope nat_scope.

(** * Invariants of the observations and the world *)
Section TInv.
Context {AR : Arith} {X : Type}.
Variable u : user X.
Variable J : list ev -> X -> Prop.
Variable Q : aid -> Prop.
Hypothesis HS : forall h s a x x' ops o, J h x -> Q a -> u_step u s a x = (x', ops, o) ->
  ops = [] /\ forall t, J (h ++ [EvAct t a o]) x'.
Hypothesis HF : forall h l x x' l', J h x -> u_shuffle u l x = (x', l') -> J h x' /\ incl l' l.

Definition qok (s : sched) : Prop := forall t b a, In (t, b) (s_queue s) -> In a b -> Q a.
Lemma tbucket b : forall h now s x s' x' tr e, J h x -> qok s -> (forall a, In a b -> Q a) ->
  run_bucket u now b s x = (s', x', tr, e) -> J (h ++ tr) x' /\ qok s'.
Proof.
  induction b as [|a b IH]; cbn [run_bucket]; intros h now s x s' x' tr e H K B E.
  - injection E as <- <- <- <-. rewrite app_nil_r. auto.
  - destruct (u_step u s a x) as [[x1 ops] o] eqn:E1.
    destruct (HS _ _ _ _ _ _ _ H (B a (or_introl eq_refl)) E1) as [-> J1]. specialize (J1 now).
    cbn [run_ops] in E. change ([] ++ [EvAct now a o])%list with [EvAct now a o] in E.
    assert (B' : forall c, In c b -> Q c) by (intros; apply B; now right).
    destruct o as [d| |].
    + set (s2 := if negb _ then _ else _) in E.
      destruct (run_bucket u now b s2 x1) as [[[s3 x3] tr3] e3] eqn:E3. injection E as <- <- <- <-.
      destruct (IH (h ++ [EvAct now a (Ret d)])%list now s2 x1 s3 x3 tr3 e3 J1) as [R1 R2]; auto.
      { subst s2. destruct (negb _); auto. intros t' b' c J2 K2. cbn in J2.
        destruct (insert_bucket_In _ _ _ _ _ _ J2 K2) as [->|(t2 & b2 & J3 & K3)]; [apply B; now left|eapply K; eauto]. }
      rewrite <- app_assoc in R1. auto.
    + destruct (run_bucket u now b s x1) as [[[s3 x3] tr3] e3] eqn:E3. injection E as <- <- <- <-.
      destruct (IH (h ++ [EvAct now a Dead])%list now s x1 s3 x3 tr3 e3 J1) as [R1 R2]; auto.
      rewrite <- app_assoc in R1. auto.
    + injection E as <- <- <- <-. auto.
Qed.
Lemma tstep h s x s' x' tr e : J h x -> qok s -> timed_step u s x = (s', x', tr, e) -> J (h ++ tr) x' /\ qok s'.
Proof.
  intros H K E. unfold timed_step in E. destruct (s_queue s) as [|[t b] q] eqn:EQ.
  { injection E as <- <- <- <-. rewrite app_nil_r. auto. }
  destruct (n_ltb _ t). { injection E as <- <- <- <-. rewrite app_nil_r. auto. }
  assert (S0 : exists x0 b0, (if s_shuffle s then u_shuffle u b x else (x, b)) = (x0, b0) /\ J h x0 /\ incl b0 b).
  { destruct (s_shuffle s).
    - destruct (u_shuffle u b x) as [x0 b0] eqn:ES. exists x0, b0. split; auto. eapply HF; eauto.
    - exists x, b. split; auto. split; auto. apply incl_refl. }
  destruct S0 as (x0 & b0 & S0 & J1 & J2). rewrite S0 in E.
  destruct (run_bucket u (s_time s) b0 _ x0) as [[[s1 x1] tr1] e1] eqn:E1.
  assert (V : J (h ++ tr1) x1 /\ qok s1).
  { eapply tbucket; [exact J1| | |exact E1].
    - intros t' b' a I1 I2. cbn in I1. apply (K t' b'); auto. rewrite EQ. now right.
    - intros a I1. apply (K t b); auto. rewrite EQ. now left. }
  destruct V as [V1 V2]. destruct e1; injection E as <- <- <- <-; auto. split; auto.
  unfold set_steps. cbn [s_queue]. destruct (s_queue s1) as [|[t1 b1] q1] eqn:EQ1.
  - intros t' b' a I1 I2. destruct I1.
  - intros t0 b2 a I1 I2. apply (V2 t0 b2); auto. rewrite EQ1. exact I1.
Qed.
Lemma tsteps n : forall h s x s' x' tr, J h x -> qok s -> run_hist u (repeat CStep n) s x = (s', x', tr) -> J (h ++ tr) x' /\ qok s'.
Proof.
  induction n as [|n IH]; cbn [repeat run_hist run_cmd]; intros h s x s' x' tr H K E.
  - injection E as <- <- <-. rewrite app_nil_r. auto.
  - destruct (timed_step u s x) as [[[s1 x1] tr1] e1] eqn:E1.
    destruct (run_hist u (repeat CStep n) s1 x1) as [[s2 x2] tr2] eqn:E2. injection E as <- <- <-.
    destruct (tstep _ _ _ _ _ _ _ H K E1) as [H1 K1]. rewrite app_assoc. eapply IH; eauto.
Qed.
End TInv.

(** Steps in lockstep are steps of the scheduler. *)
Section Lock.
Context {AR : Arith} {X : Type}.
Variable u : user X.
Lemma loop_runs fuel e : forall s w s' w' tr x, lock_loop u fuel e s w = Some (s', w', tr, x) ->
  exists k, run_hist u (repeat CStep k) s w = (s', w', tr).
Proof.
  induction fuel as [|f IH]; cbn [lock_loop]; intros s w s' w' tr x E; [discriminate|].
  destruct (n_ltb (s_time s) e).
  2:{ injection E as <- <- <- <-. exists 0. reflexivity. }
  destruct (timed_step u s w) as [[[s1 w1] tr1] x1] eqn:E1. destruct x1.
  - injection E as <- <- <- <-. exists 1. cbn [repeat run_hist run_cmd]. rewrite E1, app_nil_r. reflexivity.
  - destruct (lock_loop u f e s1 w1) as [[[[s2 w2] tr2] x2]|] eqn:E2; [|discriminate]. injection E as <- <- <- <-.
    destruct (IH _ _ _ _ _ _ E2) as [k Hk]. exists (S k). cbn [repeat run_hist run_cmd]. now rewrite E1, Hk.
Qed.
Lemma hist_runs fuel n : forall l w l' w' tr, lock_hist u fuel (repeat CStep n) l w = Some (l', w', tr) ->
  exists k, run_hist u (repeat CStep k) (l_sched l) w = (l_sched l', w', tr).
Proof.
  induction n as [|n IH]; cbn [repeat lock_hist lock_cmd]; intros l w l' w' tr E.
  - injection E as <- <- <-. exists 0. reflexivity.
  - destruct (lock_step u fuel l w) as [[[[l1 w1] tr1] x1]|] eqn:E1; [|discriminate].
    destruct (lock_hist u fuel (repeat CStep n) l1 w1) as [[[l2 w2] tr2]|] eqn:E2; [|discriminate].
    injection E as <- <- <-. destruct (IH _ _ _ _ _ E2) as [k Hk].
    unfold lock_step in E1. destruct (lock_loop u fuel _ (l_sched l) w) as [[[[s3 w3] tr3] x3]|] eqn:E3; [|discriminate].
    destruct (loop_runs _ _ _ _ _ _ _ _ E3) as [j Hj].
    assert (A : l_sched l1 = s3 /\ w1 = w3 /\ tr1 = tr3) by (destruct x3; injection E1 as <- <- <- <-; auto).
    destruct A as (A & -> & ->). rewrite A in Hk. exists (j + k). rewrite repeat_app, run_hist_app, Hj, Hk. reflexivity.
Qed.
Lemma hist_adds fuel l0 rest : forall l w l' w' tr, lock_hist u fuel (map (fun a => CAdd a None) l0 ++ rest) l w = Some (l', w', tr) ->
  exists l1 w1 tr1 tr2, run_hist u (map (fun a => CAdd a None) l0) (l_sched l) w = (l_sched l1, w1, tr1) /\
    lock_hist u fuel rest l1 w1 = Some (l', w', tr2) /\ tr = (tr1 ++ tr2)%list.
Proof.
  induction l0 as [|a l0 IH]; cbn [map app lock_hist lock_cmd run_hist]; intros l w l' w' tr E.
  - exists l, w, [], tr. auto.
  - destruct (run_cmd u (l_sched l) w (CAdd a None)) as [[s1 w1] tr1] eqn:E1.
    destruct (lock_hist u fuel (map (fun a => CAdd a None) l0 ++ rest) _ w1) as [[[l2 w2] tr2]|] eqn:E2; [|discriminate].
    injection E as <- <- <-. destruct (IH _ _ _ _ _ E2) as (l3 & w3 & tr3 & tr4 & H1 & H2 & ->). cbn [l_sched] in H1.
    exists l3, w3, (tr1 ++ tr3)%list, tr4. rewrite H1, app_assoc. auto.
Qed.
Lemma lock_runs fuel l0 n l w l' w' tr : lock_hist u fuel (map (fun a => CAdd a None) l0 ++ repeat CStep n) l w = Some (l', w', tr) ->
  exists k, run_hist u (map (fun a => CAdd a None) l0 ++ repeat CStep k) (l_sched l) w = (l_sched l', w', tr).
Proof.
  intros E. destruct (hist_adds _ _ _ _ _ _ _ _ E) as (l1 & w1 & tr1 & tr2 & H1 & H2 & ->).
  destruct (hist_runs _ _ _ _ _ _ _ H2) as [k Hk]. exists k. now rewrite run_hist_app, H1, Hk.
Qed.
End Lock.

(** * Streets *)
Lemma once_In l x : In x (once l) <-> In x l.
Proof.
  induction l as [|y l IH]; [reflexivity|]. cbn. rewrite filter_In, IH. destruct (Nat.eqb_spec x y); cbn; subst; intuition congruence.
Qed.
Lemma neighbors_leads c u v : In v (neighbors c u) <-> leads c u v.
Proof.
  unfold neighbors, leads. rewrite once_In, in_map_iff. split.
  - intros (s & E & H). apply filter_In in H as [H1 H2]. apply Nat.eqb_eq in H2. eauto.
  - intros (s & H & E1 & E2). exists s. split; auto. apply filter_In. rewrite E1, Nat.eqb_refl. auto.
Qed.
Lemma between_iff u v s : between u v s = true <-> st_from s = u /\ st_to s = v.
Proof. unfold between. now rewrite andb_true_iff, !Nat.eqb_eq. Qed.
Lemma py_min_fold l : forall x, let m := fold_left (fun m y => if n_ltb y m then y else m) l x in
  (m = x \/ In m l /\ n_ltb m x = true) /\ (forall y, In y l -> n_ltb y m = false).
Proof.
  induction l as [|z l IH]; cbn [fold_left]; intros x; cbv zeta; [split; [now left|now intros ? []]|].
  destruct (n_ltb z x) eqn:E.
  - destruct (IH z) as [A B]. split.
    + right. destruct A as [A|[A1 A2]]; [rewrite A; split; [now left|exact E]|]. split; [now right|]. eapply n_ltb_trans; eauto.
    + intros y [<-|I]; [|now apply B]. destruct A as [A|[A1 A2]]; [rewrite A; apply n_ltb_irrefl|]. now apply n_ltb_asym.
  - destruct (IH x) as [A B]. split.
    + destruct A as [A|[A1 A2]]; [now left|right]. split; [now right|exact A2].
    + intros y [<-|I]; [|now apply B]. destruct A as [A|[A1 A2]]; [now rewrite A|].
      apply not_true_iff_false. intros F. rewrite (n_ltb_trans _ _ _ F A2) in E. discriminate.
Qed.
Lemma travel_least c u v d : travel_time c u v = Some d -> least_time c u v d.
Proof.
  unfold travel_time, py_min. set (l := map st_time (filter (between u v) (c_streets c))).
  destruct l as [|x l'] eqn:E; [discriminate|]. intros [= <-].
  destruct (py_min_fold l' x) as [A B].
  set (m := fold_left _ l' x) in *.
  assert (I : forall d, In d (x :: l') <-> exists s, In s (c_streets c) /\ st_from s = u /\ st_to s = v /\ st_time s = d).
  { intros d. rewrite <- E. subst l. rewrite in_map_iff. split.
    - intros (s & H & K). apply filter_In in K as [K1 K2]. apply between_iff in K2 as [K2 K3]. eauto.
    - intros (s & H & K1 & K2 & K3). exists s. split; auto. apply filter_In. split; auto. now apply between_iff. }
  split.
  - apply I. destruct A as [A|[A _]]; [left; auto|right; auto].
  - intros s H1 H2 H3. assert (K : In (st_time s) (x :: l')) by (apply I; eauto 6). destruct K as [K|K].
    + rewrite <- K. destruct A as [A|[_ A]]; [rewrite A; apply n_ltb_irrefl|now apply n_ltb_asym].
    + now apply B.
Qed.
Lemma leads_travel c u v : leads c u v -> exists d, travel_time c u v = Some d.
Proof.
  intros (s & H & E1 & E2). unfold travel_time, py_min.
  destruct (map st_time (filter (between u v) (c_streets c))) as [|x l] eqn:E; [|eauto].
  assert (F : In (st_time s) []).
  { rewrite <- E. apply in_map, filter_In. split; auto. now apply between_iff. }
  destruct F.
Qed.
Lemma least_leads c u v d : least_time c u v d -> leads c u v.
Proof. intros [(s & H & A & B & _) _]. exists s. auto. Qed.
Lemma travel_times_spec c u l : (forall v, In v l -> leads c u v) -> exists ts, travel_times c u l = Some ts /\ List.length ts = List.length l /\
  forall i, i < List.length l -> travel_time c u (nth i l 0) = Some (nth i ts (Fin 0)).
Proof.
  induction l as [|v l IH]; intros H; [exists []; cbn; split; auto; split; auto; intros; lia|].
  destruct (leads_travel c u v) as [d D]; [apply H; now left|].
  destruct IH as (ts & A & B & C); [intros; apply H; now right|].
  exists (d :: ts). cbn [travel_times List.length]. rewrite D, A. split; auto. split; [now rewrite B|].
  intros [|i] L; cbn [nth]; auto. apply C. lia.
Qed.
Definition redraw (r : crest) (d : nat -> nat) : crest := CRest (cr_pos r) (cr_at r) (cr_occupation r) (cr_waiting r) d.
Lemma choose_spec c f u r x r1 : choose_next c f u r = (x, r1) ->
  (exists d, r1 = redraw r d) /\ match x with Some (v, d) => least_time c u v d | None => True end.
Proof.
  assert (R : exists d, r = redraw r d) by (exists (cr_draws r); now destruct r).
  unfold choose_next. destruct f.
  - destruct (neighbors c u) as [|v0 l] eqn:N; [intros [= <- <-]; auto|]. rewrite <- N in *.
    unfold draw. cbv beta iota zeta. destruct (travel_time c u _) as [d|] eqn:T; intros [= <- <-].
    + split; [eexists; reflexivity|]. now apply travel_least.
    + split; [eexists; reflexivity|exact I].
  - destruct (travel_times_spec c u (neighbors c u)) as (ts & A & B & C).
    { intros v H. now apply neighbors_leads. }
    rewrite A. destruct ts as [|t ts]; [intros [= <- <-]; auto|]. destruct (existsb _ _ || forallb _ _); [intros [= <- <-]; auto|].
    unfold draw. pose proof (Nat.mod_upper_bound (cr_draws r 0) (List.length (t :: ts)) ltac:(discriminate)) as B0.
    generalize dependent (cr_draws r 0 mod List.length (t :: ts)). intros i B0. cbv beta iota zeta. intros [= <- <-].
    split; [eexists; reflexivity|]. apply travel_least. rewrite B in B0. exact (C i B0).
Qed.
Lemma choose_drivable c f u r x r1 : drivable c -> In u (c_nodes c) -> choose_next c f u r = (x, r1) -> x <> None.
Proof.
  intros (D1 & D2 & _) U E. destruct (D1 u U) as [v0 L0]. apply neighbors_leads in L0.
  unfold choose_next in E. destruct f.
  - destruct (neighbors c u) as [|w l] eqn:N; [destruct L0|]. rewrite <- N in *. unfold draw in E. cbv beta iota zeta in E.
    set (i := cr_draws r 0 mod List.length (neighbors c u)) in *.
    assert (L : leads c u (nth i (neighbors c u) 0)).
    { apply neighbors_leads, nth_In. apply Nat.mod_upper_bound. rewrite N. discriminate. }
    destruct (leads_travel _ _ _ L) as [d D]. rewrite D in E. injection E as <- <-. discriminate.
  - destruct (travel_times_spec c u (neighbors c u)) as (ts & A & B & C).
    { intros v H. now apply neighbors_leads. }
    rewrite A in E. destruct ts as [|t ts]; [destruct (neighbors c u); [destruct L0|discriminate]|].
    assert (TS : forall d, In d (t :: ts) -> n_ltb (Fin 0) d = true /\ n_ltb d PInf = true).
    { intros d I. apply (In_nth _ _ (Fin 0)) in I as (i & L & I).
      rewrite B in L. specialize (C i L). rewrite I in C. apply travel_least in C as [(s & S1 & _ & _ & <-) _]. now apply D2. }
    destruct (existsb (fun t => n_eqb t (Fin 0)) (t :: ts) || forallb (fun t => n_eqb t PInf) (t :: ts)) eqn:Z.
    + exfalso. apply orb_true_iff in Z as [Z|Z].
      * apply existsb_exists in Z as (d & I & Z). destruct (TS d I) as [T1 _]. rewrite (n_ltb_neq' _ _ T1) in Z. discriminate.
      * cbn [forallb] in Z. apply andb_true_iff in Z as [Z _]. destruct (TS t (or_introl eq_refl)) as [_ T2]. rewrite (n_ltb_neq _ _ T2) in Z. discriminate.
    + unfold draw in E. cbv beta iota zeta in E. injection E as <- <-. discriminate.
Qed.

(** * The invariant *)
Definition b2z (b : bool) : Z := if b then 1%Z else 0%Z.
Definition cnt (f : aid -> bool) (l : list aid) : Z := Z.of_nat (List.length (filter f l)).
Lemma cnt_ext f g l : (forall b, In b l -> f b = g b) -> cnt f l = cnt g l.
Proof. intros H. unfold cnt. now rewrite (filter_ext_in f g l H). Qed.
Lemma cnt_flip f g a l : NoDup l -> In a l -> (forall b, b <> a -> f b = g b) -> (cnt f l + b2z (g a) = cnt g l + b2z (f a))%Z.
Proof.
  induction l as [|x l IH]; intros N I H; [destruct I|]. apply NoDup_cons_iff in N as [N1 N2].
  assert (CC : forall h, cnt h (x :: l) = (b2z (h x) + cnt h l)%Z).
  { intros h. unfold cnt. cbn [filter]. destruct (h x); cbn [List.length b2z]; lia. }
  rewrite !CC. destruct (Nat.eq_dec x a) as [->|NE].
  - rewrite (cnt_ext f g l); [lia|]. intros b J. apply H. congruence.
  - destruct I as [I|I]; [congruence|]. specialize (IH N2 I H). rewrite (H x NE). lia.
Qed.

Section City.
Variable c : city.
Variable gradual : bool.
Variable N : nat.
Hypothesis DR : drawn c.

Definition onway (r : crest) (tg : aid -> option node) (u v : node) (a : aid) : bool :=
  match cr_pos r a, tg a with Some u', Some v' => Nat.eqb u' u && Nat.eqb v' v | _, _ => false end.
Record good (r : crest) (tg : aid -> option node) : Prop := Good {
  g_pos : forall a, a < N -> exists u, cr_pos r a = Some u /\ In u (c_nodes c);
  g_at : forall v a, In a (cr_at r v) <-> a < N /\ cr_pos r a = Some v;
  g_nd : forall v, NoDup (cr_at r v);
  g_tg : forall a v, tg a = Some v -> a < N /\ gradual = true /\ exists u, cr_pos r a = Some u /\ leads c u v /\ (v <> u -> has_street c u v = true);
  g_occ : forall u v, cr_occupation r u v = if Nat.eqb u v then 0%Z else cnt (onway r tg u v) (seq 0 N);
  g_wait : forall a, tg a <> None -> cr_waiting r a = true }.

Lemma good_ext r tg tg' : (forall a, tg' a = tg a) -> good r tg -> good r tg'.
Proof.
  intros E [A B C D F G]. constructor; auto.
  - intros a v. rewrite E. apply D.
  - intros u v. rewrite F. destruct (Nat.eqb u v); auto. apply cnt_ext. intros b _. unfold onway. now rewrite E.
  - intros a. rewrite E. apply G.
Qed.
Lemma good_draw r tg d : good r tg -> good (redraw r d) tg.
Proof. intros [A B C D F G]. constructor; auto. Qed.
Lemma good_wait r tg a : good r tg -> good (set_waiting r a true) tg.
Proof.
  intros [A B C D F G]. constructor; auto. intros b H. cbn. unfold put. destruct (Nat.eqb b a); auto.
Qed.
Lemma put_same {V} (f : nat -> V) a v : put f a v a = v.
Proof. unfold put. now rewrite Nat.eqb_refl. Qed.
Lemma put_other {V} (f : nat -> V) a v b : b <> a -> put f a v b = f b.
Proof. intros H. unfold put. apply Nat.eqb_neq in H. now rewrite H. Qed.

(** Setting out. *)
Lemma good_depart r tg a u v : good r tg -> a < N -> tg a = None -> cr_waiting r a = true -> cr_pos r a = Some u -> leads c u v ->
  (v <> u -> has_street c u v = true) -> gradual = true ->
  good (if negb (Nat.eqb v u) then add_occupation r u v 1 else r) (put tg a (Some v)).
Proof.
  intros G L T W P LD HSt GR. pose proof G as G0. destruct G as [A B C D F K].
  set (r' := if negb (Nat.eqb v u) then add_occupation r u v 1 else r).
  assert (R : cr_pos r' = cr_pos r /\ cr_at r' = cr_at r /\ cr_waiting r' = cr_waiting r) by (subst r'; destruct (negb _); auto).
  destruct R as (R1 & R2 & R3). constructor; rewrite ?R1, ?R2, ?R3; auto.
  - intros b w. unfold put. destruct (Nat.eqb_spec b a) as [->|NE]; [|apply D]. intros [= <-]. eauto 8.
  - intros u' v'. assert (O : forall b, b <> a -> onway r tg u' v' b = onway r' (put tg a (Some v)) u' v' b).
    { intros b NE. unfold onway. rewrite R1, put_other; auto. }
    pose proof (cnt_flip (onway r tg u' v') (onway r' (put tg a (Some v)) u' v') a (seq 0 N) (seq_NoDup N 0) ltac:(apply in_seq; lia) O) as X.
    assert (X1 : onway r tg u' v' a = false) by (unfold onway; now rewrite P, T).
    assert (X2 : onway r' (put tg a (Some v)) u' v' a = Nat.eqb u u' && Nat.eqb v v') by (unfold onway; now rewrite R1, P, put_same).
    rewrite X1, X2 in X. cbn [b2z] in X. pose proof (F u' v') as FF. subst r'. destruct (Nat.eqb_spec v u) as [->|NE]; cbn [negb] in *.
    + rewrite FF. destruct (Nat.eqb_spec u' v'); auto.
      assert (Y : Nat.eqb u u' && Nat.eqb u v' = false) by (destruct (Nat.eqb_spec u u'), (Nat.eqb_spec u v'); auto; congruence).
      rewrite Y in X. cbn [b2z] in X. lia.
    + cbn [cr_occupation add_occupation]. unfold put at 1. destruct (Nat.eqb_spec u' u) as [->|N1].
      * unfold put at 1. destruct (Nat.eqb_spec v' v) as [->|N2].
        { rewrite FF. rewrite !Nat.eqb_refl in X. cbn [andb b2z] in X. destruct (Nat.eqb_spec u v); [congruence|]. lia. }
        { rewrite FF. destruct (Nat.eqb u v'); auto. destruct (Nat.eqb_spec v v'); [congruence|]. rewrite andb_false_r in X. cbn [b2z] in X. lia. }
      * rewrite FF. destruct (Nat.eqb u' v'); auto. destruct (Nat.eqb_spec u u'); [congruence|]. cbn [andb b2z] in X. lia.
  - intros b. unfold put. destruct (Nat.eqb_spec b a) as [->|NE]; auto.
Qed.

Lemma remove1_In a l : NoDup l -> forall b, In b (CityModel.remove1 a l) <-> b <> a /\ In b l.
Proof.
  induction l as [|x l IH]; intros ND b; cbn [CityModel.remove1]; [cbn; tauto|]. apply NoDup_cons_iff in ND as [N1 N2].
  destruct (Nat.eqb_spec x a) as [->|NE].
  - cbn. split; [intros H; split; [congruence|auto]|]. intros [H [K|K]]; congruence.
  - cbn. rewrite (IH N2). split; [intros [->|[? ?]]|intros [? [->|?]]]; auto.
Qed.
Lemma remove1_NoDup a l : NoDup l -> NoDup (CityModel.remove1 a l).
Proof.
  induction l as [|x l IH]; intros ND; cbn [CityModel.remove1]; auto. pose proof ND as ND0. apply NoDup_cons_iff in ND as [N1 N2].
  destruct (Nat.eqb x a); auto. constructor; auto. rewrite remove1_In; auto. tauto.
Qed.
Definition moved (r : crest) (a : aid) (u v : node) : crest :=
  CRest (put (put (cr_pos r) a None) a (Some v))
    (put (put (cr_at r) u (CityModel.remove1 a (cr_at r u))) v (put (cr_at r) u (CityModel.remove1 a (cr_at r u)) v ++ [a]))
    (cr_occupation r) (cr_waiting r) (cr_draws r).
Lemma move_spec r a u v : cr_pos r a = Some u -> In a (cr_at r u) -> move_agent r a v = Some (moved r a u v).
Proof.
  intros P I. unfold move_agent, remove. rewrite P.
  assert (E : existsb (Nat.eqb a) (cr_at r u) = true) by (apply existsb_exists; exists a; split; auto; apply Nat.eqb_refl).
  rewrite E. reflexivity.
Qed.
(** Arriving, after the occupation was changed. *)
Lemma good_arrive r tg a u v occ : good r tg -> a < N -> cr_pos r a = Some u -> In v (c_nodes c) ->
  (forall u' v', occ u' v' = if Nat.eqb u' v' then 0%Z else (cr_occupation r u' v' - b2z (onway r tg u' v' a))%Z) ->
  good (set_waiting (moved (CRest (cr_pos r) (cr_at r) occ (cr_waiting r) (cr_draws r)) a u v) a false) (put tg a None).
Proof.
  intros [A B C D F K] L P V O. unfold moved, set_waiting. cbn [cr_pos cr_at cr_occupation cr_waiting cr_draws].
  assert (PP : forall b, put (put (cr_pos r) a None) a (Some v) b = if Nat.eqb b a then Some v else cr_pos r b).
  { intros b. unfold put. now destruct (Nat.eqb b a). }
  constructor; cbn [cr_pos cr_at cr_occupation cr_waiting cr_draws].
  - intros b Lb. rewrite PP. destruct (Nat.eqb b a); eauto.
  - intros w b. rewrite PP. assert (X : forall w, In b (put (cr_at r) u (CityModel.remove1 a (cr_at r u)) w) <-> b <> a /\ In b (cr_at r w)).
    { intros w0. unfold put. destruct (Nat.eqb_spec w0 u) as [->|NE]; [now apply remove1_In|].
      split; [|tauto]. intros I. split; auto. intros ->. apply B in I as [_ I]. congruence. }
    unfold put at 1. destruct (Nat.eqb_spec w v) as [->|NE].
    + rewrite in_app_iff, X, B. cbn. destruct (Nat.eqb_spec b a) as [->|NB]; [tauto|]. intuition congruence.
    + rewrite X, B. destruct (Nat.eqb_spec b a) as [->|NB]; [|tauto]. split; [tauto|]. intros [_ [= ->]]. congruence.
  - intros w. assert (X : forall w, NoDup (put (cr_at r) u (CityModel.remove1 a (cr_at r u)) w)).
    { intros w0. unfold put. destruct (Nat.eqb w0 u); auto. now apply remove1_NoDup. }
    unfold put at 1. destruct (Nat.eqb_spec w v) as [->|NE]; [|apply X].
    apply (Permutation_NoDup (Permutation_cons_append _ a)). constructor; [|apply X].
    unfold put. destruct (Nat.eqb_spec v u) as [->|NE]; [rewrite remove1_In; auto; tauto|].
    intros I. apply B in I as [_ I]. congruence.
  - intros b w. unfold put at 1. destruct (Nat.eqb_spec b a) as [->|NE]; [discriminate|]. intros T.
    destruct (D b w T) as (D1 & D2 & u' & D3 & D4). split; auto. split; auto. exists u'. rewrite PP.
    apply Nat.eqb_neq in NE. rewrite NE. auto.
  - intros u' v'. rewrite O, F. destruct (Nat.eqb u' v') eqn:E; auto.
    set (r' := CRest _ _ occ _ _). set (f := onway r tg u' v'). set (g := onway r' (put tg a None) u' v').
    assert (X : forall b, b <> a -> f b = g b).
    { intros b NE. unfold f, g, onway, r'. cbn [cr_pos]. rewrite PP, put_other; auto. apply Nat.eqb_neq in NE. now rewrite NE. }
    pose proof (cnt_flip f g a (seq 0 N) (seq_NoDup N 0) ltac:(apply in_seq; lia) X) as Y.
    assert (Z : g a = false) by (unfold g, onway; rewrite put_same; destruct (cr_pos r' a); auto).
    rewrite Z in Y. cbn [b2z] in Y. fold f. lia.
  - intros b. unfold put. destruct (Nat.eqb b a); [congruence|apply K].
Qed.

(** * What an activation does *)

Definition tgof (co : cors (frame cpoint)) (a : aid) : option node :=
  match get_co co a with Some (GSusp (FIn (QOn v))) => Some v | _ => None end.
Definition points (co : cors (frame cpoint)) : Prop :=
  forall a, match get_co co a with None | Some GDone => True | Some (GSusp (FIn (QOn _))) => True | _ => False end.
Definition sinv (x : cworld * cors (frame cpoint)) : Prop :=
  good (fw_rest (fst x)) (tgof (snd x)) /\ points (snd x) /\ forall a, exists f, fa_kind (fw_agents (fst x) a) = KPlain f.

(** From [u], where the agent is, to another state: it does nothing, raises, sets out to [v], arrives or jumps. *)
Inductive does (x x' : cworld * cors (frame cpoint)) (a : aid) (u : node) : outcome -> Prop :=
| do_nothing : get_co (snd x) a = Some GDone -> fw_rest (fst x') = fw_rest (fst x) -> get_co (snd x') a = None -> does x x' a u (Ret None)
| do_raise : get_co (snd x') a = Some GDone -> cr_pos (fw_rest (fst x')) = cr_pos (fw_rest (fst x)) ->
    (drivable c -> In u (c_nodes c) -> False) -> does x x' a u Exc
| do_leave v d : gradual = true -> get_co (snd x) a = None -> least_time c u v d -> cr_pos (fw_rest (fst x')) = cr_pos (fw_rest (fst x)) ->
    get_co (snd x') a = Some (GSusp (FIn (QOn v))) -> cr_waiting (fw_rest (fst x')) a = true -> does x x' a u (Ret (Some d))
| do_arrive v : gradual = true -> get_co (snd x) a = Some (GSusp (FIn (QOn v))) -> leads c u v ->
    (forall b, cr_pos (fw_rest (fst x')) b = if Nat.eqb b a then Some v else cr_pos (fw_rest (fst x)) b) ->
    get_co (snd x') a = None -> cr_waiting (fw_rest (fst x')) a = false -> does x x' a u (Ret (Some (Fin 0)))
| do_jump v : gradual = false -> get_co (snd x) a = None -> leads c u v ->
    (forall b, cr_pos (fw_rest (fst x')) b = if Nat.eqb b a then Some v else cr_pos (fw_rest (fst x)) b) ->
    get_co (snd x') a = None -> cr_waiting (fw_rest (fst x')) a = false -> does x x' a u (Ret (Some (Fin 0))).

Lemma has_street_drivable u v : drivable c -> leads c u v -> has_street c u v = true.
Proof.
  intros (_ & _ & D) L. destruct (D u v L) as (s & H & A & B & E). apply existsb_exists. exists s. split; auto.
  rewrite andb_true_iff, between_iff. rewrite E. auto.
Qed.
Lemma leads_node u v : leads c u v -> In v (c_nodes c).
Proof. intros (s & H & _ & <-). now apply (proj2 DR). Qed.

Notation resume a q w := (c_resume (city_code c gradual) (timed_init true (Fin 0)) a q w).

(** What running the step does to the rest of the world, from each point. *)
Lemma start_spec f (a : aid) r tg u r' ops g : good r tg -> a < N -> cr_pos r a = Some u -> tg a = None ->
  move_to c gradual f None a u r = (r', ops, g) -> ops = [] /\
  ((exists v d, g = GYield (PNum d) (QOn v) /\ gradual = true /\ least_time c u v d /\ cr_pos r' = cr_pos r /\ cr_waiting r' a = true /\
      good r' (put tg a (Some v))) \/
   (exists v, g = GReturn (PNum (Fin 0)) /\ gradual = false /\ leads c u v /\
      (forall b, cr_pos r' b = if Nat.eqb b a then Some v else cr_pos r b) /\ cr_waiting r' a = false /\ good r' (put tg a None)) \/
   (g = GRaise false /\ cr_pos r' = cr_pos r /\ good r' tg /\ (drivable c -> In u (c_nodes c) -> False))).
Proof.
  intros G L P T E. unfold move_to in E.
  destruct (choose_next c f u (set_waiting r a true)) as [x r1] eqn:CH.
  destruct (choose_spec _ _ _ _ _ _ CH) as [[dr ->] X].
  pose proof (fun D U => choose_drivable _ _ _ _ _ _ D U CH) as XD.
  pose proof (good_draw _ _ dr (good_wait _ _ a G)) as G1. set (r1 := redraw (set_waiting r a true) dr) in *.
  assert (W1 : cr_waiting r1 a = true) by apply put_same.
  destruct x as [[v d]|].
  2:{ injection E as <- <- <-. split; auto. right. right. split; auto. split; auto. split; auto. intros D U. now apply (XD D U). }
  pose proof (least_leads _ _ _ _ X) as LD. destruct gradual eqn:GR.
  - destruct (negb (Nat.eqb v u) && negb (has_street c u v)) eqn:HH.
    + injection E as <- <- <-. split; auto. right. right. split; auto. split; auto. split; auto. intros D U.
      rewrite (has_street_drivable _ _ D LD) in HH. rewrite andb_false_r in HH. discriminate.
    + injection E as <- <- <-. split; auto. left. exists v, d. split; auto. split; auto. split; auto.
      split; [destruct (negb (Nat.eqb v u)); auto|]. split; [destruct (negb (Nat.eqb v u)); auto|].
      apply good_depart; auto. intros NE. apply Nat.eqb_neq in NE. rewrite NE in HH. now destruct (has_street c u v).
  - unfold arrive in E. cbn [andb] in E.
    assert (IA : In a (cr_at r1 u)) by (apply (g_at _ _ G1); auto).
    rewrite (move_spec r1 a u v P IA) in E. injection E as <- <- <-. split; auto. right. left. exists v. split; auto. split; auto. split; auto.
    split. { intros b. cbn. unfold put. now destruct (Nat.eqb b a). }
    split; [apply put_same|].
    apply (good_arrive r1 tg a u v (cr_occupation r1)); auto; [now apply (leads_node u)|].
    intros u' v'. unfold onway. rewrite T. rewrite (g_occ _ _ G1 u' v'). destruct (Nat.eqb u' v'); auto.
    destruct (cr_pos r1 a); cbn [b2z]; lia.
Qed.

Lemma arrive_spec (a : aid) r tg u v r' ops g : good r tg -> a < N -> cr_pos r a = Some u -> tg a = Some v ->
  arrive c gradual a u v r = (r', ops, g) -> ops = [] /\ g = GReturn (PNum (Fin 0)) /\ gradual = true /\ leads c u v /\
  (forall b, cr_pos r' b = if Nat.eqb b a then Some v else cr_pos r b) /\ cr_waiting r' a = false /\ good r' (put tg a None).
Proof.
  intros G L P T E. destruct (g_tg _ _ G a v T) as (_ & GR & u0 & P0 & LD & ST). rewrite P in P0. injection P0 as <-.
  unfold arrive in E. rewrite GR in E. cbn [andb] in E.
  assert (HH : negb (Nat.eqb v u) && negb (has_street c u v) = false).
  { destruct (Nat.eqb_spec v u); auto. cbn. now rewrite ST. }
  rewrite HH in E.
  assert (IA : In a (cr_at r u)) by (apply (g_at _ _ G); auto).
  assert (M : exists occ, (if negb (Nat.eqb v u) then add_occupation r u v (-1) else r) = CRest (cr_pos r) (cr_at r) occ (cr_waiting r) (cr_draws r) /\
    forall u' v', occ u' v' = if Nat.eqb u' v' then 0%Z else (cr_occupation r u' v' - b2z (onway r tg u' v' a))%Z).
  { destruct (Nat.eqb_spec v u) as [->|NE]; cbn [negb].
    - exists (cr_occupation r). split; [now destruct r|]. intros u' v'. pose proof (g_occ _ _ G u' v') as F. destruct (Nat.eqb_spec u' v'); auto.
      unfold onway. rewrite P, T. destruct (Nat.eqb_spec u u'), (Nat.eqb_spec u v'); try congruence; cbn; lia.
    - eexists. split; [reflexivity|]. intros u' v'. pose proof (g_occ _ _ G u' v') as F. cbn. unfold onway. rewrite P, T.
      unfold put. destruct (Nat.eqb_spec u' u) as [->|N1]; [destruct (Nat.eqb_spec v' v) as [->|N2]|].
      + destruct (Nat.eqb_spec u v); [congruence|]. rewrite !Nat.eqb_refl. cbn. lia.
      + rewrite Nat.eqb_refl. destruct (Nat.eqb_spec u v'); auto. destruct (Nat.eqb_spec v v'); [congruence|]. cbn. lia.
      + destruct (Nat.eqb_spec u' v'); auto. destruct (Nat.eqb_spec u u'); [congruence|]. cbn. lia. }
  destruct M as (occ & M & O). rewrite M in E.
  rewrite (move_spec (CRest (cr_pos r) (cr_at r) occ (cr_waiting r) (cr_draws r)) a u v P IA) in E. injection E as <- <- <-.
  split; auto. split; auto. split; auto. split; auto.
  split. { intros b. cbn. unfold put. now destruct (Nat.eqb b a). }
  split; [apply put_same|]. apply good_arrive; auto. now apply (leads_node u).
Qed.

Lemma tg_after co co' a g : co_after co co' a g ->
  forall b, tgof co' b = put (tgof co) a (match g with Some (GSusp (FIn (QOn v))) => Some v | _ => None end) b.
Proof.
  intros [A B] b. unfold put. destruct (Nat.eqb_spec b a) as [->|NE]; unfold tgof; [now rewrite A|now rewrite B].
Qed.
Lemma points_after co co' a g : points co -> co_after co co' a g ->
  match g with None | Some GDone | Some (GSusp (FIn (QOn _))) => True | _ => False end -> points co'.
Proof.
  intros P [A B] G b. destruct (Nat.eq_dec b a) as [->|NE]; [now rewrite A|]. rewrite B; auto. apply P.
Qed.
Lemma step_does s a x x' ops o : sinv x -> a < N -> agent_step (city_code c gradual) (fun _ => None) s a x = (x', ops, o) ->
  ops = [] /\ sinv x' /\ (forall b, b <> a -> get_co (snd x') b = get_co (snd x) b) /\
  exists u, cr_pos (fw_rest (fst x)) a = Some u /\ In u (c_nodes c) /\ does x x' a u o.
Proof.
  destruct x as [w co]. intros (G & P & K) L E. cbn [fst snd] in *.
  destruct (g_pos _ _ G a L) as (u & PU & UN). destruct (K a) as [f KF].
  unfold agent_step, decorated in E. cbn [fst snd] in E.
  assert (CA : forall y z t, co_after co (set_co (set_co co a y) a z) a z /\ co_after co (set_co (set_co (set_co co a y) a z) a t) a t).
  { intros y z t. unfold co_after. split; (split; [rewrite !get_set_co, Nat.eqb_refl; auto|]);
      intros b NB; rewrite !get_set_co; apply Nat.eqb_neq in NB; now rewrite NB. }
  pose proof (P a) as PA. destruct (get_co co a) as [[[|[f'|v]]|]|] eqn:GC; try destruct PA.
  - cbn [send step_gen] in E. unfold inside in E. cbn [c_resume city_code] in E. rewrite PU in E.
    destruct (arrive c gradual a u v (fw_rest w)) as [[r' ops'] g] eqn:AR.
    destruct (arrive_spec a _ _ u v r' ops' g G L PU ltac:(unfold tgof; now rewrite GC) AR) as (-> & -> & GR & LD & PO & WT & G').
    cbn [run_fops fw_agents] in E. rewrite KF in E. injection E as <- <- <-. cbn [fst snd fw_rest fw_agents].
    set (y := Some (GSusp (FIn (QOn v)))). pose proof (proj2 (CA y (Some GDone) None)) as CO.
    split; auto. split; [|split; [apply (proj2 CO)|]].
    + split; [|split; auto]. { eapply good_ext; [|exact G']. apply (tg_after co _ a None CO). }
      eapply points_after; eauto. exact I.
    + exists u. split; auto. split; auto. eapply do_arrive; eauto. apply (proj1 CO).
  - cbn [send step_gen] in E. injection E as <- <- <-.
    pose proof (proj2 (CA (Some GDone) (Some GDone) None)) as CO. split; auto.
    split; [|split; [apply (proj2 CO)|]].
    + split; [|split; auto]; cbn [fst snd]; [|eapply points_after; eauto; exact I].
      eapply good_ext; [|exact G]. intros b. rewrite (tg_after co _ a None CO). unfold put. destruct (Nat.eqb_spec b a) as [->|]; auto.
      unfold tgof. now rewrite GC.
    + exists u. split; auto. split; auto. apply do_nothing; auto. apply (proj1 CO).
  - cbn [send step_gen] in E. rewrite KF in E. unfold inside in E. cbn [c_resume c_start city_code] in E. rewrite PU in E.
    destruct (move_to c gradual f None a u (fw_rest w)) as [[r' ops'] g] eqn:MT.
    assert (TN : tgof co a = None) by (unfold tgof; now rewrite GC).
    destruct (start_spec f a _ _ u r' ops' g G L PU TN MT) as [-> [(v & d & -> & GR & LT & PO & WT & G')|[(v & -> & GR & LD & PO & WT & G')|(-> & PO & G' & ND)]]];
      cbn [run_fops fw_agents] in E; rewrite ?KF in E; injection E as <- <- <-; (split; [reflexivity|]); cbn [fst snd fw_rest fw_agents].
    + pose proof (proj1 (CA (Some (GSusp FStart)) (Some (GSusp (FIn (QOn v)))) None)) as CO.
      split; [|split; [apply (proj2 CO)|]].
      * split; [|split; auto]; cbn [fst snd fw_rest]; [eapply good_ext; [|exact G']; apply (tg_after co _ a _ CO)|eapply points_after; eauto; exact I].
      * exists u. split; auto. split; auto. eapply do_leave; eauto. apply (proj1 CO).
    + pose proof (proj2 (CA (Some (GSusp FStart)) (Some GDone) None)) as CO.
      split; [|split; [apply (proj2 CO)|]].
      * split; [|split; auto]; cbn [fst snd fw_rest]; [eapply good_ext; [|exact G']; apply (tg_after co _ a _ CO)|eapply points_after; eauto; exact I].
      * exists u. split; auto. split; auto. eapply do_jump; eauto. apply (proj1 CO).
    + pose proof (proj1 (CA (Some (GSusp FStart)) (Some GDone) None)) as CO.
      split; [|split; [apply (proj2 CO)|]].
      * split; [|split; auto]; cbn [fst snd fw_rest]; [|eapply points_after; eauto; exact I].
        eapply good_ext; [|exact G']. intros b. rewrite (tg_after co _ a _ CO). unfold put. destruct (Nat.eqb_spec b a) as [->|]; auto.
      * exists u. split; auto. split; auto. apply do_raise; auto. apply (proj1 CO).
Qed.

(** * The history of each agent *)

(** The outcomes of the activations of an agent from [u] to [w], with where it is going. *)
Inductive walk : node -> list outcome -> node -> option node -> Prop :=
| wk_here u : walk u [] u None
| wk_leaving u v d : gradual = true -> least_time c u v d -> walk u [Ret (Some d)] u (Some v)
| wk_trip u v d l w t : gradual = true -> least_time c u v d -> walk v l w t -> walk u (Ret (Some d) :: Ret (Some (Fin 0)) :: l) w t
| wk_jump u v l w t : gradual = false -> leads c u v -> walk v l w t -> walk u (Ret (Some (Fin 0)) :: l) w t.
Lemma walk_leave u l w : walk u l w None -> forall v d, gradual = true -> least_time c w v d -> walk u (l ++ [Ret (Some d)]) w (Some v).
Proof.
  intros H. remember (@None node) as t eqn:T. induction H; intros; try discriminate; cbn [app];
    [apply wk_leaving|eapply wk_trip|eapply wk_jump]; eauto.
Qed.
Lemma walk_arrive u l w v : walk u l w (Some v) -> walk u (l ++ [Ret (Some (Fin 0))]) v None.
Proof.
  intros H. remember (Some v) as t eqn:T. induction H; intros; try discriminate; cbn [app].
  - injection T as ->. eapply wk_trip; eauto. apply wk_here.
  - eapply wk_trip; eauto.
  - eapply wk_jump; eauto.
Qed.
Lemma walk_jump u l w : walk u l w None -> forall v, gradual = false -> leads c w v -> walk u (l ++ [Ret (Some (Fin 0))]) v None.
Proof.
  intros H. remember (@None node) as t eqn:T. induction H; intros; try discriminate; cbn [app].
  - eapply wk_jump; eauto. apply wk_here.
  - eapply wk_trip; eauto.
  - eapply wk_jump; eauto.
Qed.
Definition outs (a : aid) (tr : list ev) : list outcome :=
  flat_map (fun e => match e with EvAct _ b o => if Nat.eqb a b then [o] else [] | EvAdd _ _ => [] end) tr.
Lemma outs_app a tr tr' : outs a (tr ++ tr') = (outs a tr ++ outs a tr')%list.
Proof. apply flat_map_app. Qed.

Variable places : aid -> node.
(** In a drivable city: nobody has raised, and each agent has walked from its place to where it is. *)
Definition walked (h : list ev) (x : cworld * cors (frame cpoint)) : Prop :=
  no_exc h /\ forall a, a < N -> get_co (snd x) a <> Some GDone /\ (cr_waiting (fw_rest (fst x)) a = true <-> tgof (snd x) a <> None) /\
    exists u, cr_pos (fw_rest (fst x)) a = Some u /\ walk (places a) (outs a h) u (tgof (snd x) a).
Definition hinv (h : list ev) (x : cworld * cors (frame cpoint)) : Prop := sinv x /\ (drivable c -> walked h x).

Lemma does_waiting s a x x' ops o : sinv x -> a < N -> agent_step (city_code c gradual) (fun _ => None) s a x = (x', ops, o) ->
  forall b, b <> a -> cr_waiting (fw_rest (fst x')) b = cr_waiting (fw_rest (fst x)) b /\
    cr_pos (fw_rest (fst x')) b = cr_pos (fw_rest (fst x)) b.
Proof.
  intros SI L E b NE. destruct (step_does _ _ _ _ _ _ SI L E) as (_ & _ & _ & u & PU & _ & D).
  split.
  2:{ apply Nat.eqb_neq in NE. inversion D as [? ? ?|? PE ?|? ? ? ? ? PE ? ?|? ? ? ? PE ? ?|? ? ? ? PE ? ?]; try (rewrite PE; try rewrite NE; auto).
      match goal with H : fw_rest _ = fw_rest _ |- _ => now rewrite H end. }
  destruct x as [w co]. destruct SI as (G & P & K). cbn [fst snd] in *. destruct (K a) as [f KF].
  assert (WA : forall v r, cr_pos r a = Some u -> In a (cr_at r u) -> cr_waiting (fst (fst (arrive c gradual a u v r))) b = cr_waiting r b).
  { intros v r PR IR. unfold arrive. destruct (_ && negb _); auto.
    set (r1 := if _ && _ then _ else _).
    assert (R1 : cr_pos r1 a = Some u /\ In a (cr_at r1 u) /\ cr_waiting r1 = cr_waiting r) by (subst r1; destruct (_ && _); auto).
    destruct R1 as (R1 & R2 & R3). rewrite (move_spec r1 a u v R1 R2). cbn [fst snd set_waiting moved cr_waiting]. rewrite put_other; auto. now rewrite R3. }
  assert (IA : In a (cr_at (fw_rest w) u)) by (apply (g_at _ _ G); auto).
  unfold agent_step, decorated in E. cbn [fst snd] in E. pose proof (P a) as PA.
  destruct (get_co co a) as [[[|[f'|v]]|]|] eqn:GC; try destruct PA.
  - cbn [send step_gen] in E. unfold inside in E. cbn [c_resume city_code] in E. rewrite PU in E.
    specialize (WA v (fw_rest w) PU IA).
    destruct (arrive c gradual a u v (fw_rest w)) as [[r' ops'] g] eqn:AR. cbn [fst snd] in *.
    destruct (arrive_spec a _ _ u v r' ops' g G L PU ltac:(unfold tgof; now rewrite GC) AR) as (-> & -> & _).
    cbn [run_fops fw_agents] in E. rewrite KF in E. injection E as <- <- <-. exact WA.
  - cbn [send step_gen] in E. injection E as <- <- <-. reflexivity.
  - cbn [send step_gen] in E. rewrite KF in E. unfold inside in E. cbn [c_resume c_start city_code] in E. rewrite PU in E.
    assert (WM : cr_waiting (fst (fst (move_to c gradual f None a u (fw_rest w)))) b = cr_waiting (fw_rest w) b).
    { unfold move_to. destruct (choose_next c f u (set_waiting (fw_rest w) a true)) as [x r1] eqn:CH.
      destruct (choose_spec _ _ _ _ _ _ CH) as [[dr ->] X]. set (r1 := redraw (set_waiting (fw_rest w) a true) dr).
      assert (W1 : cr_waiting r1 b = cr_waiting (fw_rest w) b) by (cbn; now rewrite put_other).
      destruct x as [[v d]|]; auto. destruct gradual eqn:GR.
      - destruct (_ && _); auto. cbn [fst snd]. destruct (negb _); auto.
      - rewrite <- W1. apply WA; auto. }
    assert (TN : tgof co a = None) by (unfold tgof; now rewrite GC).
    destruct (move_to c gradual f None a u (fw_rest w)) as [[r' ops'] g] eqn:MT. cbn [fst snd] in WM.
    destruct (start_spec f a _ _ u r' ops' g G L PU TN MT) as [-> [(v & d & -> & _)|[(v & -> & _)|(-> & _)]]];
      cbn [run_fops fw_agents] in E; rewrite ?KF in E; injection E as <- <- <-; exact WM.
Qed.

Lemma step_hinv h s a x x' ops o : hinv h x -> a < N -> agent_step (city_code c gradual) (fun _ => None) s a x = (x', ops, o) ->
  ops = [] /\ forall t, hinv (h ++ [EvAct t a o]) x'.
Proof.
  intros [SI WK] L E. destruct (step_does _ _ _ _ _ _ SI L E) as (-> & SI' & OC & u & PU & UN & D). split; auto.
  intros t. split; auto. intros DV. destruct (WK DV) as [NE W]. split.
  - unfold no_exc in *. rewrite forallb_app, NE. destruct D; try reflexivity. tauto.
  - intros b LB. destruct (W b LB) as (ND & WT & u' & PB & WB).
    assert (OT : forall b, b <> a -> tgof (snd x') b = tgof (snd x) b) by (intros b' H; unfold tgof; now rewrite OC).
    rewrite outs_app. cbn [outs flat_map]. rewrite app_nil_r. destruct (Nat.eq_dec b a) as [->|NB].
    + rewrite Nat.eqb_refl. rewrite PU in PB. injection PB as <-. inversion D as [D1 D2 D3|D1 D2 D3|v d D1 D2 D3 D4 D5 D6|v D1 D2 D3 D4 D5 D6|v D1 D2 D3 D4 D5 D6]; subst.
      * now apply ND in D1.
      * destruct (D3 DV UN).
      * rewrite D5, D6. split; [discriminate|]. unfold tgof. rewrite D5. split; [split; [discriminate|auto]|].
        exists u. rewrite D4. split; auto. apply walk_leave; auto. unfold tgof in WB. now rewrite D2 in WB.
      * rewrite D5, D6. split; [discriminate|]. unfold tgof. rewrite D5. split; [split; [discriminate|congruence]|].
        exists v. rewrite D4, Nat.eqb_refl. split; auto. eapply walk_arrive. unfold tgof in WB. rewrite D2 in WB. exact WB.
      * rewrite D5, D6. split; [discriminate|]. unfold tgof. rewrite D5. split; [split; [discriminate|congruence]|].
        exists v. rewrite D4, Nat.eqb_refl. split; auto. apply walk_jump with u; auto. unfold tgof in WB. now rewrite D2 in WB.
    + destruct (does_waiting _ _ _ _ _ _ SI L E b NB) as [WB' PB']. rewrite OT, WB', PB', OC; auto.
      apply Nat.eqb_neq in NB. rewrite NB, app_nil_r. eauto.
Qed.
End City.

(** * Runs *)

Lemma traffic_rest places draws k : let r := fold_left (fun r a => place r a (places a)) (seq 0 k)
    (CRest (fun _ => None) (fun _ => []) (fun _ _ => 0%Z) (fun _ => false) draws) in
  (forall b, cr_pos r b = if b <? k then Some (places b) else None) /\
  (forall v, cr_at r v = filter (fun a => Nat.eqb (places a) v) (seq 0 k)) /\
  (forall u v, cr_occupation r u v = 0%Z) /\ (forall b, cr_waiting r b = false).
Proof.
  induction k as [|k IH]; [cbn; auto|]. cbv zeta in *. rewrite seq_S, fold_left_app. cbn [fold_left].
  set (r := fold_left _ _ _) in *. destruct IH as (A & B & C & D). cbn [plus]. split; [|split; [|split]]; cbn [place cr_pos cr_at cr_occupation cr_waiting]; auto.
  - intros b. unfold put. destruct (Nat.eqb_spec b k) as [->|NE].
    + destruct (Nat.ltb_spec k (S k)); [auto|lia].
    + rewrite A. destruct (Nat.ltb_spec b k), (Nat.ltb_spec b (S k)); auto; lia.
  - intros v. rewrite filter_app. cbn [filter]. unfold put. rewrite (Nat.eqb_sym v). destruct (Nat.eqb_spec (places k) v) as [->|NE]; rewrite B; auto.
    now rewrite app_nil_r.
Qed.
Lemma traffic_hinv c gradual n1 n2 places draws : (forall a, a < n1 + n2 -> In (places a) (c_nodes c)) ->
  hinv c gradual (n1 + n2) places (map (EvAdd (Fin 0)) (seq 0 (n1 + n2))) (traffic n1 n2 places draws, no_cors).
Proof.
  intros P. destruct (traffic_rest places draws (n1 + n2)) as (A & B & C & D). unfold traffic. set (r := fold_left _ _ _) in *. split.
  - split; [|split]; cbn [fst snd fw_rest fw_agents].
    + constructor.
      * intros a L. exists (places a). rewrite A. destruct (Nat.ltb_spec a (n1 + n2)); [auto|lia].
      * intros v a. rewrite A, B, filter_In, in_seq, Nat.eqb_eq. destruct (Nat.ltb_spec a (n1 + n2)).
        { split; [intros [_ <-]; auto|intros [_ [= <-]]; split; auto; lia]. }
        { split; [lia|]. intros [? _]. lia. }
      * intros v. rewrite B. apply NoDup_filter, seq_NoDup.
      * intros a v. discriminate.
      * intros u v. rewrite C. destruct (Nat.eqb u v); auto. unfold cnt.
        rewrite (filter_ext_in _ (fun _ => false)); [clear; induction (seq 0 (n1 + n2)); auto|].
        intros b _. unfold onway. cbn. now destruct (cr_pos r b).
      * intros a H. destruct (H eq_refl).
    + intros a. exact I.
    + intros a. eexists. reflexivity.
  - intros _. split.
    + unfold no_exc. clear; induction (seq 0 (n1 + n2)); auto.
    + intros a L. cbn [fst snd fw_rest]. split; [discriminate|]. rewrite D. split; [split; [discriminate|intros H; destruct (H eq_refl)]|].
      exists (places a). rewrite A. destruct (Nat.ltb_spec a (n1 + n2)); [|lia]. split; auto.
      assert (O : forall l, outs a (map (EvAdd (Fin 0)) l) = []) by (clear; induction l; auto). rewrite O. apply wk_here.
Qed.
Lemma adds_trace {AR : Arith} {X} (u : user X) l : forall s x, s_time s = Fin 0 ->
  exists s', run_hist u (map (fun a => CAdd a None) l) s x = (s', x, map (EvAdd (Fin 0)) l) /\ s_time s' = Fin 0.
Proof.
  induction l as [|a l IH]; cbn [map run_hist run_cmd run_op]; intros s x T.
  - exists s. auto.
  - assert (T1 : s_time (timed_add s a None) = Fin 0) by (unfold timed_add, reg_add; destruct (existsb _ _); exact T).
    destruct (IH (timed_add s a None) x T1) as (s' & E & T'). rewrite E. exists s'. rewrite T. auto.
Qed.
(** A run in either mode is a history of the scheduler. *)
Lemma runs_hist {AR : Arith} c gradual di n1 n2 places x tr : runs c gradual di n1 n2 places x tr ->
  exists shuffle ordered draws steps s, fair shuffle /\ city_run c gradual shuffle ordered di n1 n2 places draws steps = (s, x, tr).
Proof.
  intros (shuffle & ordered & draws & steps & F & [(s & E)|(interval & fuel & l & E)]).
  - exists shuffle, ordered, draws, steps, s. auto.
  - unfold city_lockstep in E. apply lock_runs in E as [k E]. exists shuffle, ordered, draws, k, (l_sched l). split; auto.
Qed.
Lemma run_hinv {AR : Arith} c gradual shuffle ordered di n1 n2 places draws steps s x tr : drawn c -> fair shuffle ->
  (forall a, a < n1 + n2 -> In (places a) (c_nodes c)) ->
  city_run c gradual shuffle ordered di n1 n2 places draws steps = (s, x, tr) ->
  hinv c gradual (n1 + n2) places tr x /\
  exists tr1, tr = (map (EvAdd (Fin 0)) (seq 0 (n1 + n2)) ++ tr1)%list /\ forallb is_act tr1 = true.
Proof.
  intros DR F P E. unfold city_run in E. rewrite run_hist_app in E.
  set (u := city_user c gradual shuffle) in *. set (x0 := (traffic n1 n2 places draws, no_cors)) in *.
  destruct (adds_trace u (seq 0 (n1 + n2)) (timed_init (negb ordered) di) x0 eq_refl) as (s0 & E0 & _).
  destruct (add_run u (seq 0 (n1 + n2)) (timed_init (negb ordered) di) x0 (seq_NoDup _ _)) as (s0' & tr0' & E0' & _ & Q0).
  rewrite E0 in E0'. injection E0' as <- <-. rewrite E0 in E.
  destruct (run_hist u (repeat CStep steps) s0 x0) as [[s1 x1] tr1] eqn:E1. injection E as <- <- <-.
  set (J := fun h x => hinv c gradual (n1 + n2) places (map (EvAdd (Fin 0)) (seq 0 (n1 + n2)) ++ h) x /\ forallb is_act h = true).
  assert (R : J ([] ++ tr1)%list x1 /\ qok (fun a => a < n1 + n2) s1).
  { eapply (tsteps u J (fun a => a < n1 + n2)); [| | | |exact E1].
    - intros h s2 a y y' ops o [H A] L ES. destruct (step_hinv c gradual (n1 + n2) DR places _ _ _ _ _ _ _ H L ES) as [-> H']. split; auto.
      intros t. split; [rewrite app_assoc; apply H'|]. rewrite forallb_app, A. reflexivity.
    - intros h l y y' l' [[H1 H2] A] ES. unfold u, city_user, agent_user in ES. cbn [u_shuffle] in ES.
      destruct (shuffle l (fw_rest (fst y))) as [r' l''] eqn:SH. injection ES as <- <-.
      destruct (F l (fw_rest (fst y))) as [PE (d & RE)]. rewrite SH in PE, RE. cbn [fst snd] in PE, RE. subst r'. split.
      + split; auto. split.
        * destruct H1 as (G & PO & K). split; [|split; auto]. now apply (good_draw c gradual (n1 + n2)).
        * exact H2.
      + intros b Hb. eapply Permutation_in; [apply Permutation_sym; exact PE|exact Hb].
    - unfold J. rewrite app_nil_r. split; auto. now apply traffic_hinv.
    - intros t b a J1 J2. destruct (Q0 t b a J1 J2) as [L|(t' & b' & [] & _)]. apply in_seq in L. lia. }
  destruct R as [[R1 R2] _]. cbn [app] in R1, R2. split; auto. exists tr1. auto.
Qed.
Lemma runs_hinv {AR : Arith} c gradual di n1 n2 places x tr : drawn c -> (forall a, a < n1 + n2 -> In (places a) (c_nodes c)) ->
  runs c gradual di n1 n2 places x tr -> hinv c gradual (n1 + n2) places tr x.
Proof.
  intros DR P R. destruct (runs_hist _ _ _ _ _ _ _ _ R) as (sh & o & dr & k & s & F & E). eapply run_hinv; eauto.
Qed.

(** * Times *)

Definition ev_out (e : ev) : list outcome := match e with EvAct _ _ o => [o] | EvAdd _ _ => [] end.
Lemma outs_filter a tr : outs a tr = flat_map ev_out (filter (about a) tr).
Proof.
  unfold outs. induction tr as [|[t b|t b o] tr IH]; cbn [flat_map filter about]; auto; destruct (Nat.eqb a b); cbn; now rewrite IH.
Qed.
Lemma positive_time c u v d : drivable c -> least_time c u v d -> n_ltb (Fin 0) d = true.
Proof. intros (_ & D & _) [(s & H & _ & _ & <-) _]. now apply D. Qed.
Lemma next_positive {AR : Arith} di t d t' : n_ltb (Fin 0) d = true -> next_due di t (Ret (Some d)) = Some t' -> t' = n_add t d.
Proof.
  intros D. unfold next_due. rewrite (n_ltb_neq' _ _ D). destruct (n_eqb (n_add t d) PInf); [discriminate|]. now intros [= <-].
Qed.
Lemma next_zero {AR : Arith} di t t' : next_due di t (Ret (Some (Fin 0))) = Some t' -> t' = n_add t di.
Proof.
  unfold next_due. change (n_eqb (Fin 0) (Fin 0)) with true. cbv iota zeta. destruct (n_eqb (n_add t di) PInf); [discriminate|]. now intros [= <-].
Qed.

Lemma walk_itinerary {AR : Arith} c di a u l w t : drivable c -> walk c true u l w t -> forall due rest pend,
  timetable di a due rest pend -> flat_map ev_out rest = l ->
  itinerary c di a due u rest w (match t with Some _ => true | None => false end).
Proof.
  intros DV H. induction H as [u|u v d _ LT|u v d l w t _ LT H IH|]; intros due rest pend TT E; [| | |discriminate].
  - inversion TT; subst; try discriminate. apply it_here.
  - inversion TT as [|? o ND|? o due' tr ? ND TT']; subst; try discriminate; cbn in E; injection E as E'; subst o.
    + eapply it_leaving; eauto.
    + inversion TT'; subst; try discriminate. eapply it_leaving; eauto.
  - inversion TT as [|? o ND|? o due' tr ? ND TT']; subst; try discriminate; cbn in E. injection E as E' E2; subst o.
    apply next_positive in ND; [|eapply positive_time; eauto]. subst due'.
    inversion TT' as [|? o ND|? o due' tr' ? ND TT2]; subst; try discriminate; cbn in E2; injection E2 as E' E3; subst o.
    + subst l. apply it_trip with v; auto. inversion H; subst. apply it_here.
    + apply next_zero in ND. subst due'. apply it_trip with v; auto. eapply IH; eauto.
Qed.
Lemma walk_jumps {AR : Arith} c di a u l w t : walk c false u l w t -> forall due rest pend,
  timetable di a due rest pend -> flat_map ev_out rest = l -> jumps c di a due u rest w.
Proof.
  intros H. induction H as [u|u v d EF|u v d l w t EF|u v l w t _ LD H IH]; intros due rest pend TT E; try discriminate.
  - inversion TT; subst; try discriminate. apply ju_here.
  - inversion TT as [|? o ND|? o due' tr ? ND TT']; subst; try discriminate; cbn in E; injection E as E' E2; subst o.
    + subst l. apply ju_jump with v; auto. inversion H; subst. apply ju_here.
    + apply next_zero in ND. subst due'. apply ju_jump with v; auto. eapply IH; eauto.
Qed.
Lemma city_forward c gradual shuffle : drivable c -> forward_only (city_user c gradual shuffle).
Proof.
  intros DV s a [w co]. cbn [u_step city_user agent_user].
  assert (AO : forall a u v r, match arrive c gradual a u v r with (_, _, GYield _ _) => False | (_, _, GReturn x) => x = PNum (Fin 0) | _ => True end).
  { intros a0 u v r. unfold arrive. destruct (_ && negb _); [exact I|]. destruct (move_agent _ _ _); [reflexivity|exact I]. }
  assert (MO : forall f a u r, match move_to c gradual f None a u r with (_, _, GYield (PNum d) _) => nonneg d = true | (_, _, GYield _ _) => False
     | (_, _, GReturn x) => x = PNum (Fin 0) | _ => True end).
  { intros f a0 u r. unfold move_to. destruct (choose_next c f u _) as [[[v d]|] r1] eqn:CH; [|exact I].
    destruct (choose_spec _ _ _ _ _ _ CH) as [_ LT]. destruct gradual.
    - destruct (_ && _); [exact I|]. apply n_ltb_leb. eapply positive_time; eauto.
    - pose proof (AO a0 u v r1) as A. destruct (arrive c false a0 u v r1) as [[? ?] [? ?|?|?]]; [destruct A|exact A|exact I]. }
  assert (RO : forall s a q w, match c_resume (city_code c gradual) s a q w with (_, _, GYield (PNum d) _) => nonneg d = true | (_, _, GYield _ _) => False
     | (_, _, GReturn x) => x = PNum (Fin 0) | _ => True end).
  { intros s0 a0 q w0. cbn [c_resume city_code]. destruct (cr_pos (fw_rest w0) a0) as [u|]; [|exact I]. destruct q as [f|v]; [apply MO|].
    pose proof (AO a0 u v (fw_rest w0)) as A. destruct (arrive c gradual a0 u v (fw_rest w0)) as [[? ?] [? ?|?|?]]; [destruct A|exact A|exact I]. }
  assert (IO : forall q, match inside (city_code c gradual) s a q w with (_, _, GYield (PNum d) _) => nonneg d = true | (_, _, GYield _ _) => False
     | (_, _, GReturn x) => match as_delay is_none (to_float (fun _ => None)) x with Ret (Some d) => nonneg d = true | _ => True end | _ => True end).
  { intros q. unfold inside. pose proof (RO s a q w) as A. destruct (c_resume (city_code c gradual) s a q w) as [[r ops] g].
    destruct (run_fops s ops (FWorld (fw_agents w) r)) as [w1 l]. destruct g as [v ?|v|?]; [exact A| |exact I]. subst v.
    destruct (fa_kind (fw_agents w1 a)); cbn; reflexivity. }
  assert (GO : forall fr, match step_gen (city_code c gradual) s a fr w with (_, _, GYield (PNum d) _) => nonneg d = true | (_, _, GYield _ _) => False
     | (_, _, GReturn x) => match as_delay is_none (to_float (fun _ => None)) x with Ret (Some d) => nonneg d = true | _ => True end | _ => True end).
  { intros [|q]; cbn [step_gen]; [|apply IO]. destruct (fa_kind (fw_agents w a)) as [st|f]; [|apply IO].
    destruct (negb _); [exact I|]. destruct (fa_cur _); [apply IO|exact I]. }
  unfold agent_step, decorated. cbn [fst snd].
  assert (SO : forall g, match send (step_gen (city_code c gradual)) PNone s a g w with
     (_, _, _, SYield x) | (_, _, _, SStop x) => match as_delay is_none (to_float (fun _ => None)) x with Ret (Some d) => nonneg d = true | _ => True end | _ => True end).
  { intros [fr|]; cbn [send]; [|exact I]. pose proof (GO fr) as A. destruct (step_gen _ s a fr w) as [[? ?] [v ?|v|?]]; [|exact A|exact I].
    destruct v; try contradiction. exact A. }
  match goal with |- context [send _ _ _ _ ?g _] => pose proof (SO g) as A; destruct (send (step_gen (city_code c gradual)) PNone s a g w) as [[[? ?] ?] [v|v|[]]] end; auto.
Qed.
Lemma adds_once a l : NoDup l -> In a l -> filter (about a) (map (EvAdd (Fin 0)) l) = [EvAdd (Fin 0) a].
Proof.
  induction l as [|b l IH]; intros ND I; [destruct I|]. apply NoDup_cons_iff in ND as [N1 N2]. cbn [map filter about].
  destruct (Nat.eqb_spec a b) as [->|NE].
  - f_equal. assert (X : forall l, ~ In b l -> filter (about b) (map (EvAdd (Fin 0)) l) = []).
    { clear. induction l as [|c l IH]; intros NI; auto. cbn. destruct (Nat.eqb_spec b c) as [->|]; [destruct NI; now left|]. apply IH. intros H. apply NI. now right. }
    now apply X.
  - destruct I as [I|I]; [congruence|]. now apply IH.
Qed.
Lemma adds_of_about a tr : adds_of a tr = List.length (filter (is_add_of a) (filter (about a) tr)).
Proof.
  unfold adds_of. induction tr as [|[t b|t b o] tr IH]; cbn; auto.
  - destruct (Nat.eqb a b) eqn:E; cbn; rewrite ?E; cbn; auto.
  - destruct (Nat.eqb a b) eqn:E; cbn; rewrite ?E; cbn; auto.
Qed.
Lemma acts_no_adds a tr : forallb is_act tr = true -> filter (is_add_of a) tr = [].
Proof. induction tr as [|[t b|t b o] tr IH]; cbn; auto; discriminate. Qed.
Lemma acts_filter a tr : forallb is_act tr = true -> forallb is_act (filter (about a) tr) = true.
Proof. induction tr as [|[t b|t b o] tr IH]; cbn; auto; [discriminate|]. destruct (Nat.eqb a b); cbn; auto. Qed.
(** The observations of one agent. *)
Lemma agent_history {AR : Arith} c gradual di n1 n2 places x tr a : drawn c -> drivable c -> (forall a, a < n1 + n2 -> In (places a) (c_nodes c)) ->
  nonneg di = true -> runs c gradual di n1 n2 places x tr -> a < n1 + n2 ->
  exists rest pend u, filter (about a) tr = EvAdd (Fin 0) a :: rest /\ timetable di a (Fin 0) rest pend /\ cr_pos (fw_rest (fst x)) a = Some u /\
    walk c gradual (places a) (flat_map ev_out rest) u (tgof (snd x) a) /\ (cr_waiting (fw_rest (fst x)) a = true <-> tgof (snd x) a <> None).
Proof.
  intros DR DV P D R L. destruct (runs_hist _ _ _ _ _ _ _ _ R) as (sh & o & dr & k & s & F & E).
  destruct (run_hinv _ _ _ _ _ _ _ _ _ _ _ _ _ DR F P E) as [[_ W] (tr1 & -> & AC)].
  destruct (W DV) as [NE W1]. destruct (W1 a L) as (_ & WT & u & PU & WK).
  assert (FA : filter (about a) (map (EvAdd (Fin 0)) (seq 0 (n1 + n2)) ++ tr1) = EvAdd (Fin 0) a :: filter (about a) tr1).
  { rewrite filter_app, adds_once; auto using seq_NoDup. apply in_seq. lia. }
  assert (A1 : adds_of a (map (EvAdd (Fin 0)) (seq 0 (n1 + n2)) ++ tr1) = 1).
  { rewrite adds_of_about, FA. cbn [filter is_add_of]. rewrite Nat.eqb_refl. cbn [List.length]. now rewrite (acts_no_adds a _ (acts_filter a _ AC)). }
  assert (FS : negb o = true -> fair_shuffle (city_user c gradual sh)).
  { intros _ l [w co]. cbn [u_shuffle city_user agent_user fst snd]. destruct (F l (fw_rest w)) as [PE _]. destruct (sh l (fw_rest w)). exact PE. }
  destruct (exact_wakeup _ _ _ _ _ _ _ _ _ a (city_forward c gradual sh DV) FS D E NE A1) as (t0 & rest & pend & F2 & TT & _).
  rewrite FA in F2. injection F2 as <- <-. exists (filter (about a) tr1), pend, u. split; auto. split; auto. split; auto. split; auto.
  rewrite outs_filter, FA in WK. exact WK.
Qed.

(** * Counting *)

Lemma nodup_flat {A B} (f : A -> list B) l : NoDup l -> (forall x, NoDup (f x)) ->
  (forall x y b, In b (f x) -> In b (f y) -> x = y) -> NoDup (flat_map f l).
Proof.
  intros ND F D. induction l as [|x l IH]; cbn [flat_map]; [constructor|]. apply NoDup_cons_iff in ND as [N1 N2].
  assert (NA : forall l m : list B, NoDup l -> NoDup m -> (forall x, In x l -> ~ In x m) -> NoDup (l ++ m)).
  { clear. intros l m H1 H2 H3. induction l as [|x l IH]; auto. apply NoDup_cons_iff in H1 as [H0 H1]. cbn. constructor.
    - intros H. apply in_app_or in H as [H|H]; auto. apply (H3 x); auto. now left.
    - apply IH; auto. intros y H. apply H3. now right. }
  apply NA; auto. intros b I J. apply in_flat_map in J as (y & Y & J). rewrite (D x y b I J) in N1. auto.
Qed.
Lemma sum_lengths {A} (f : A -> list aid) l : sum (map Z.of_nat (map (fun v => List.length (f v)) l)) = Z.of_nat (List.length (flat_map f l)).
Proof.
  induction l as [|x l IH]; auto. cbn [map sum fold_right flat_map] in *. unfold sum in IH. rewrite app_length, IH. lia.
Qed.
Lemma good_total c gradual n r tg : drawn c -> good c gradual n r tg ->
  sum (map Z.of_nat (dvalues (node_occupation c r))) = Z.of_nat n.
Proof.
  intros [ND _] G. unfold dvalues, node_occupation. rewrite (map_map _ snd). cbn [snd]. rewrite sum_lengths. f_equal.
  rewrite <- (seq_length n 0). apply Permutation_length, NoDup_Permutation.
  - apply nodup_flat; auto; [apply (g_nd _ _ _ _ _ G)|]. intros u v b I J. apply (g_at _ _ _ _ _ G) in I as [_ I], J as [_ J]. congruence.
  - apply seq_NoDup.
  - intros a. rewrite in_flat_map, in_seq. split.
    + intros (v & _ & I). apply (g_at _ _ _ _ _ G) in I. lia.
    + intros [_ L]. destruct (g_pos _ _ _ _ _ G a L) as (u & P & U). exists u. split; auto. apply (g_at _ _ _ _ _ G). auto.
Qed.
Lemma good_amount c gradual n x u v : sinv c gradual n x -> u <> v ->
  exists k, amount (travels x u v) k /\ cr_occupation (fw_rest (fst x)) u v = Z.of_nat k.
Proof.
  intros (G & P & _) NE. rewrite (g_occ _ _ _ _ _ G u v). apply Nat.eqb_neq in NE. rewrite NE. unfold cnt.
  eexists. split; [|reflexivity]. eexists. split; [|split; [|reflexivity]].
  - apply NoDup_filter, seq_NoDup.
  - intros a. rewrite filter_In, in_seq. unfold onway, travels. specialize (P a). split.
    + intros [_ H]. destruct (cr_pos (fw_rest (fst x)) a) as [u'|]; [|discriminate]. unfold tgof in H.
      destruct (get_co (snd x) a) as [[[|[|v']]|]|]; try discriminate. apply andb_true_iff in H as [H1 H2].
      apply Nat.eqb_eq in H1, H2. subst. auto.
    + intros [PU C]. assert (T : tgof (snd x) a = Some v) by (unfold tgof; now rewrite C).
      destruct (g_tg _ _ _ _ _ G a v T) as (L & _). split; [lia|]. rewrite PU, T, !Nat.eqb_refl. reflexivity.
Qed.
Lemma occupation_zero c gradual n x u : sinv c gradual n x -> cr_occupation (fw_rest (fst x)) u u = 0%Z.
Proof. intros (G & _). rewrite (g_occ _ _ _ _ _ G u u). now rewrite Nat.eqb_refl. Qed.
Lemma occupation_nonneg c gradual n x u v : sinv c gradual n x -> (0 <= cr_occupation (fw_rest (fst x)) u v)%Z.
Proof. intros (G & _). rewrite (g_occ _ _ _ _ _ G u v). destruct (Nat.eqb u v); [lia|]. unfold cnt. lia. Qed.

(** * Reports *)

Definition row (r : crest) (s : street) : (node * node) * Z :=
  ((st_from s, st_to s), if Nat.eqb (st_key s) 0 then cr_occupation r (st_from s) (st_to s) else 0%Z).
Lemma report_last c r u v l1 s l2 : c_streets c = l1 ++ s :: l2 -> st_from s = u -> st_to s = v ->
  (forall s', In s' l2 -> ~ (st_from s' = u /\ st_to s' = v)) ->
  dget (u, v) (edge_occupation c r) = Some (if Nat.eqb (st_key s) 0 then cr_occupation r u v else 0%Z).
Proof.
  intros E A B H. unfold edge_occupation, dict_of. rewrite E, map_app, dupdate_app. cbn [map]. rewrite A, B, dupdate_cons.
  set (d := dset _ _ _). assert (D : dget (u, v) d = Some (if Nat.eqb (st_key s) 0 then cr_occupation r u v else 0%Z)) by apply dget_set_same.
  generalize dependent d. clear E A B. induction l2 as [|s' l2 IH]; intros d D; [exact D|]. cbn [map]. rewrite dupdate_cons. apply IH.
  - intros s0 I. apply H. now right.
  - rewrite dget_set_other; auto. intros [= E1 E2]. apply (H s'); auto. now left.
Qed.
Lemma last_street c u v : leads c u v -> exists l1 s l2, c_streets c = (l1 ++ s :: l2)%list /\ st_from s = u /\ st_to s = v /\
  forall s', In s' l2 -> ~ (st_from s' = u /\ st_to s' = v).
Proof.
  unfold leads. generalize (c_streets c) as l. intros l. induction l as [|x l IH] using rev_ind; intros (s & I & A & B); [destruct I|].
  destruct (Nat.eq_dec (st_from x) u) as [E1|E1]; [destruct (Nat.eq_dec (st_to x) v) as [E2|E2]|].
  - exists l, x, []. auto.
  - apply in_app_or in I as [I|[->|[]]]; [|congruence]. destruct IH as (l1 & s1 & l2 & -> & H1 & H2 & H3); [eauto|].
    exists l1, s1, (l2 ++ [x])%list. rewrite <- app_assoc. split; auto. split; auto. split; auto.
    intros s' J. apply in_app_or in J as [J|[<-|[]]]; auto. tauto.
  - apply in_app_or in I as [I|[->|[]]]; [|congruence]. destruct IH as (l1 & s1 & l2 & -> & H1 & H2 & H3); [eauto|].
    exists l1, s1, (l2 ++ [x])%list. rewrite <- app_assoc. split; auto. split; auto. split; auto.
    intros s' J. apply in_app_or in J as [J|[<-|[]]]; auto. tauto.
Qed.
Lemma report_values c r x : In x (dvalues (edge_occupation c r)) -> x = 0%Z \/ exists u v, x = cr_occupation r u v.
Proof.
  unfold edge_occupation, dict_of. set (l := map _ (c_streets c)).
  assert (L : forall k y, In (k, y) l -> y = 0%Z \/ exists u v, y = cr_occupation r u v).
  { intros k y I. apply in_map_iff in I as (s & E & _). injection E as _ <-. destruct (Nat.eqb (st_key s) 0); eauto. }
  assert (X : forall l d, (forall k y, In (k, y) l -> y = 0%Z \/ exists u v, y = cr_occupation r u v) ->
    (forall y, In y (dvalues d) -> y = 0%Z \/ exists u v, y = cr_occupation r u v) ->
    forall y, In y (dvalues (dupdate d l)) -> y = 0%Z \/ exists u v, y = cr_occupation r u v).
  { clear. induction l as [|[k y] l IH]; intros d H D; [exact D|]. rewrite dupdate_cons. apply IH; [intros; eapply H; right; eauto|].
    intros z I. assert (I2 : z = y \/ In z (dvalues d)).
    { clear - I. revert I. unfold dvalues. induction d as [|[k' y'] d IH]; cbn [dset map snd]; [intros [<-|[]]; auto|].
      destruct (eqb k k'); cbn [map snd]; intros [<-|I]; [left; auto|right; now right|right; now left|]. destruct (IH I); auto. right. now right. }
    destruct I2 as [->|I2]; auto. eapply H. left. reflexivity. }
  apply X; auto. intros y [].
Qed.
Lemma gini_range l : Forall (fun x => 0 <= x)%Z l ->
  exists g, CityModel.gini l = Some g /\ (0 <= g)%Q /\ (g <= 1)%Q /\ (l <> [] -> (g <= 1 - 1 / inject_Z (Z.of_nat (List.length l)))%Q).
Proof.
  intros F. unfold CityModel.gini. destruct (Z.eqb_spec (sum l) 0) as [E|E].
  - exists 0%Q. split; auto. split; [apply Qle_refl|]. split; [discriminate|]. intros NE.
    destruct l as [|x l]; [congruence|]. unfold Qle, Qminus, Qplus, Qdiv, Qinv, Qmult, Qopp, inject_Z. cbn. lia.
  - assert (P : (0 < sum l)%Z).
    { assert (0 <= sum l)%Z; [|lia]. clear E. unfold sum. induction F; cbn; lia. }
    destruct (gini_bounds l F P) as (g & G & L & U). exists g. split; auto. split; auto.
    assert (X : (1 - 1 / inject_Z (Z.of_nat (List.length l)) <= 1)%Q).
    { unfold Qle, Qminus, Qplus, Qdiv, Qinv, Qmult, Qopp, inject_Z. destruct (Z.of_nat (List.length l)) eqn:EL; cbn; lia. }
    split; [eapply Qle_trans; eauto|auto].
Qed.
