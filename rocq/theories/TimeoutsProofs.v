(** Proofs about TimeoutsModel. *)
From Coq Require Import ZArith List Bool Arith String Lia Permutation.
From Verif Require Import Num PyDict TimedModel TimedSpec TimedProofs AgentModel FsmModel FsmSpec FsmProofs
  Binary64Model Binary64Proofs TimeoutsModel TimeoutsSpec.
Import ListNotations.
Local Open Scope Z_scope.

(** * Agents that always ask for a positive and finite delay and add nobody *)
Section Steady.
Context {AR : Arith} {X : Type}.
Variables (u : user X) (P : X -> Prop).

Definition clocked (s : sched) : Prop := exists z, s_time s = Fin z /\ 0 <= z.
Hypothesis HS : forall s a x, clocked s -> P x ->
  exists x' d, u_step u s a x = (x', [], Ret (Some (Fin d))) /\ P x' /\ 0 < d.
Hypothesis HK : forall l x, P x -> P (fst (u_shuffle u l x)).

(** The same code, with an exception in place of what never happens. *)
Definition calm : user X := User X
  (fun s a x => match u_step u s a x with
                | (x', [], Ret (Some (Fin d))) => (x', [], if 0 <? d then Ret (Some (Fin d)) else Exc)
                | (x', _, _) => (x', [], Exc)
                end) (u_shuffle u).

Lemma calm_forward : forward_only calm.
Proof.
  intros s a x. cbn [calm u_step]. destruct (u_step u s a x) as [[x' [|op ops]] [[[d| | |]|]| |]]; simpl; auto.
  destruct (0 <? d) eqn:E; auto. apply Z.ltb_lt in E. unfold nonneg, n_leb. simpl.
  apply orb_true_iff. left. now apply Z.ltb_lt.
Qed.

Lemma calm_step s a x : clocked s -> P x -> u_step calm s a x = u_step u s a x.
Proof.
  intros C H. cbn [calm u_step]. destruct (HS s a x C H) as (x' & d & -> & _ & D).
  assert (0 <? d = true) as -> by now apply Z.ltb_lt. reflexivity.
Qed.

Definition good_ev (e : ev) : Prop :=
  match e with EvAct _ _ (Ret (Some (Fin d))) => 0 < d | _ => False end.

Lemma sched_time s a t : s_time (timed_schedule s a t) = s_time s.
Proof. reflexivity. Qed.

(** What holds between two calls of [step]. *)
Definition fin_keys (q : list (num * list aid)) : Prop := forall k b, In (k, b) q -> exists z, k = Fin z.

Lemma insert_keys q t a k b : In (k, b) (insert_bucket q t a) -> k = t \/ exists b', In (k, b') q.
Proof.
  induction q as [|[k1 b1] q IH]; simpl.
  - intros [E|[]]. injection E as <- <-. auto.
  - destruct (n_eqb k1 t) eqn:E1.
    + intros [E|I]; [injection E as <- <-; eauto|eauto].
    + destruct (n_ltb t k1).
      * intros [E|[E|I]]; [injection E as <- <-; auto|injection E as <- <-; eauto|eauto].
      * intros [E|I]; [injection E as <- <-; eauto|]. destruct (IH I) as [H|[b' H]]; eauto.
Qed.

Lemma insert_fin q t a : fin_keys q -> (exists z, t = Fin z) -> fin_keys (insert_bucket q t a).
Proof.
  intros F T k b I. destruct (insert_keys _ _ _ _ _ I) as [->|[b' I']]; eauto.
Qed.

Lemma insert_nonempty q t a : insert_bucket q t a <> [].
Proof. destruct q as [|[k b] q]; simpl; [discriminate|]. destruct (n_eqb k t), (n_ltb t k); discriminate. Qed.

Lemma time_fin t : is_time t = true -> n_eqb t PInf = false -> exists z, t = Fin z.
Proof. destruct t; simpl; try discriminate; eauto. Qed.

Lemma bucket_steady b : forall s x, clocked s -> fin_keys (s_queue s) -> P x ->
  run_bucket u (s_time s) b s x = run_bucket calm (s_time s) b s x /\
  exists s' x' tr, run_bucket u (s_time s) b s x = (s', x', tr, false) /\ P x' /\ Forall good_ev tr /\
    fin_keys (s_queue s') /\ s_time s' = s_time s.
Proof.
  induction b as [|a b IH]; intros s x C K H.
  - split; auto. exists s, x, []. simpl. auto.
  - cbn [run_bucket]. rewrite (calm_step s a x C H).
    destruct (HS s a x C H) as (x1 & d & -> & P1 & D). cbn [run_ops app].
    set (t := n_add (or_num (Some (Fin d)) (s_di s)) (s_time s)).
    set (s2 := if negb (n_eqb t PInf) then timed_schedule s a (Some t) else s).
    assert (T2 : s_time s2 = s_time s). { unfold s2. destruct (negb _); auto. }
    assert (C2 : clocked s2). { unfold clocked. now rewrite T2. }
    assert (T : n_leb (s_time s) t = true).
    { unfold t. rewrite n_add_comm. apply n_add_leb.
      - destruct C as (z & -> & _). reflexivity.
      - unfold or_num, n_truthy. simpl. destruct (d =? 0) eqn:E; simpl.
        + apply Z.eqb_eq in E. lia.
        + unfold nonneg, n_leb. simpl. apply orb_true_iff. left. now apply Z.ltb_lt. }
    assert (K2 : fin_keys (s_queue s2)).
    { unfold s2. destruct (n_eqb t PInf) eqn:E; cbn [negb]; auto. unfold timed_schedule. rewrite or_num_later; auto.
      - simpl. apply insert_fin; auto. apply time_fin; auto.
        eapply n_leb_is_time; [|exact T]. destruct C as (z & -> & _). reflexivity.
      - destruct C as (z & -> & Z). unfold nonneg, n_leb. simpl. apply orb_true_iff.
        destruct (Z.eq_dec z 0); [right; apply Z.eqb_eq; lia|left; apply Z.ltb_lt; lia]. }
    destruct (IH s2 x1 C2 K2 P1) as [E1 (s' & x' & tr & E2 & P2 & G2 & K3 & T3)].
    rewrite T2 in E1, E2. rewrite <- E1, E2. split; auto.
    do 3 eexists. split; [reflexivity|]. split; auto. split; [|split; auto; congruence].
    constructor; auto.
Qed.

Definition ready (s : sched) : Prop := winv s /\ fin_keys (s_queue s) /\ (clocked s \/ s_queue s = []).

Lemma step_steady s x : ready s -> P x ->
  timed_step u s x = timed_step calm s x /\
  exists s' x' tr, timed_step u s x = (s', x', tr, false) /\ P x' /\ Forall good_ev tr /\ ready s'.
Proof.
  intros (I & K & C) H.
  cut (timed_step u s x = timed_step calm s x /\
    exists s' x' tr, timed_step u s x = (s', x', tr, false) /\ P x' /\ Forall good_ev tr /\
      fin_keys (s_queue s') /\ (clocked s' \/ s_queue s' = [])).
  { intros (E & s' & x' & tr & E' & P' & G' & K' & C'). split; auto. exists s', x', tr.
    split; auto. split; auto. split; auto. split; auto.
    rewrite E in E'. apply (timed_step_winv calm calm_forward _ _ _ _ _ _ E' I). }
  unfold timed_step. destruct (s_queue s) as [|[t b] q] eqn:EQ.
  - split; auto. exists s, x, []. rewrite EQ. auto 6.
  - destruct C as [C|C]; [|discriminate].
    assert (L : n_leb (s_time s) t = true). { destruct I as (_ & _ & W). rewrite EQ in W. apply W. }
    destruct (n_ltb (s_time s) t) eqn:LT.
    + split; auto. do 3 eexists. split; [reflexivity|]. split; auto. split; auto. split; [simpl; rewrite EQ; auto|].
      left. unfold clocked. simpl. destruct (K t b) as [z ->]; [left; auto|]. exists z. split; auto.
      destruct C as (z0 & E0 & Z0). rewrite E0 in LT. simpl in LT. apply Z.ltb_lt in LT. lia.
    + change (u_shuffle calm) with (u_shuffle u).
      assert (Hs : P (fst (if s_shuffle s then u_shuffle u b x else (x, b)))).
      { destruct (s_shuffle s); auto. }
      destruct (if s_shuffle s then u_shuffle u b x else (x, b)) as [x0 b0]. simpl in Hs.
      destruct (bucket_steady b0 (set_queue s q) x0) as [E1 (s' & x' & tr & E2 & P2 & G2 & K2 & T2)]; auto.
      { intros k b1 I1. apply (K k b1). right. auto. }
      simpl in E1, E2, T2. rewrite <- E1, E2. split; auto.
      do 3 eexists. split; [reflexivity|]. split; auto. split; auto. simpl.
      destruct (s_queue s') as [|[k b1] q1] eqn:EQ'; simpl.
      * rewrite EQ'. split; auto.
      * rewrite EQ'. split; auto. left. unfold clocked. simpl.
        destruct (K2 k b1) as [z ->]; [left; auto|]. exists z. split; auto.
        assert (W : winv s').
        { rewrite E1 in E2. refine (proj1 (run_bucket_winv calm calm_forward b0 (set_queue s q) x0 s' x' tr false E2 _)).
          destruct I as (I1 & I2 & I3). rewrite EQ in I3. repeat split; auto. simpl.
          apply above_wfq.
          assert (t = s_time s) as <-; [|apply I3].
          apply n_leb_antisym; auto. apply n_total; auto; [apply nonneg_is_time; auto|].
          eapply n_leb_is_time; [|exact L]. apply nonneg_is_time; auto. }
        destruct W as (W1 & _ & W3). rewrite EQ' in W3. destruct W3 as (W3 & _).
        assert (n_leb (Fin 0) (Fin z) = true) as L0. { eapply n_leb_trans; eauto. }
        unfold n_leb in L0. simpl in L0. rewrite orb_true_iff, Z.ltb_lt, Z.eqb_eq in L0. lia.
Qed.

Lemma steps_steady n : forall s x, ready s -> P x ->
  run_hist u (repeat CStep n) s x = run_hist calm (repeat CStep n) s x /\
  exists s' x' tr, run_hist u (repeat CStep n) s x = (s', x', tr) /\ P x' /\ Forall good_ev tr /\ ready s'.
Proof.
  induction n as [|n IH]; intros s x R H; [split; auto; exists s, x, []; auto|].
  cbn [repeat run_hist run_cmd].
  destruct (step_steady s x R H) as [E (s1 & x1 & tr1 & E1 & P1 & G1 & R1)].
  rewrite <- E, E1.
  destruct (IH s1 x1 R1 P1) as [E' (s2 & x2 & tr2 & E2 & P2 & G2 & R2)].
  rewrite <- E', E2. split; auto. exists s2, x2, (tr1 ++ tr2)%list. split; auto. split; auto. split; auto.
  apply Forall_app. auto.
Qed.

Lemma adds_steady v l : forall s x, ready s -> s_time s = Fin 0 ->
  exists s', run_hist (W := X) v (map (fun a => CAdd a None) l) s x = (s', x, map (EvAdd (Fin 0)) l) /\
    ready s' /\ s_time s' = Fin 0 /\ (l <> [] \/ s_queue s <> [] -> s_queue s' <> []).
Proof.
  induction l as [|a l IH]; intros s x R T.
  - exists s. simpl. split; auto. split; auto. split; auto. intros [[]|]; auto.
  - cbn [map run_hist run_cmd run_op].
    assert (R' : ready (timed_add s a None)).
    { destruct R as (R1 & R2 & R3).
      pose proof (run_op_winv s (SAdd a None) _ _ eq_refl R1) as [W C].
      split; auto. rewrite timed_add_queue. split.
      - apply insert_fin; auto. eauto.
      - left. exists 0. split; [|lia]. destruct C as (C & _). congruence. }
    assert (T' : s_time (timed_add s a None) = Fin 0).
    { destruct (timed_add_clock s a None) as (C & _). congruence. }
    destruct (IH (timed_add s a None) x R' T') as (s' & E & R'' & T'' & N). rewrite E. exists s'. rewrite T.
    split; auto. split; auto. split; auto. intros _. apply N. right. rewrite timed_add_queue. apply insert_nonempty.
Qed.

Lemma ready_init sh di : nonneg di = true -> ready (timed_init sh di).
Proof.
  intros D. split; [now apply winv_init|]. split; [intros k b []|]. auto.
Qed.

(** * One agent as a machine *)
Section Machine.
Context {St : Type}.
Variables (a : aid) (proj : X -> St) (step : St -> num -> St * num).
Hypothesis HA : forall s x, clocked s -> P x -> exists x', 
  u_step u s a x = (x', [], Ret (Some (snd (step (proj x) (s_time s))))) /\ proj x' = fst (step (proj x) (s_time s)).
Hypothesis HB : forall s b x, clocked s -> P x -> b <> a -> proj (fst (fst (u_step u s b x))) = proj x.
Hypothesis HC : forall l x, P x -> proj (fst (u_shuffle u l x)) = proj x.

(** The outcomes of the activations of the agent are those of the machine. *)
Fixpoint follows (st : St) (l : list ev) : Prop :=
  match l with
  | [] => True
  | EvAct t b o :: l' =>
      if Nat.eqb b a then o = Ret (Some (snd (step st t))) /\ follows (fst (step st t)) l' else follows st l'
  | EvAdd _ _ :: l' => follows st l'
  end.
Fixpoint after (st : St) (l : list ev) : St :=
  match l with
  | [] => st
  | EvAct t b o :: l' => if Nat.eqb b a then after (fst (step st t)) l' else after st l'
  | EvAdd _ _ :: l' => after st l'
  end.

Lemma follows_app l1 : forall st l2, follows st (l1 ++ l2) <-> follows st l1 /\ follows (after st l1) l2.
Proof.
  induction l1 as [|[t b|t b o] l1 IH]; intros st l2; simpl; [tauto|apply IH|].
  destruct (Nat.eqb b a); rewrite IH; tauto.
Qed.
Lemma after_app l1 : forall st l2, after st (l1 ++ l2) = after (after st l1) l2.
Proof. induction l1 as [|[t b|t b o] l1 IH]; intros st l2; simpl; auto. destruct (Nat.eqb b a); auto. Qed.

Lemma follows_about l : forall st, follows st l <-> follows st (filter (about a) l).
Proof.
  induction l as [|[t b|t b o] l IH]; intros st; simpl; [tauto| |].
  - destruct (Nat.eqb a b); simpl; apply IH.
  - rewrite (Nat.eqb_sym a b). destruct (Nat.eqb b a) eqn:E; simpl; [rewrite E|]; rewrite IH; tauto.
Qed.
Lemma instants_about l : instants a l = instants a (filter (about a) l).
Proof.
  induction l as [|[t b|t b o] l IH]; simpl; auto.
  - destruct (Nat.eqb a b); simpl; auto.
  - rewrite (Nat.eqb_sym a b). destruct (Nat.eqb b a) eqn:E; simpl; [rewrite E|]; rewrite IH; auto.
Qed.

Lemma bucket_follows b : forall s x s' x' tr e, clocked s -> fin_keys (s_queue s) -> P x ->
  run_bucket u (s_time s) b s x = (s', x', tr, e) -> follows (proj x) tr /\ proj x' = after (proj x) tr.
Proof.
  induction b as [|c b IH]; intros s x s' x' tr e C K H E.
  - injection E as <- <- <- <-. simpl. auto.
  - destruct (bucket_steady [c] s x C K H) as [_ (s1 & x1 & tr1 & E1 & P1 & _ & K1 & T1)].
    cbn [run_bucket] in E, E1.
    assert (N : (c = a /\ exists x', u_step u s c x = (x', [], Ret (Some (snd (step (proj x) (s_time s)))))
                  /\ proj x' = fst (step (proj x) (s_time s))) \/
                (c <> a /\ proj (fst (fst (u_step u s c x))) = proj x)).
    { destruct (Nat.eq_dec c a) as [->|N]; auto. }
    destruct (HS s c x C H) as (x2 & d & EU & P2 & D). rewrite EU in *. cbn [run_ops app] in E, E1.
    match type of E with context [run_bucket u _ b ?S _] => set (s2 := S) in * end. clearbody s2.
    injection E1 as -> <- <-.
    destruct (run_bucket u (s_time s) b s1 x2) as [[[s3 x3] tr3] e3] eqn:E3.
    injection E as <- <- <- <-. rewrite <- T1 in E3.
    assert (C1 : clocked s1). { unfold clocked. now rewrite T1. }
    destruct (IH _ _ _ _ _ _ C1 K1 P1 E3) as [F3 A3]. cbn [app follows after].
    destruct N as [(-> & y & EY & PY)|(N & PY)].
    + injection EY as <- EY. rewrite Nat.eqb_refl, EY, <- PY. auto.
    + apply Nat.eqb_neq in N. rewrite N. simpl in PY. rewrite <- PY. auto.
Qed.

Lemma step_follows s x s' x' tr e : ready s -> P x ->
  timed_step u s x = (s', x', tr, e) -> follows (proj x) tr /\ proj x' = after (proj x) tr.
Proof.
  intros (I & K & C) H E. unfold timed_step in E. destruct (s_queue s) as [|[t b] q] eqn:EQ.
  - injection E as <- <- <- <-. simpl. auto.
  - destruct C as [C|C]; [|discriminate].
    destruct (n_ltb (s_time s) t); [injection E as <- <- <- <-; simpl; auto|].
    assert (Hs : P (fst (if s_shuffle s then u_shuffle u b x else (x, b))) /\
                 proj (fst (if s_shuffle s then u_shuffle u b x else (x, b))) = proj x).
    { destruct (s_shuffle s); auto. }
    destruct (if s_shuffle s then u_shuffle u b x else (x, b)) as [x0 b0]. simpl in Hs. destruct Hs as [Hs Hp].
    destruct (run_bucket u (s_time s) b0 (set_queue s q) x0) as [[[s1 x1] tr1] e1] eqn:E1.
    assert (R : follows (proj x0) tr1 /\ proj x1 = after (proj x0) tr1).
    { eapply (bucket_follows b0 (set_queue s q)); eauto. intros k b1 I1. apply (K k b1). right. auto. }
    rewrite Hp in R. destruct e1; injection E as <- <- <- <-; auto.
Qed.

Lemma steps_follow n : forall s x s' x' tr, ready s -> P x ->
  run_hist u (repeat CStep n) s x = (s', x', tr) -> follows (proj x) tr /\ proj x' = after (proj x) tr.
Proof.
  induction n as [|n IH]; intros s x s' x' tr R H E.
  - injection E as <- <- <-. simpl. auto.
  - cbn [repeat run_hist run_cmd] in E.
    destruct (step_steady s x R H) as [_ (s1 & x1 & tr1 & E1 & P1 & G1 & R1)]. rewrite E1 in E.
    destruct (step_follows _ _ _ _ _ _ R H E1) as [F1 A1].
    destruct (run_hist u (repeat CStep n) s1 x1) as [[s2 x2] tr2] eqn:E2. injection E as <- <- <-.
    destruct (IH _ _ _ _ _ R1 P1 E2) as [F2 A2].
    rewrite follows_app, after_app, <- A1. auto.
Qed.

(** The life of the agent is a timetable of the machine. *)
Lemma run_machine sh di l n x s' x' tr :
  (sh = true -> fair_shuffle u) -> nonneg di = true -> P x -> NoDup l -> In a l ->
  run_hist u (map (fun a => CAdd a None) l ++ repeat CStep n) (timed_init sh di) x = (s', x', tr) ->
  exists rest pend, instants a tr = instants a rest /\ timetable di a (Fin 0) rest pend /\
    follows (proj x) rest /\ match pend with Some t => n_leb (s_time s') t = true | None => True end.
Proof.
  intros FS D H ND Ia E.
  pose proof (ready_init sh di D) as R0.
  destruct (adds_steady u l (timed_init sh di) x R0 eq_refl) as (s1 & E1 & R1 & T1 & _).
  destruct (adds_steady calm l (timed_init sh di) x R0 eq_refl) as (s1' & E1' & _).
  assert (s1' = s1) as ->.
  { assert (V : forall (v1 v2 : user X) l s, run_hist v1 (map (fun a => CAdd a None) l) s x = run_hist v2 (map (fun a => CAdd a None) l) s x).
    { intros v1 v2. induction l0 as [|b l0 IH]; intros s; auto. cbn [map run_hist run_cmd]. simpl. now rewrite IH. }
    rewrite (V calm u) in E1'. congruence. }
  destruct (steps_steady n s1 x R1 H) as [E2 (s2 & x2 & tr2 & E3 & P2 & G2 & R2)].
  assert (EC : run_hist calm (map (fun a => CAdd a None) l ++ repeat CStep n) (timed_init sh di) x = (s', x', tr)).
  { rewrite <- E, !run_hist_app, E1, E1', E2. reflexivity. }
  rewrite run_hist_app, E1, E3 in E. injection E as <- <- <-.
  destruct (steps_follow _ _ _ _ _ _ R1 H E3) as [F2 _].
  assert (NE : no_exc (map (EvAdd (Fin 0)) l ++ tr2)).
  { unfold no_exc. rewrite forallb_app, andb_true_iff. split.
    - apply forallb_forall. intros e I. apply in_map_iff in I. destruct I as (b & <- & _). reflexivity.
    - apply forallb_forall. intros e I. rewrite Forall_forall in G2. specialize (G2 e I).
      destruct e as [t b|t b [[[d| | |]|]| |]]; simpl in *; auto; contradiction. }
  assert (A2 : filter (is_add_of a) tr2 = []).
  { clear - G2. induction G2 as [|[t b|t b o] tr2 G _ IH]; simpl in *; auto. contradiction. }
  assert (A1 : forall l0, NoDup l0 -> In a l0 -> filter (is_add_of a) (map (EvAdd (Fin 0)) l0) = [EvAdd (Fin 0) a]).
  { induction l0 as [|b l0 IH]; intros N0 I; [destruct I|]. inversion N0 as [|? ? N1 N2]; subst. simpl.
    destruct (Nat.eqb a b) eqn:E.
    - apply Nat.eqb_eq in E. subst b. f_equal. clear - N1. induction l0 as [|c l0 IH]; auto. simpl.
      destruct (Nat.eqb a c) eqn:E; [apply Nat.eqb_eq in E; subst; simpl in N1; tauto|]. apply IH. simpl in N1. tauto.
    - destruct I as [->|I]; [rewrite Nat.eqb_refl in E; discriminate|]. auto. }
  assert (AD : adds_of a (map (EvAdd (Fin 0)) l ++ tr2) = 1%nat).
  { unfold adds_of. rewrite filter_app, A1, A2; auto. }
  destruct (exact_wakeup X calm sh di _ x _ _ _ a calm_forward FS D EC NE AD) as (t0 & rest & pend & F1 & TT & PD).
  assert (t0 = Fin 0) as ->.
  { assert (In (EvAdd t0 a) (filter (is_add_of a) (map (EvAdd (Fin 0)) l ++ tr2))) as I.
    { assert (In (EvAdd t0 a) (filter (about a) (map (EvAdd (Fin 0)) l ++ tr2))) as I0 by (rewrite F1; left; auto).
      apply filter_In in I0. apply filter_In. split; [apply I0|]. simpl. apply Nat.eqb_refl. }
    rewrite filter_app, A1, A2 in I by auto. destruct I as [I|[]]. congruence. }
  exists rest, pend. split; [|split; auto; split; auto].
  - rewrite (instants_about (map _ l ++ tr2)), F1. reflexivity.
  - assert (F : follows (proj x) (map (EvAdd (Fin 0)) l ++ tr2)).
    { apply follows_app. assert (forall l0 st, follows st (map (EvAdd (Fin 0)) l0) /\ after st (map (EvAdd (Fin 0)) l0) = st) as V.
      { induction l0; intros st; simpl; auto. }
      split; [apply V|]. now rewrite (proj2 (V l (proj x))). }
    rewrite follows_about, F1 in F. exact F.
Qed.

(** If the machine has a known course up to some bound, the agent follows it. *)
Lemma machine_course di (one bound : Z) (inst : nat -> Z) (st : nat -> St) (dl : nat -> Z) :
  0 < one -> (forall k, 0 < dl k) -> (forall k, inst (S k) = inst k + dl k) -> 0 <= inst 0%nat ->
  exact_up_to one bound ->
  (forall k, inst (S k) <= bound -> step (st k) (Fin (inst k * one)) = (st (S k), Fin (dl k * one))) ->
  forall rest pend k, timetable di a (Fin (inst k * one)) rest pend -> follows (st k) rest ->
  (forall j, (j < List.length (instants a rest))%nat -> inst (k + j)%nat <= bound ->
     nth_error (instants a rest) j = Some (Fin (inst (k + j)%nat * one))) /\
  (inst (k + List.length (instants a rest))%nat <= bound ->
     pend = Some (Fin (inst (k + List.length (instants a rest))%nat * one))).
Proof.
  intros One Dpos IS I0 EX ST.
  assert (MI : forall k, 0 <= inst k). { induction k; auto. rewrite IS. specialize (Dpos k). lia. }
  assert (MO : forall k j, inst k <= inst (k + j)%nat).
  { induction j; [rewrite Nat.add_0_r; lia|]. rewrite Nat.add_succ_r, IS. specialize (Dpos (k + j)%nat). lia. }
  assert (ND : forall k, inst (S k) <= bound -> next_due di (Fin (inst k * one)) (Ret (Some (Fin (dl k * one))))
            = Some (Fin (inst (S k) * one))).
  { intros k B. unfold next_due. specialize (Dpos k). assert (n_eqb (Fin (dl k * one)) (Fin 0) = false) as ->.
    { simpl. apply Z.eqb_neq. nia. }
    rewrite EX; auto; try lia; [|rewrite <- IS; auto]. rewrite <- IS. reflexivity. }
  intros rest pend k TT. remember (Fin (inst k * one)) as due eqn:ED. revert k ED.
  induction TT as [due|due o NDn|due o due' tr pend NDs TT IH]; intros k ED F; subst due.
  - simpl. split; [intros j J; lia|]. rewrite Nat.add_0_r. auto.
  - cbn [instants flat_map app] in *. rewrite Nat.eqb_refl in *. simpl in F. rewrite Nat.eqb_refl in F. destruct F as [-> _].
    simpl. split.
    + intros [|j] J B; [|lia]. rewrite Nat.add_0_r. reflexivity.
    + intros B. exfalso. replace (k + 1)%nat with (S k) in B by lia.
      rewrite ST in NDn by auto. cbn [snd] in NDn. rewrite ND in NDn by auto. discriminate.
  - cbn [instants flat_map] in *. fold (instants a tr) in *. rewrite Nat.eqb_refl in *. simpl in F. rewrite Nat.eqb_refl in F. destruct F as [-> F].
    destruct (Z.le_gt_cases (inst (S k)) bound) as [B|B].
    + rewrite ST in NDs, F by auto. cbn [fst snd] in NDs, F. rewrite ND in NDs by auto. injection NDs as <-.
      destruct (IH (S k) eq_refl F) as [IH1 IH2]. cbn [app List.length nth_error]. split.
      * intros [|j] J BJ; [rewrite Nat.add_0_r; reflexivity|]. cbn [nth_error].
        rewrite Nat.add_succ_r in *. apply IH1; auto. lia.
      * rewrite Nat.add_succ_r. exact IH2.
    + cbn [app List.length nth_error]. split.
      * intros [|j] J BJ; [rewrite Nat.add_0_r; reflexivity|]. exfalso.
        specialize (MO (S k) j). rewrite Nat.add_succ_r in BJ. simpl in MO. lia.
      * intros BJ. exfalso. specialize (MO (S k) (List.length (instants a tr))). rewrite Nat.add_succ_r in BJ. simpl in MO. lia.
Qed.

Lemma run_course sh di l n x s' x' tr (one bound : Z) (inst : nat -> Z) (st : nat -> St) (dl : nat -> Z) :
  (sh = true -> fair_shuffle u) -> nonneg di = true -> P x -> NoDup l -> In a l ->
  run_hist u (map (fun a => CAdd a None) l ++ repeat CStep n) (timed_init sh di) x = (s', x', tr) ->
  0 < one -> (forall k, 0 < dl k) -> (forall k, inst (S k) = inst k + dl k) -> inst 0%nat = 0 ->
  exact_up_to one bound ->
  (forall k, inst (S k) <= bound -> step (st k) (Fin (inst k * one)) = (st (S k), Fin (dl k * one))) ->
  proj x = st 0%nat ->
  (forall j, (j < List.length (instants a tr))%nat -> inst j <= bound ->
     nth_error (instants a tr) j = Some (Fin (inst j * one))) /\
  (inst (List.length (instants a tr)) <= bound ->
     n_leb (s_time s') (Fin (inst (List.length (instants a tr)) * one)) = true).
Proof.
  intros FS D H ND Ia E One Dpos IS I0 EX ST PX.
  destruct (run_machine sh di l n x s' x' tr FS D H ND Ia E) as (rest & pend & E1 & TT & F & PD).
  rewrite E1. rewrite PX in F.
  replace (Fin 0) with (Fin (inst 0%nat * one)) in TT by (rewrite I0; reflexivity).
  destruct (machine_course di one bound inst st dl One Dpos IS ltac:(lia) EX ST rest pend 0%nat TT F) as [M1 M2].
  split; auto. intros B. simpl in M2. rewrite (M2 B) in PD. exact PD.
Qed.
End Machine.

(** * Progress *)
Lemma bucket_later b : Precise AR -> forall s x, clocked s -> fin_keys (s_queue s) -> P x ->
  (forall k c, In (k, c) (s_queue s) -> n_ltb (s_time s) k = true) ->
  forall s' x' tr e, run_bucket u (s_time s) b s x = (s', x', tr, e) ->
  (forall k c, In (k, c) (s_queue s') -> n_ltb (s_time s) k = true) /\ (b <> [] \/ s_queue s <> [] -> s_queue s' <> []).
Proof.
  intros PR. induction b as [|a b IH]; intros s x C K H A s' x' tr e E.
  - injection E as <- <- <- <-. split; auto. intros [[]|]; auto.
  - destruct (bucket_steady [a] s x C K H) as [_ (s1 & x1 & tr1 & E1 & P1 & _ & K1 & T1)].
    cbn [run_bucket] in E, E1.
    destruct (HS s a x C H) as (x2 & d & EU & P2 & D). rewrite EU in *. cbn [run_ops app] in E, E1.
    set (t := n_add (or_num (Some (Fin d)) (s_di s)) (s_time s)) in *.
    assert (O : or_num (Some (Fin d)) (s_di s) = Fin d).
    { unfold or_num, n_truthy. simpl. destruct (d =? 0) eqn:E0; auto. apply Z.eqb_eq in E0. lia. }
    assert (TF : exists z, t = Fin z).
    { unfold t. rewrite O. destruct C as (z & -> & _). apply precise_fin. }
    assert (TL : n_ltb (s_time s) t = true).
    { unfold t. rewrite O, n_add_comm. apply precise_later.
      - destruct C as (z & -> & _). reflexivity.
      - destruct C as (z & -> & _). reflexivity.
      - simpl. now apply Z.ltb_lt. }
    assert (S1 : s_queue s1 = insert_bucket (s_queue s) t a).
    { injection E1 as <- _ _. destruct TF as [z Ez]. rewrite Ez in *. simpl. unfold timed_schedule. simpl. f_equal.
      unfold or_num, n_truthy. simpl. destruct (z =? 0) eqn:E0; auto. apply Z.eqb_eq in E0. subst z.
      destruct C as (z & Ec & Z). rewrite Ec in TL. simpl in TL. apply Z.ltb_lt in TL. lia. }
    match type of E with context [run_bucket u _ b ?S _] => set (s2 := S) in * end. clearbody s2.
    injection E1 as -> <- <-. destruct (run_bucket u (s_time s) b s1 x2) as [[[s3 x3] tr3] e3] eqn:E3.
    injection E as <- <- <- <-. rewrite <- T1 in E3.
    assert (C1 : clocked s1). { unfold clocked. now rewrite T1. }
    destruct (IH s1 x2 C1 K1 P1) with (s' := s3) (x' := x3) (tr := tr3) (e := e3) as [B1 B2]; auto.
    { intros k c I. rewrite S1 in I. rewrite T1. destruct (insert_keys _ _ _ _ _ I) as [->|[c' I']]; eauto. }
    rewrite T1 in B1. split; auto. intros _. apply B2. right. rewrite S1. apply insert_nonempty.
Qed.


Lemma step_later s x s' x' tr e : Precise AR -> fair_shuffle u \/ s_shuffle s = false -> ready s -> P x -> s_queue s <> [] ->
  timed_step u s x = (s', x', tr, e) ->
  s_queue s' <> [] /\ n_ltb (s_time s) (s_time s') = true /\ s_shuffle s' = s_shuffle s.
Proof.
  intros PR FS R H N E. destruct (step_steady s x R H) as [E0 (s1 & x1 & tr1 & E1 & _)].
  rewrite E1 in E. injection E as -> -> -> <-. rewrite E0 in E1. 
  assert (SH : s_shuffle s' = s_shuffle s).
  { clear - E1 R. destruct R as (I & _). unfold timed_step in E1. destruct (s_queue s) as [|[t b] q] eqn:EQ; [congruence|].
    destruct (n_ltb (s_time s) t) eqn:LT; [injection E1 as <- _ _; reflexivity|].
    destruct (if s_shuffle s then u_shuffle calm b x else (x, b)) as [x0 b0].
    destruct (run_bucket calm (s_time s) b0 (set_queue s q) x0) as [[[s1 x1] tr1] e1] eqn:EB.
    assert (L : n_leb (s_time s) t = true). { destruct I as (_ & _ & W). rewrite EQ in W. apply W. }
    assert (W : winv (set_queue s q)).
    { destruct I as (I1 & I2 & I3). rewrite EQ in I3. repeat split; auto. simpl. apply above_wfq.
      assert (t = s_time s) as <-; [|apply I3].
      apply n_leb_antisym; auto. apply n_total; auto; [apply nonneg_is_time; auto|].
      eapply n_leb_is_time; [|exact L]. apply nonneg_is_time; auto. }
    destruct (run_bucket_winv calm calm_forward b0 (set_queue s q) x0 _ _ _ _ EB W) as [_ (_ & _ & C & _)].
    simpl in C. destruct e1; injection E1 as E1 _ _; subst; auto. simpl.
    destruct (s_queue s1) as [|[]]; auto. }
  rewrite <- E0 in E1. clear E0.
  destruct R as (I & K & C). unfold timed_step in E1. destruct (s_queue s) as [|[t b] q] eqn:EQ; [congruence|].
  destruct C as [C|C]; [|discriminate].
  destruct (n_ltb (s_time s) t) eqn:LT.
  - injection E1 as <- _ _. simpl. rewrite EQ. auto.
  - assert (L : n_leb (s_time s) t = true). { destruct I as (_ & _ & W). rewrite EQ in W. apply W. }
    assert (W : t = s_time s /\ b <> [] /\ above (s_time s) q).
    { destruct I as (I1 & I2 & I3). rewrite EQ in I3. simpl in I3.
      assert (t = s_time s) as T.
      { apply n_leb_antisym; auto. apply n_total; auto; [apply nonneg_is_time; auto|].
        eapply n_leb_is_time; [|exact L]. apply nonneg_is_time; auto. }
      subst t. tauto. }
    destruct W as (-> & B & AB).
    assert (Hs : P (fst (if s_shuffle s then u_shuffle u b x else (x, b))) /\
                 snd (if s_shuffle s then u_shuffle u b x else (x, b)) <> []).
    { destruct (s_shuffle s); auto. split; auto. destruct FS as [FS|FS]; [|discriminate].
      specialize (FS b x). intros E0. rewrite E0 in FS. apply Permutation_sym, Permutation_nil in FS. auto. }
    destruct (if s_shuffle s then u_shuffle u b x else (x, b)) as [x0 b0]. simpl in Hs. destruct Hs as [Hs Hb].
    destruct (run_bucket u (s_time s) b0 (set_queue s q) x0) as [[[s1 x1] tr1] e1] eqn:EB.
    assert (AQ : forall k c, In (k, c) q -> n_ltb (s_time s) k = true).
    { clear - AB. generalize dependent (s_time s). induction q as [|[k1 c1] q IH]; intros t A k c I; [destruct I|].
      simpl in A. destruct A as (A1 & A2 & A3). destruct I as [I|I]; [congruence|].
      eapply n_ltb_trans; [exact A1|]. eapply IH; eauto. }
    assert (KQ : fin_keys q). { intros k c Ik. apply (K k c). right. auto. }
    destruct (bucket_later b0 PR (set_queue s q) x0 C KQ Hs AQ s1 x1 tr1 e1 EB) as [A1 A2].
    simpl in A1, A2. specialize (A2 (or_introl Hb)).
    destruct e1; [discriminate|]. injection E1 as <- _ _. simpl in *.
    destruct (s_queue s1) as [|[k c] q1] eqn:EQ1; [congruence|]. simpl. rewrite EQ1. split; [discriminate|].
    split; auto. eapply A1. left. reflexivity.
Qed.

Lemma steps_later n : Precise AR -> forall s x s' x' tr z,
  fair_shuffle u \/ s_shuffle s = false -> ready s -> P x -> s_queue s <> [] -> s_time s = Fin z ->
  run_hist u (repeat CStep n) s x = (s', x', tr) -> n_leb (Fin (z + Z.of_nat n)) (s_time s') = true.
Proof.
  intros PR. induction n as [|n IH]; intros s x s' x' tr z FS R H N T E.
  - injection E as <- <- <-. rewrite T. replace (z + Z.of_nat 0) with z by lia. apply n_leb_refl. reflexivity.
  - cbn [repeat run_hist run_cmd] in E.
    destruct (step_steady s x R H) as [_ (s1 & x1 & tr1 & E1 & P1 & _ & R1)]. rewrite E1 in E.
    destruct (step_later _ _ _ _ _ _ PR FS R H N E1) as (N1 & L1 & S1).
    destruct (run_hist u (repeat CStep n) s1 x1) as [[s2 x2] tr2] eqn:E2. injection E as <- <- <-.
    assert (exists z1, s_time s1 = Fin z1) as [z1 T1].
    { destruct R1 as (_ & _ & [(z1 & T1 & _)|Q]); [eauto|congruence]. }
    rewrite <- S1 in FS. pose proof (IH s1 x1 s2 x2 tr2 z1 FS R1 P1 N1 T1 E2) as L2.
    eapply n_leb_trans; [|exact L2]. rewrite T, T1 in L1. simpl in L1. apply Z.ltb_lt in L1.
    unfold n_leb. simpl. rewrite orb_true_iff, Z.ltb_lt, Z.eqb_eq. lia.
Qed.

Lemma run_later sh di l n x s' x' tr : Precise AR ->
  (sh = true -> fair_shuffle u) -> nonneg di = true -> P x -> l <> [] ->
  run_hist u (map (fun a => CAdd a None) l ++ repeat CStep n) (timed_init sh di) x = (s', x', tr) ->
  n_leb (Fin (Z.of_nat n)) (s_time s') = true.
Proof.
  intros PR FS D H N E. pose proof (ready_init sh di D) as R0.
  destruct (adds_steady u l (timed_init sh di) x R0 eq_refl) as (s1 & E1 & R1 & T1 & N1).
  rewrite run_hist_app, E1 in E.
  destruct (run_hist u (repeat CStep n) s1 x) as [[s2 x2] tr2] eqn:E2. injection E as <- <- <-.
  replace (Z.of_nat n) with (0 + Z.of_nat n) by lia. eapply steps_later; eauto.
  assert (SH : s_shuffle s1 = sh).
  { clear - E1. assert (V : forall l s s1 tr, run_hist u (map (fun a => CAdd a None) l) s x = (s1, x, tr) -> s_shuffle s1 = s_shuffle s).
    { induction l0 as [|a l0 IH]; intros s s2 tr E; [injection E as <- _; auto|].
      cbn [map run_hist run_cmd run_op] in E.
      destruct (run_hist u (map (fun a => CAdd a None) l0) (timed_add s a None) x) as [[s3 x3] t3] eqn:E3.
      injection E as <- -> _. rewrite (IH _ _ _ E3). destruct (timed_add_clock s a None) as (_ & _ & C & _). exact C. }
    apply (V _ _ _ _ E1). }
  rewrite SH. destruct sh; auto.
Qed.
End Steady.

(** * The two classes *)
Section Agents.
Context {AR : Arith} {R : Type}.
Variables (one : Z) (shuffle : list aid -> R -> R * list aid) (fib : aid -> bool).
Notation world := (fworld tfun (trest R) * cors (frame tfun))%type.
Notation u := (timeouts_user (AR := AR) one shuffle).

Definition fresh (x : world) : Prop :=
  (forall a, fw_agents (fst x) a = new_agent (if fib a then fibonacci_class else odds_class)) /\
  (forall a, get_co (snd x) a = None) /\
  (forall a, exists z, tr_prev (fw_rest (fst x)) a = Fin z /\ 0 < z).

Definition fib_machine (prev now : num) : num * num := (n_max now prev, prev).
Definition odds_machine (_ : unit) (now : num) : unit * num := (tt, n_add (Fin one) (n_mod2 one now)).

Lemma get_set_co (c : cors (frame tfun)) a v b : get_co (set_co c a v) b = if Nat.eqb b a then v else get_co c b.
Proof.
  unfold get_co, set_co. cbn [co_inst co_class]. rewrite dget_set. change (eqb b a) with (Nat.eqb b a). destruct (Nat.eqb b a); auto.
Qed.

Lemma fib_step s a x : fresh x -> fib a = true -> exists c,
  u_step u s a x =
  (FWorld (fw_agents (fst x)) (set_prev (fw_rest (fst x)) a (n_max (s_time s) (tr_prev (fw_rest (fst x)) a))), c, [],
   Ret (Some (tr_prev (fw_rest (fst x)) a))) /\ forall b, get_co c b = None.
Proof.
  intros (A & C & _) F. cbn [timeouts_user agent_user u_step]. unfold agent_step, decorated. rewrite C.
  cbn [send step_gen]. rewrite A, F. cbn [new_agent fa_kind fa_alive fa_cur negb].
  assert (fsm_init fibonacci_class PNone = Some (Some (State Counting "counting" true))) as -> by reflexivity.
  cbn [timeouts_code c_start c_resume st_fun inside run_fops fw_agents fw_rest].
  unfold inside. cbn [timeouts_code c_start c_resume run_fops fw_agents fw_rest].
  rewrite A, F. cbn [new_agent fa_kind finish unpack2 set_state].
  eexists. split; [reflexivity|]. intros b. rewrite !get_set_co. destruct (Nat.eqb b a); auto.
Qed.

Lemma odds_step s a x : fresh x -> fib a = false -> exists c,
  u_step u s a x =
  (FWorld (fw_agents (fst x)) (fw_rest (fst x)), c, [],
   Ret (Some (n_add (Fin one) (n_mod2 one (s_time s))))) /\ forall b, get_co c b = None.
Proof.
  intros (A & C & _) F. cbn [timeouts_user agent_user u_step]. unfold agent_step, decorated. rewrite C.
  cbn [send step_gen]. rewrite A, F. cbn [new_agent fa_kind fa_alive fa_cur negb].
  assert (fsm_init odds_class PNone = Some (Some (State OddsState "odds" true))) as -> by reflexivity.
  unfold inside. cbn [timeouts_code c_start c_resume st_fun run_fops fw_agents fw_rest].
  rewrite A, F. cbn [new_agent fa_kind finish unpack2 set_state].
  eexists. split; [reflexivity|]. intros b. rewrite !get_set_co. destruct (Nat.eqb b a); auto.
Qed.

Hypothesis One : 0 < one.
Hypothesis Small : forall x y, 0 <= x <= 2 * one -> 0 <= y <= 2 * one -> exists z, n_add (Fin x) (Fin y) = Fin z.

Lemma odds_delay z : 0 <= z -> exists d, n_add (Fin one) (n_mod2 one (Fin z)) = Fin d /\ 0 < d.
Proof.
  intros Z. pose proof (Z.mod_pos_bound z (2 * one) ltac:(lia)) as B.
  cbn [n_mod2]. set (m := z mod (2 * one)) in *. clearbody m.
  destruct (Small one m) as [d E]; try lia. exists d. split; auto.
  assert (L : n_leb (Fin one) (n_add (Fin one) (Fin m)) = true).
  { apply n_add_leb; auto. unfold nonneg, n_leb. simpl. rewrite orb_true_iff, Z.ltb_lt, Z.eqb_eq. lia. }
  rewrite E in L. unfold n_leb in L. simpl in L. rewrite orb_true_iff, Z.ltb_lt, Z.eqb_eq in L. lia.
Qed.

Lemma fresh_step s a x : clocked s -> fresh x ->
  exists x' d, u_step u s a x = (x', [], Ret (Some (Fin d))) /\ fresh x' /\ 0 < d.
Proof.
  intros (z & T & Z) F. destruct (fib a) eqn:E.
  - destruct (fib_step s a x F E) as (c & -> & C). destruct F as (A & _ & V).
    destruct (V a) as (p & Ep & Pp). rewrite Ep. do 2 eexists. split; [reflexivity|]. split; auto.
    split; [exact A|]. split; [exact C|]. intros b. cbn [fst fw_rest set_prev tr_prev].
    destruct (Nat.eqb b a); auto. unfold n_max. rewrite T. simpl. destruct (z <? p) eqn:L; eauto.
    apply Z.ltb_ge in L. exists z. split; auto. lia.
  - destruct (odds_step s a x F E) as (c & -> & C). destruct F as (A & _ & V).
    rewrite T. destruct (odds_delay z Z) as (d & -> & D). do 2 eexists. split; [reflexivity|]. split; auto.
    split; [exact A|]. split; [exact C|exact V].
Qed.

Lemma fresh_shuffle l x : fresh x -> fresh (fst (u_shuffle u l x)).
Proof.
  intros (A & C & V). cbn [timeouts_user agent_user u_shuffle]. destruct (shuffle l (tr_rng (fw_rest (fst x)))) as [r l'].
  cbn [fst]. split; [exact A|]. split; [exact C|exact V].
Qed.

Lemma fresh_init rng : fresh (timeouts_world one fib rng).
Proof. split; [reflexivity|]. split; [reflexivity|]. intros a. exists one. split; auto. Qed.

Lemma fair_user : (forall l r, Permutation l (snd (shuffle l r))) -> fair_shuffle u.
Proof.
  intros F l x. cbn [timeouts_user agent_user u_shuffle]. specialize (F l (tr_rng (fw_rest (fst x)))).
  destruct (shuffle l (tr_rng (fw_rest (fst x)))) as [r l']. exact F.
Qed.

(** ** A Fibonacci agent on its own *)
Lemma alone_step s x t p t' : fresh x -> fib 0%nat = true -> (forall r, snd (shuffle [0%nat] r) = [0%nat]) ->
  s_queue s = [(Fin t, [0%nat])] -> s_time s = Fin t -> tr_prev (fw_rest (fst x)) 0%nat = Fin p -> 0 < p -> 0 <= t ->
  n_add (Fin p) (Fin t) = Fin t' -> 0 < t' ->
  exists s' x' o, timed_step u s x = (s', x', [EvAct (Fin t) 0%nat o], false) /\ fresh x' /\
    s_queue s' = [(Fin t', [0%nat])] /\ s_time s' = Fin t' /\ tr_prev (fw_rest (fst x')) 0%nat = n_max (Fin t) (Fin p).
Proof.
  intros FR F SH Q T P P0 T0 A A0.
  assert (B : forall s0 x0, s_queue s0 = [] -> s_time s0 = Fin t -> fresh x0 -> tr_prev (fw_rest (fst x0)) 0%nat = Fin p ->
    exists s1 x1 o, run_bucket u (Fin t) [0%nat] s0 x0 = (s1, x1, [EvAct (Fin t) 0%nat o], false) /\ fresh x1 /\
      s_queue s1 = [(Fin t', [0%nat])] /\ tr_prev (fw_rest (fst x1)) 0%nat = n_max (Fin t) (Fin p)).
  { intros s0 x0 Q0 T1 FR0 P1. destruct (fresh_step s0 0%nat x0) as (x1 & d & E & FX & D0); auto.
    { exists t. auto. }
    destruct (fib_step s0 0%nat x0 FR0 F) as (c & E1 & _). rewrite E in E1. rewrite P1, T1 in E1.
    assert (Hd : d = p) by congruence. subst d. 
    assert (Hx : tr_prev (fw_rest (fst x1)) 0%nat = n_max (Fin t) (Fin p)).
    { assert (x1 = (FWorld (fw_agents (fst x0)) (set_prev (fw_rest (fst x0)) 0%nat (n_max (Fin t) (Fin p))), c)) as -> by congruence. reflexivity. }
    cbn [run_bucket]. rewrite E. cbn [run_ops]. unfold or_num, n_truthy. cbn [n_eqb].
    assert (p =? 0 = false) as -> by (apply Z.eqb_neq; lia). cbn [negb]. rewrite A. cbn [n_eqb negb].
    eexists _, _, _. split; [reflexivity|]. split; auto. split; auto.
    unfold timed_schedule, or_num, n_truthy. cbn [set_queue s_queue n_eqb].
    assert (t' =? 0 = false) as -> by (apply Z.eqb_neq; lia). cbn [negb]. rewrite Q0. reflexivity. }
  unfold timed_step. rewrite Q, T. cbn [n_ltb]. rewrite Z.ltb_irrefl.
  destruct (s_shuffle s).
  - pose proof (fresh_shuffle [0%nat] x FR) as FR'. revert FR'. cbn [timeouts_user agent_user u_shuffle].
    specialize (SH (tr_rng (fw_rest (fst x)))).
    destruct (shuffle [0%nat] (tr_rng (fw_rest (fst x)))) as [r l']. cbn [snd] in SH. subst l'. cbn [fst snd]. intros FR'.
    match type of FR' with fresh ?y => destruct (B (set_queue s []) y eq_refl T FR' P) as (s1 & x1 & o & E & FX & QX & PX) end.
    match goal with |- context [run_bucket ?a ?b ?c ?d ?e] =>
      match type of E with run_bucket ?a' ?b' ?c' ?d' ?e' = _ => change (run_bucket a b c d e) with (run_bucket a' b' c' d' e') end end.
    rewrite E. cbn [set_steps s_queue]. rewrite QX. eexists _, _, _. split; [reflexivity|]. auto.
  - destruct (B (set_queue s []) x eq_refl T FR P) as (s1 & x1 & o & E & FX & QX & PX).
    cbv beta iota zeta.
    match goal with |- context [run_bucket ?a ?b ?c ?d ?e] =>
      match type of E with run_bucket ?a' ?b' ?c' ?d' ?e' = _ => change (run_bucket a b c d e) with (run_bucket a' b' c' d' e') end end.
    rewrite E. cbn [set_steps s_queue]. rewrite QX. eexists _, _, _. split; [reflexivity|]. auto.
Qed.

Lemma alone_steps (tm pr : nat -> Z) n : fib 0%nat = true -> (forall r, snd (shuffle [0%nat] r) = [0%nat]) ->
  forall k s x, (forall j, (j < n)%nat -> 0 < pr (k + j)%nat /\ 0 <= tm (k + j)%nat /\ 0 < tm (S (k + j)) /\
     n_add (Fin (pr (k + j)%nat)) (Fin (tm (k + j)%nat)) = Fin (tm (S (k + j))) /\
     n_max (Fin (tm (k + j)%nat)) (Fin (pr (k + j)%nat)) = Fin (pr (S (k + j)))) ->
  fresh x -> s_queue s = [(Fin (tm k), [0%nat])] -> s_time s = Fin (tm k) -> tr_prev (fw_rest (fst x)) 0%nat = Fin (pr k) ->
  instants 0%nat (snd (run_hist u (repeat CStep n) s x)) = map (fun j => Fin (tm j)) (seq k n).
Proof.
  intros F SH. induction n as [|n IH]; intros k s x H FR Q T P; [reflexivity|].
  destruct (H 0%nat ltac:(lia)) as (H1 & H2 & H3 & H4 & H5). rewrite Nat.add_0_r in *.
  destruct (alone_step s x (tm k) (pr k) (tm (S k))) as (s' & x' & o & E & FR' & Q' & T' & P'); auto.
  cbn [repeat run_hist run_cmd seq map]. rewrite E.
  destruct (run_hist u (repeat CStep n) s' x') as [[s2 x2] tr2] eqn:E2. cbn [snd app].
  cbn [instants flat_map Nat.eqb app]. f_equal. change (instants 0%nat tr2 = map (fun j => Fin (tm j)) (seq (S k) n)).
  rewrite <- (IH (S k) s' x'); auto; [rewrite E2; reflexivity| |rewrite P'; exact H5].
  intros j L. specialize (H (S j) ltac:(lia)). replace (S k + j)%nat with (k + S j)%nat by lia. exact H.
Qed.

Lemma alone_run (tm pr : nat -> Z) sh n rng : fib 0%nat = true -> (forall r, snd (shuffle [0%nat] r) = [0%nat]) ->
  tm 0%nat = 0 -> pr 0%nat = one ->
  (forall j, (j < n)%nat -> 0 < pr j /\ 0 <= tm j /\ 0 < tm (S j) /\
     n_add (Fin (pr j)) (Fin (tm j)) = Fin (tm (S j)) /\ n_max (Fin (tm j)) (Fin (pr j)) = Fin (pr (S j))) ->
  instants 0%nat (snd (timeouts_run one sh shuffle fib [0%nat] n rng)) = map (fun j => Fin (tm j)) (seq 0 n).
Proof.
  intros F SH T0 P0 H. unfold timeouts_run. cbn [map app run_hist run_cmd run_op].
  assert (E : forall s x, s_queue s = [(Fin 0, [0%nat])] -> s_time s = Fin 0 -> x = timeouts_world one fib rng ->
    instants 0%nat (snd (run_hist u (repeat CStep n) s x)) = map (fun j => Fin (tm j)) (seq 0 n)).
  { intros s x Q T ->. apply (alone_steps tm pr); auto using fresh_init; rewrite ?T0, ?P0; auto. }
  set (s0 := timed_add (timed_init sh (Fin one)) 0%nat None).
  specialize (E s0 _ eq_refl eq_refl eq_refl).
  destruct (run_hist u (repeat CStep n) s0 (timeouts_world one fib rng)) as [[s2 x2] tr2]. exact E.
Qed.

(** ** Numbers of Fibonacci *)
Definition fib_gap (k : nat) : Z := match k with O => 1 | _ => fibonacci k end.

Lemma fibonacci_pos k : 0 < fibonacci (S k).
Proof.
  assert (forall k, 0 < fibonacci (S k) /\ 0 < fibonacci (S (S k))) as H; [|apply H].
  induction k0 as [|k0 [H1 H2]]; [simpl; lia|]. split; auto.
  change (fibonacci (S (S (S k0)))) with (fibonacci (S (S k0)) + fibonacci (S k0)). lia.
Qed.
Lemma fib_gap_pos k : 0 < fib_gap k.
Proof. destruct k; [simpl; lia|apply fibonacci_pos]. Qed.
Lemma fib_instant_S k : fib_instant (S k) = fib_instant k + fib_gap k.
Proof. destruct k as [|k]; [reflexivity|]. reflexivity. Qed.
Lemma fib_gap_max k : fib_gap (S k) = Z.max (fib_instant k) (fib_gap k).
Proof.
  destruct k as [|[|k]]; [reflexivity|reflexivity|]. unfold fib_gap, fib_instant.
  change (fibonacci (S (S (S k)))) with (fibonacci (S (S k)) + fibonacci (S k)).
  pose proof (fibonacci_pos k). lia.
Qed.

Lemma fib_course bound k : exact_up_to (AR := AR) one bound -> fib_instant (S k) <= bound ->
  fib_machine (Fin (fib_gap k * one)) (Fin (fib_instant k * one)) = (Fin (fib_gap (S k) * one), Fin (fib_gap k * one)).
Proof.
  intros _ _. unfold fib_machine, n_max. simpl n_ltb. rewrite fib_gap_max. f_equal.
  destruct (fib_instant k * one <? fib_gap k * one) eqn:L; [apply Z.ltb_lt in L|apply Z.ltb_ge in L];
    apply f_equal; apply (f_equal (fun z => z * one)); nia.
Qed.

Lemma fib_run sh l n rng s' x' tr bound a :
  (forall l r, Permutation l (snd (shuffle l r))) -> NoDup l -> In a l -> fib a = true -> exact_up_to (AR := AR) one bound ->
  timeouts_run one sh shuffle fib l n rng = (s', x', tr) ->
  (forall j, (j < List.length (instants a tr))%nat -> fib_instant j <= bound ->
     nth_error (instants a tr) j = Some (Fin (fib_instant j * one))) /\
  (fib_instant (List.length (instants a tr)) <= bound ->
     n_leb (s_time s') (Fin (fib_instant (List.length (instants a tr)) * one)) = true).
Proof.
  intros FS ND I F EX E. unfold timeouts_run in E.
  apply (run_course u fresh fresh_step fresh_shuffle a (fun x => tr_prev (fw_rest (fst x)) a) fib_machine) with
    (sh := sh) (di := Fin one) (l := l) (n := n) (x := timeouts_world one fib rng) (x' := x')
    (st := fun k => Fin (fib_gap k * one)) (dl := fib_gap); auto using fresh_init, fair_user, fib_gap_pos, fib_instant_S.
  - intros s x C H. destruct (fib_step s a x H F) as (c & -> & _). eexists. split; [reflexivity|].
    cbn [fst fw_rest set_prev tr_prev]. now rewrite Nat.eqb_refl.
  - intros s b x C H N. destruct (fib b) eqn:Eb.
    + destruct (fib_step s b x H Eb) as (c & -> & _). cbn [fst fw_rest set_prev tr_prev].
      apply not_eq_sym, Nat.eqb_neq in N. now rewrite N.
    + destruct (odds_step s b x H Eb) as (c & -> & _). reflexivity.
  - intros l0 x H. cbn [timeouts_user agent_user u_shuffle].
    destruct (shuffle l0 (tr_rng (fw_rest (fst x)))) as [r l']. reflexivity.
  - unfold nonneg, n_leb. simpl. rewrite orb_true_iff, Z.ltb_lt. lia.
  - intros k B. apply (fib_course bound); auto.
  - change (Fin one = Fin (1 * one)). f_equal. lia.
Qed.

(** ** Odd numbers *)
Definition odd_gap (k : nat) : Z := match k with O => 1 | _ => 2 end.
Lemma odd_course bound k : 2 <= bound -> exact_up_to (AR := AR) one bound ->
  odds_machine tt (Fin (odd_instant k * one)) = (tt, Fin (odd_gap k * one)).
Proof.
  intros B EX. unfold odds_machine. f_equal. cbn [n_mod2].
  replace (2 * one) with (one * 2) by lia. rewrite (Z.mul_comm (odd_instant k)), Z.mul_mod_distr_l by lia.
  rewrite (Z.mul_comm one (_ mod 2)). replace (Fin one) with (Fin (1 * one)) by (f_equal; lia).
  assert (odd_instant k mod 2 = odd_gap k - 1) as ->.
  { destruct k as [|k]; [reflexivity|]. unfold odd_instant, odd_gap. rewrite Z.add_comm, Z.mul_comm, Z_mod_plus_full. reflexivity. }
  rewrite EX; destruct k; simpl; auto; try lia; f_equal; lia.
Qed.
Lemma odd_instant_S k : odd_instant (S k) = odd_instant k + odd_gap k.
Proof. destruct k; [reflexivity|]. unfold odd_instant, odd_gap. lia. Qed.

Lemma odd_run sh l n rng s' x' tr bound a :
  (forall l r, Permutation l (snd (shuffle l r))) -> NoDup l -> In a l -> fib a = false -> 2 <= bound ->
  exact_up_to (AR := AR) one bound ->
  timeouts_run one sh shuffle fib l n rng = (s', x', tr) ->
  (forall j, (j < List.length (instants a tr))%nat -> odd_instant j <= bound ->
     nth_error (instants a tr) j = Some (Fin (odd_instant j * one))) /\
  (odd_instant (List.length (instants a tr)) <= bound ->
     n_leb (s_time s') (Fin (odd_instant (List.length (instants a tr)) * one)) = true).
Proof.
  intros FS ND I F B2 EX E. unfold timeouts_run in E.
  apply (run_course u fresh fresh_step fresh_shuffle a (fun _ => tt) odds_machine) with
    (sh := sh) (di := Fin one) (l := l) (n := n) (x := timeouts_world one fib rng) (x' := x')
    (st := fun k => tt) (dl := odd_gap); auto using fresh_init, fair_user, odd_instant_S.
  - intros s x C H. destruct (odds_step s a x H F) as (c & -> & _). eexists. split; reflexivity.
  - unfold nonneg, n_leb. simpl. rewrite orb_true_iff, Z.ltb_lt. lia.
  - intros []; simpl; lia.
  - intros k B. apply (odd_course bound); auto.
Qed.

Lemma later_run sh l n rng s' x' tr : Precise AR ->
  (forall l r, Permutation l (snd (shuffle l r))) -> l <> [] ->
  timeouts_run one sh shuffle fib l n rng = (s', x', tr) -> n_leb (Fin (Z.of_nat n)) (s_time s') = true.
Proof.
  intros PR FS N E. unfold timeouts_run in E.
  apply (run_later u fresh fresh_step fresh_shuffle) with (2 := fun _ => fair_user FS) (6 := E); auto using fresh_init.
  unfold nonneg, n_leb. simpl. rewrite orb_true_iff, Z.ltb_lt. lia.
Qed.
End Agents.

(** * Exact numbers and floats *)
Lemma exact_all one bound : exact_up_to (AR := exact) one bound.
Proof. intros x y _ _ _. simpl. f_equal. lia. Qed.

Lemma exact_small x y : exists z, n_add (Arith := exact) (Fin x) (Fin y) = Fin z.
Proof. eexists. reflexivity. Qed.

Lemma float_one_pos : 0 < float_one.
Proof. reflexivity. Qed.
Lemma whole_float k : 0 <= k <= 2 ^ 53 -> is_float (k * float_one) = true.
Proof.
  intros K. assert (0 < 2 ^ 53) as P by reflexivity. apply is_float_mult; [lia|lia|].
  fold float_one. rewrite Z.abs_eq by (pose proof float_one_pos; nia).
  apply Z.le_lt_trans with (2 ^ 53 * float_one); [pose proof float_one_pos; nia|].
  rewrite overflow_eq. unfold float_one. rewrite <- Z.pow_add_r by lia. apply Z.pow_lt_mono_r; lia.
Qed.
Lemma float_exact : exact_up_to (AR := binary64) float_one (2 ^ 53).
Proof.
  intros x y X Y B. cbn [n_add binary64 add_float].
  rewrite !whole_float by lia. cbn [andb]. rewrite <- Z.mul_add_distr_r. apply to_float_id, whole_float. lia.
Qed.
Lemma float_small x y : 0 <= x <= 2 * float_one -> 0 <= y <= 2 * float_one ->
  exists z, n_add (Arith := binary64) (Fin x) (Fin y) = Fin z.
Proof.
  intros X Y. cbn [n_add binary64 add_float]. destruct (is_float x && is_float y); [|eauto].
  assert (4 <= 2 ^ 53) as F4 by (vm_compute; discriminate).
  pose proof (whole_float 4 ltac:(lia)) as F. apply is_float_iff in F as [F O].
  rewrite Z.abs_eq in O by (pose proof float_one_pos; nia).
  pose proof (round53_upper (4 * float_one) (x + y) ltac:(lia) F) as U.
  pose proof (round53_lower 0 (x + y) ltac:(lia) eq_refl) as L.
  unfold to_float. destruct (Z.leb_spec overflow (round53 (x + y))); [lia|].
  destruct (Z.leb_spec (round53 (x + y)) (- overflow)); [pose proof overflow_pos; lia|]. eauto.
Qed.

(** * The sequences *)
Lemma rising (inst : nat -> Z) : (forall k, inst k < inst (S k)) -> forall j k, (j <= k)%nat -> inst j <= inst k.
Proof. intros H j k L. induction L; [lia|]. pose proof (H m). lia. Qed.
Lemma fib_rising k : fib_instant k < fib_instant (S k).
Proof. rewrite fib_instant_S. pose proof (fib_gap_pos k). lia. Qed.
Lemma odd_rising k : odd_instant k < odd_instant (S k).
Proof. rewrite odd_instant_S. destruct k; simpl; lia. Qed.

Lemma nth_list {X} (f : nat -> X) l : (forall j, (j < List.length l)%nat -> nth_error l j = Some (f j)) ->
  l = map f (seq 0 (List.length l)).
Proof.
  revert f. induction l as [|x l IH]; intros f H; [reflexivity|]. simpl. f_equal.
  - specialize (H 0%nat ltac:(simpl; lia)). injection H as ->. reflexivity.
  - rewrite (IH (fun j => f (S j))) at 1.
    + now rewrite <- seq_shift, map_map.
    + intros j L. apply (H (S j)). simpl. lia.
Qed.

(** A run in which the agent is activated at the first instants of a sequence. *)
Lemma whole_course (inst : nat -> Z) one l (s : num) : 0 < one -> (forall k, inst k < inst (S k)) ->
  (forall bound, (forall j, (j < List.length l)%nat -> inst j <= bound -> nth_error l j = Some (Fin (inst j * one))) /\
     (inst (List.length l) <= bound -> n_leb s (Fin (inst (List.length l) * one)) = true)) ->
  l = map (fun k => Fin (inst k * one)) (seq 0 (List.length l)) /\
  n_leb s (Fin (inst (List.length l) * one)) = true /\
  forall n k, n_leb (Fin (Z.of_nat n)) s = true -> inst k * one < Z.of_nat n -> (k < List.length l)%nat.
Proof.
  intros O R H. destruct (H (inst (List.length l))) as [H1 H2]. specialize (H2 (Z.le_refl _)).
  split; [|split; auto].
  - apply nth_list. intros j L. apply H1; auto. apply rising; auto. lia.
  - intros n k N K. apply Nat.nle_gt. intros L. apply (rising _ R) in L.
    assert (n_leb (Fin (Z.of_nat n)) (Fin (inst (List.length l) * one)) = true) as X.
    { destruct s as [z| | |]; unfold n_leb in *; simpl in *; try discriminate.
      rewrite orb_true_iff, Z.ltb_lt, Z.eqb_eq in *. lia. }
    unfold n_leb in X. simpl in X. rewrite orb_true_iff, Z.ltb_lt, Z.eqb_eq in X. nia.
Qed.

Fixpoint fib_pair (n : nat) : Z * Z := match n with O => (0, 1) | S k => let '(a, b) := fib_pair k in (b, a + b) end.
Lemma fib_pair_eq n : fib_pair n = (fibonacci n, fibonacci (S n)).
Proof.
  induction n as [|n IH]; [reflexivity|]. cbn [fib_pair]. rewrite IH.
  change (fibonacci (S (S n))) with (fibonacci (S n) + fibonacci n). f_equal. lia.
Qed.
Lemma fibonacci_fast n : fibonacci n = fst (fib_pair n).
Proof. now rewrite fib_pair_eq. Qed.
Lemma fib_77 : fib_instant 77 = 8944394323791464.
Proof. unfold fib_instant. rewrite fibonacci_fast. vm_compute. reflexivity. Qed.
Lemma fib_78 : fib_instant 78 = 14472334024676221.
Proof. unfold fib_instant. rewrite fibonacci_fast. vm_compute. reflexivity. Qed.

(** ** The first sum that is not exact *)
Lemma gap_77 : fib_gap 77 = 5527939700884757.
Proof. change (fib_gap 77) with (fibonacci 77). rewrite fibonacci_fast. vm_compute. reflexivity. Qed.
Lemma gap_78 : fib_gap 78 = 8944394323791464.
Proof. change (fib_gap 78) with (fibonacci 78). rewrite fibonacci_fast. vm_compute. reflexivity. Qed.
Lemma sum_78 : add_float (Fin (5527939700884757 * float_one)) (Fin (8944394323791464 * float_one)) = Fin (14472334024676220 * float_one).
Proof. vm_compute. reflexivity. Qed.
Lemma sum_79 : add_float (Fin (8944394323791464 * float_one)) (Fin (14472334024676220 * float_one)) = Fin (23416728348467684 * float_one).
Proof. vm_compute. reflexivity. Qed.
Definition float_instant (k : nat) : Z :=
  match Nat.compare k 78 with Lt => fib_instant k | Eq => 14472334024676220 | Gt => 23416728348467684 end.
Definition float_gap (k : nat) : Z := if Nat.leb k 78 then fib_gap k else 14472334024676220.
Lemma floats_course j : (j < 79)%nat ->
  0 < float_gap j /\ 0 <= float_instant j /\ 0 < float_instant (S j) /\
  add_float (Fin (float_gap j * float_one)) (Fin (float_instant j * float_one)) = Fin (float_instant (S j) * float_one) /\
  float_gap (S j) = Z.max (float_instant j) (float_gap j).
Proof.
  intros L. assert (Pos : forall k, 0 <= fib_instant k).
  { intros k. pose proof (rising _ fib_rising 0 k (Nat.le_0_l k)). exact H. }
  destruct (Nat.eq_dec j 78) as [->|N1]; [|destruct (Nat.eq_dec j 77) as [->|N2]].
  - change (float_instant 78) with 14472334024676220. change (float_instant 79) with 23416728348467684.
    change (float_gap 79) with 14472334024676220. change (float_gap 78) with (fib_gap 78). rewrite gap_78.
    split; [reflexivity|]. split; [discriminate|]. split; [reflexivity|]. split; [exact sum_79|reflexivity].
  - change (float_instant 77) with (fib_instant 77). change (float_instant 78) with 14472334024676220.
    change (float_gap 77) with (fib_gap 77). change (float_gap 78) with (fib_gap 78). rewrite gap_77, gap_78, fib_77.
    split; [reflexivity|]. split; [discriminate|]. split; [reflexivity|]. split; [exact sum_78|reflexivity].
  - assert (j < 77)%nat as L2 by lia.
    assert (float_instant j = fib_instant j) as -> by (unfold float_instant; now rewrite (proj2 (Nat.compare_lt_iff j 78)) by lia).
    assert (float_instant (S j) = fib_instant (S j)) as -> by (unfold float_instant; now rewrite (proj2 (Nat.compare_lt_iff (S j) 78)) by lia).
    assert (float_gap j = fib_gap j) as -> by (unfold float_gap; now rewrite (proj2 (Nat.leb_le j 78)) by lia).
    assert (float_gap (S j) = fib_gap (S j)) as -> by (unfold float_gap; now rewrite (proj2 (Nat.leb_le (S j) 78)) by lia).
    split; [apply fib_gap_pos|]. split; [apply Pos|]. split; [pose proof (fib_rising j); pose proof (Pos j); lia|].
    split; [|apply fib_gap_max].
    assert (B : fib_instant (S j) <= 2 ^ 53).
    { eapply Z.le_trans; [apply (rising _ fib_rising (S j) 77); lia|]. rewrite fib_77. discriminate. }
    rewrite fib_instant_S, Z.add_comm in *. apply (float_exact (fib_gap j) (fib_instant j)); auto.
    pose proof (fib_gap_pos j). lia.
Qed.
Lemma floats_alone {R} (shuffle : list aid -> R -> R * list aid) fib sh rng :
  fib 0%nat = true -> (forall r, snd (shuffle [0%nat] r) = [0%nat]) ->
  instants 0%nat (snd (timeouts_run (AR := binary64) float_one sh shuffle fib [0%nat] 79 rng)) =
  map (fun j => Fin (float_instant j * float_one)) (seq 0 79).
Proof.
  intros F SH. pose proof float_one_pos as O.
  rewrite (alone_run (AR := binary64) float_one shuffle fib float_one_pos float_small (fun k => float_instant k * float_one) (fun k => float_gap k * float_one)); auto.
  - intros j L. destruct (floats_course j L) as (H1 & H2 & H3 & H4 & H5).
    split; [nia|]. split; [nia|]. split; [nia|]. split; [exact H4|].
    unfold n_max. cbn [n_ltb]. rewrite H5.
    destruct (float_instant j * float_one <? float_gap j * float_one) eqn:E; [apply Z.ltb_lt in E|apply Z.ltb_ge in E];
      f_equal; f_equal; nia.
Qed.
