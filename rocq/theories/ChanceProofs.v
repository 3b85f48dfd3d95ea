(** Proofs about the chances to see the event of the tutorial on television. *)
From Coq Require Import ZArith List Bool Arith String Lia Permutation Sorted QArith.
From Verif Require Import Num PyDict TimedModel TimedSpec TimedProofs TraceProofs AgentModel FsmModel
  TutorSpec TutorProofs BroadcastModel BroadcastSpec BroadcastProofs OrderSpec AlternateProofs TurnSpec TurnProofs.
Import ListNotations.
Local Open Scope nat_scope.
Local Open Scope list_scope.
#[local] Existing Instance exact.

Lemma instants_turns a tr : instants a tr = TurnSpec.acts_of a tr.
Proof.
  induction tr as [|[t b|t b o] tr IH]; cbn; auto. rewrite Nat.eqb_sym. destruct (Nat.eqb a b); cbn; now rewrite IH.
Qed.
Lemma instants_app a l1 l2 : instants a (l1 ++ l2) = instants a l1 ++ instants a l2.
Proof. rewrite !instants_turns. apply AlternateProofs.acts_of_app. Qed.

(** Two consecutive activations. *)
Lemma timetable_next di a t0 l pend : timetable di a t0 l pend -> forall l1 t o t' o' l2, l = l1 ++ EvAct t a o :: EvAct t' a o' :: l2 ->
  next_due di t o = Some t'.
Proof.
  intros T. induction T as [due|due o0 N|due o0 due' tr pend N T IH]; intros l1 t o t' o' l2 E.
  - destruct l1; discriminate.
  - destruct l1 as [|e [|e2 l1]]; discriminate.
  - destruct l1 as [|e l1]; cbn in E.
    + injection E as <- <- E2. rewrite N. f_equal. destruct T; [discriminate| |]; injection E2; congruence.
    + injection E as _ E2. eapply IH; eauto.
Qed.
Lemma filter_quiet a m : adds_of a m = 0 -> instants a m = [] -> filter (about a) m = [].
Proof.
  unfold adds_of. induction m as [|[t b|t b o] m IH]; cbn; auto.
  - destruct (Nat.eqb a b); cbn; [discriminate|auto].
  - rewrite (Nat.eqb_sym a b). destruct (Nat.eqb b a); cbn; [discriminate|auto].
Qed.
Lemma adds_of_app a l1 l2 : adds_of a (l1 ++ l2) = adds_of a l1 + adds_of a l2.
Proof. unfold adds_of. now rewrite filter_app, app_length. Qed.
Lemma adds_of_none a l : (forall t b, ~ In (EvAdd t b) l) -> adds_of a l = 0.
Proof.
  intros H. unfold adds_of. induction l as [|[t b|t b o] l IH]; cbn; auto.
  - destruct (H t b). now left.
  - apply IH. intros t' b' I. apply (H t' b'). now right.
Qed.
Lemma adds_of_population a l : NoDup l -> In a l -> adds_of a (map (EvAdd (Fin 0)) l) = 1.
Proof.
  unfold adds_of. induction l as [|b l IH]; intros N I; [contradiction|]. inversion N as [|? ? N1 N2]; subst. cbn.
  destruct (Nat.eqb_spec a b) as [->|NE].
  - cbn. f_equal. clear - N1. induction l as [|c l IH]; auto. cbn. destruct (Nat.eqb_spec b c) as [->|NE]; [destruct N1; now left|].
    apply IH. intros H. apply N1. now right.
  - apply IH; auto. destruct I as [->|I]; auto. now contradict NE.
Qed.

Lemma sorted_before (R : ev -> ev -> Prop) x e y f : StronglySorted R (x ++ e :: y) -> In f x -> R f e.
Proof.
  induction x as [|g x IH]; intros H I; [contradiction|]. cbn in H. inversion H as [|? ? H1 H2]; subst.
  destruct I as [->|I]; auto. rewrite Forall_forall in H2. apply H2, in_or_app. right. now left.
Qed.

(** The position of the second activation. *)
Lemma timely_window one event d k l1 t' l2 : (0 < one)%Z -> (0 < event)%Z ->
  timely one event d k = l1 ++ Fin event :: t' :: l2 -> l1 = [Fin 0] /\ t' = Fin (event + one).
Proof.
  intros O Ev. unfold timely. replace (wait event d) with event by (unfold wait; destruct (Z.eqb_spec event 0); auto; lia).
  destruct k as [|k]; [destruct l1; discriminate|].
  destruct l1 as [|x l1]; cbn; intros E; injection E as <- E; [lia|].
  assert (l1 = []) as ->.
  { assert (H : nth_error (every event one k) (List.length l1) = Some (Fin event)).
    { rewrite E, nth_error_app2, Nat.sub_diag by lia. reflexivity. }
    unfold every in H. rewrite nth_error_map in H. destruct (nth_error (seq 0 k) (List.length l1)) as [j|] eqn:J; [|discriminate].
    cbn in H. injection H as H. assert (j = List.length l1).
    { assert (L : List.length l1 < k) by (rewrite <- (seq_length k 0); apply nth_error_Some; congruence).
      rewrite (nth_error_nth' _ 0) in J by (rewrite seq_length; lia). rewrite seq_nth in J by lia. injection J as <-. reflexivity. }
    destruct l1; auto. cbn in *. subst j. lia. }
  split; auto. unfold every in E. destruct k as [|[|k]]; cbn [seq map app] in E; try discriminate. injection E as _ <- _. now destruct one.
Qed.

Section Run.
Variables (one event : Z) (factor : Q) (g : aid) (tv : aid -> bool) (nbrs : aid -> list aid) (p_tv p : Q) (draws : nat -> Q).
Notation start := (studio g tv nbrs p_tv p draws, no_cors).
Variables (shuffle : (nat -> Q) -> list aid -> list aid * nat) (sh : bool) (l : list aid) (h : list (cmd (W := fworld bfun brest * cors (frame bfun))))
  (s : sched) (w : fworld bfun brest) (c : cors (frame bfun)) (tr1 m m' : list ev) (t' : num) (og og' : outcome) (a : aid).
Hypothesis fair : forall f l, Permutation l (fst (shuffle f l)).
Hypothesis distinct : NoDup l.
Hypothesis g_in : In g l.
Hypothesis a_in : In a l.
Hypothesis a_g : a <> g.
Hypothesis steps : Forall (fun c => match c with CStep | CRem _ => True | _ => False end) h.
Hypothesis one_pos : (0 < one)%Z.
Hypothesis event_pos : (0 < event)%Z.
Let tr := tr1 ++ EvAct (Fin event) g og :: m ++ EvAct t' g og' :: m'.
Hypothesis run : run_hist (broadcast_user one event factor shuffle) (map (fun a => CAdd a None) l ++ h) (timed_init sh (Fin one)) start
  = (s, (w, c), tr).
Hypothesis consecutive : instants g m = [].
Hypothesis neutral : forall t o, In (EvAct t a o) (tr1 ++ m) -> o = Ret None.

Lemma fairly : fair_shuffle (forward_user (broadcast_user one event factor shuffle)).
Proof.
  intros l' x. cbn. specialize (fair (b_draws (fw_rest (fst x))) l'). destruct (shuffle _ l') as [b' k]. exact fair.
Qed.
Lemma window :
  t' = Fin (event + one) /\
  run_hist (forward_user (broadcast_user one event factor shuffle)) (map (fun a => CAdd a None) l ++ h) (timed_init sh (Fin one)) start
    = (s, (w, c), tr) /\ no_exc tr /\
  adds_of g tr1 = 1 /\ adds_of a tr1 = 1 /\ adds_of a m = 0 /\
  next_due (Fin one) (Fin event) og = Some (Fin (event + one)) /\ paced (Fin one) one a (tr1 ++ m).
Proof.
  destruct (broadcast_facts one event one factor g tv nbrs p_tv p draws s w tr shuffle sh l h c fair distinct g_in steps run
    one_pos one_pos ltac:(lia)) as ((n & I & _) & RF & NE & tr3 & E3 & NA).
  assert (TW : instants g tr1 = [Fin 0] /\ t' = Fin (event + one)).
  { apply (timely_window one event one n _ _ (instants g m') one_pos event_pos). rewrite <- I. unfold tr.
    rewrite instants_app. cbn. rewrite Nat.eqb_refl, instants_app, consecutive. cbn. rewrite Nat.eqb_refl. reflexivity. }
  destruct TW as [I1 ET].
  assert (K : forall (ad x : list ev) e y q, (forall t b, e <> EvAdd t b) -> Forall (fun e => exists t b, e = EvAdd t b) ad ->
    x ++ e :: y = ad ++ q -> exists r, x = ad ++ r /\ q = r ++ e :: y).
  { clear. induction ad as [|f ad IH]; intros x e y q N F E.
    - exists x. auto.
    - inversion F as [|? ? (t & b & ->) F2]; subst. destruct x as [|f x]; cbn in E; injection E as E1 E2.
      + exfalso. exact (N _ _ E1).
      + subst f. destruct (IH x e y q N F2 E2) as (r & -> & ->). exists r. auto. }
  destruct (K (map (EvAdd (Fin 0)) l) tr1 (EvAct (Fin event) g og) (m ++ EvAct t' g og' :: m') tr3) as (r & Er & E4).
  { discriminate. }
  { apply Forall_forall. intros e J. apply in_map_iff in J. destruct J as (b & <- & _). eauto. }
  { exact E3. }
  assert (AD : forall b, In b l -> adds_of b tr1 = 1 /\ adds_of b m = 0 /\ adds_of b (EvAct (Fin event) g og :: m ++ EvAct t' g og' :: m') = 0).
  { intros b Ib. subst tr3. rewrite Er, adds_of_app, (adds_of_population b l distinct Ib).
    assert (IN : forall e, In e (r ++ EvAct (Fin event) g og :: m ++ EvAct t' g og' :: m') -> forall t c', e <> EvAdd t c')
      by (intros e J t c' ->; exact (NA t c' J)).
    rewrite (adds_of_none b r) by (intros t c' J; refine (IN _ _ t c' eq_refl); apply in_or_app; now left).
    split; [reflexivity|]. split; apply adds_of_none; intros t c' J; refine (IN _ _ t c' eq_refl); apply in_or_app; right; auto.
    right. apply in_or_app. now left. }
  destruct (AD g g_in) as (A1 & A2 & A3). destruct (AD a a_in) as (A4 & A5 & _).
  set (u := forward_user (broadcast_user one event factor shuffle)) in *.
  assert (FO : forward_only u) by apply forward_user_forward.
  repeat (split; [assumption|]). split.
  - destruct (exact_wakeup _ u sh (Fin one) _ _ _ _ _ g FO (fun _ => fairly) (nonneg_fin one ltac:(lia)) RF NE) as (t0 & rest & pend & F1 & TT & _).
    { unfold tr. now rewrite adds_of_app, A1, A3. }
    unfold tr in F1. rewrite filter_app in F1. cbn [filter about] in F1. rewrite Nat.eqb_refl, filter_app, (filter_quiet g m A2 consecutive) in F1.
    cbn [filter about app] in F1. rewrite Nat.eqb_refl in F1. destruct (filter (about g) tr1) as [|e r1]; [discriminate|].
    injection F1 as _ <-. rewrite <- ET. eapply timetable_next; eauto.
  - intros t o J. rewrite (neutral t o J).
    destruct (run_hist_sorted _ u _ FO _ _ _ _ _ RF (winv_init sh (Fin one) (nonneg_fin one ltac:(lia)))) as [F0 SO].
    assert (J1 : In (EvAct t a o) (tr1 ++ EvAct (Fin event) g og :: m)).
    { apply in_app_iff. apply in_app_iff in J. destruct J; [now left|right; now right]. }
    assert (B : n_leb t t' = true).
    { refine (sorted_before (fun e f => n_leb (TurnProofs.ev_time e) (TurnProofs.ev_time f) = true) (tr1 ++ EvAct (Fin event) g og :: m) (EvAct t' g og') m' _ _ J1).
      rewrite <- app_assoc. exact SO. }
    assert (B0 : n_leb (Fin 0) t = true).
    { rewrite Forall_forall in F0. refine (F0 (EvAct t a o) _). unfold tr. rewrite app_comm_cons, app_assoc. apply in_or_app. now left. }
    rewrite ET in B. destruct t; try discriminate. reflexivity.
Qed.

Lemma at_most_two_chances : List.length (instants a m) <= 2.
Proof.
  destruct window as (-> & RF & NE & _ & A2 & A3 & _ & P). rewrite instants_turns.
  eapply turns_shuffled with (u := forward_user (broadcast_user one event factor shuffle)) (d := one) (di := Fin one) (z := event); eauto.
  - apply forward_user_forward.
  - intros _. exact fairly.
  - apply nonneg_fin. lia.
Qed.

Lemma exactly_one_chance : sh = false -> exists x, instants a m = [x].
Proof.
  intros SH. destruct window as (E & RF & NE & A1 & A2 & A3 & N & P). rewrite SH in RF. unfold tr in RF, NE. rewrite E in RF, NE.
  rewrite instants_turns. rewrite instants_turns in consecutive.
  eapply take_turns with (u := forward_user (broadcast_user one event factor shuffle)) (d := one) (di := Fin one) (z := event); eauto.
  - apply forward_user_forward.
  - apply nonneg_fin. lia.
Qed.
End Run.
