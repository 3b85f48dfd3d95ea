From Coq Require Import ZArith List Bool Lia.
From Verif Require Import Num TimedModel TimedSpec TimedProofs DelayModel DelaySpec
  Binary64Model Binary64Proofs.
Import ListNotations.

Section Arith.
Context {AR : Arith}.

Lemma timetable_next di a : forall due tr pend, timetable di a due tr pend ->
  forall pre now o later t clock,
  tr = pre ++ EvAct now a o :: later -> next_due di now o = Some t ->
  match pend with Some p => n_leb clock p = true | None => True end ->
  woken_next_at a t clock later.
Proof.
  induction 1 as [due|due o0 E0|due o0 due' tr pend E0 H IH]; intros pre now o later t clock E ND P.
  - destruct pre; discriminate.
  - destruct pre as [|x [|y pre]]; try discriminate.
    injection E as <- <- <-. congruence.
  - destruct pre as [|x pre].
    + injection E as <- <- <-. assert (due' = t) as <- by congruence.
      inversion H; subst; simpl; auto.
    + injection E as <- E. eapply IH; eauto.
Qed.

Lemma wakeup_after W (u : user W) sh di h w s' w' tr a pre now o later t :
  forward_only u -> (sh = true -> fair_shuffle u) -> nonneg di = true ->
  run_hist u h (timed_init sh di) w = (s', w', tr) -> no_exc tr ->
  adds_of a tr = 1 ->
  filter (about a) tr = pre ++ EvAct now a o :: later ->
  next_due di now o = Some t -> woken_next_at a t (s_time s') later.
Proof.
  intros HF FS D E NE AD F ND.
  destruct (exact_wakeup W u sh di h w s' w' tr a HF FS D E NE AD) as (t0&rest&pend&F2&TT&P).
  rewrite F2 in F. destruct pre as [|x pre]; [discriminate|]. injection F as _ F.
  eapply timetable_next; eauto.
Qed.

Lemma next_due_delay di now d : n_ltb (Fin 0) d = true -> n_eqb (n_add now d) PInf = false ->
  next_due di now (return_delay d) = Some (n_add now d).
Proof.
  intros D NI. unfold next_due, return_delay. rewrite (n_ltb_neq' _ _ D), NI. reflexivity.
Qed.
End Arith.

Lemma next_due_at_exact di (now t : Z) : (now < t)%Z ->
  @next_due exact di (Fin now) (@return_at exact (Fin now) (Fin t)) = Some (Fin t).
Proof.
  intros L. unfold next_due, return_at. cbn.
  destruct (Z.eqb_spec (t + - now) 0); [lia|]. cbn. do 2 f_equal. lia.
Qed.

Lemma next_due_at_float di (now t : Z) : is_float now = true -> is_float t = true ->
  (0 <= now < t)%Z -> (t <= 2 * now)%Z ->
  @next_due binary64 di (Fin now) (@return_at binary64 (Fin now) (Fin t)) = Some (Fin t).
Proof.
  intros FN FT L U. pose proof (at_exact now t FN FT ltac:(lia) ltac:(lia) U) as E.
  pose proof (sterbenz now t FN FT ltac:(lia) ltac:(lia) U) as FD.
  assert (is_float (- now) = true) as FO.
  { apply is_float_iff in FN. apply is_float_iff. rewrite round53_opp, Z.abs_opp. lia. }
  assert (add_float (Fin t) (Fin (- now)) = Fin (t - now)) as E2.
  { unfold add_float. rewrite FT, FO. cbn [andb]. rewrite to_float_id; auto. }
  unfold next_due, return_at. cbn [n_add binary64 n_opp]. rewrite E2 in *.
  cbn [n_eqb]. destruct (Z.eqb_spec (t - now) 0); [lia|].
  rewrite E. reflexivity.
Qed.
