(** Invariants of a world, the registered agents and the agents in the queue of the scheduler. *)
From Coq Require Import ZArith List Bool Arith Lia.
From Verif Require Import Num TimedModel.
Import ListNotations.

Section Inv.
Context {AR : Arith} {X : Type}.
Variable u : user X.
(** [I reg x]: the invariant; [Q x a]: the agent may be in the queue. *)
Variable I : list aid -> X -> Prop.
Variable Q : X -> aid -> Prop.

Definition step_inv : Prop := forall s a x x' ops o, I (s_reg s) x -> Q x a -> u_step u s a x = (x', ops, o) ->
  I (s_reg (fst (run_ops s ops))) x' /\ (forall b, Q x b -> Q x' b) /\ (forall b t, In (SAdd b t) ops -> Q x' b).
Definition shuffle_inv : Prop := forall l reg x x' l', I reg x -> u_shuffle u l x = (x', l') ->
  I reg x' /\ (forall b, Q x b -> Q x' b) /\ incl l' l.
Hypothesis HS : step_inv.
Hypothesis HF : shuffle_inv.

Definition queued (s : sched) (x : X) : Prop := forall t b a, In (t, b) (s_queue s) -> In a b -> Q x a.
Definition inv (s : sched) (x : X) : Prop := I (s_reg s) x /\ queued s x.

Lemma insert_bucket_In q t c : forall t' b a, In (t', b) (insert_bucket q t c) -> In a b ->
  a = c \/ exists t'' b', In (t'', b') q /\ In a b'.
Proof.
  induction q as [|[t1 b1] q IH]; cbn [insert_bucket fst snd]; intros t' b a H J.
  - destruct H as [H|[]]. injection H as <- <-. destruct J as [J|[]]; auto.
  - destruct (n_eqb t1 t).
    + destruct H as [H|H].
      * injection H as <- <-. apply in_app_or in J. destruct J as [J|[J|[]]]; auto.
        right. exists t1, b1. split; [left|]; auto.
      * right. exists t', b. split; [right|]; auto.
    + destruct (n_ltb t t1).
      * destruct H as [H|H]; [injection H as <- <-; destruct J as [J|[]]; auto|].
        right. exists t', b. auto.
      * destruct H as [H|H].
        { injection H as <- <-. right. exists t1, b1. split; [left|]; auto. }
        destruct (IH _ _ _ H J) as [E|(t2 & b2 & A & B)]; auto.
        right. exists t2, b2. split; [right|]; auto.
Qed.
Lemma schedule_queued s x a t : queued s x -> Q x a -> queued (timed_schedule s a t) x.
Proof.
  intros H A t' b c J K. cbn in J.
  destruct (insert_bucket_In _ _ _ _ _ _ J K) as [->|(t2 & b2 & J2 & K2)]; auto. eapply H; eauto.
Qed.
Lemma run_ops_queued ops x : forall s s' tr, run_ops s ops = (s', tr) -> queued s x ->
  (forall b t, In (SAdd b t) ops -> Q x b) -> queued s' x.
Proof.
  induction ops as [|op ops IH]; cbn [run_ops]; intros s s' tr E H A.
  - now injection E as <- <-.
  - destruct (run_op s op) as [s1 e1] eqn:E1. destruct (run_ops s1 ops) as [s2 e2] eqn:E2.
    injection E as <- <-. eapply IH; eauto.
    + destruct op as [b t|b]; cbn in E1; injection E1 as <- <-.
      * unfold timed_add, reg_add. assert (X0 : queued (timed_schedule s b None) x).
        { apply schedule_queued; auto. apply (A b t). now left. }
        destruct (existsb _ _); exact X0.
      * exact H.
    + intros b t J. apply (A b t). now right.
Qed.
Lemma queued_mono s x x' : (forall b, Q x b -> Q x' b) -> queued s x -> queued s x'.
Proof. intros M H t b a J K. eauto. Qed.

Lemma bucket_inv b : forall now s x s' x' tr e, inv s x -> (forall a, In a b -> Q x a) ->
  run_bucket u now b s x = (s', x', tr, e) -> inv s' x'.
Proof.
  induction b as [|a b IH]; cbn [run_bucket]; intros now s x s' x' tr e [H1 H2] B E.
  - injection E as <- <- <- <-. split; auto.
  - destruct (u_step u s a x) as [[x1 ops] o] eqn:E1.
    destruct (HS _ _ _ _ _ _ H1 (B a (or_introl eq_refl)) E1) as (J1 & J2 & J3).
    destruct (run_ops s ops) as [s1 tr1] eqn:E2. cbn [fst] in J1.
    assert (V : inv s1 x1).
    { split; auto. eapply run_ops_queued; eauto. eapply queued_mono; eauto. }
    assert (B' : forall c, In c b -> Q x1 c) by (intros c Hc; apply J2, B; now right).
    destruct o as [d| |].
    + set (s2 := if negb _ then _ else _) in E.
      destruct (run_bucket u now b s2 x1) as [[[s3 x3] tr3] e3] eqn:E3. injection E as <- <- <- <-.
      eapply (IH now s2); eauto. subst s2. destruct (negb _); auto. destruct V as [V1 V2]. split; auto.
      apply schedule_queued; auto. apply J2, B. now left.
    + destruct (run_bucket u now b s1 x1) as [[[s3 x3] tr3] e3] eqn:E3. injection E as <- <- <- <-.
      eapply (IH now s1); eauto.
    + now injection E as <- <- <- <-.
Qed.
Lemma tstep_inv s x s' x' tr e : inv s x -> timed_step u s x = (s', x', tr, e) -> inv s' x'.
Proof.
  intros [H1 H2] E. unfold timed_step in E. destruct (s_queue s) as [|[t b] q] eqn:EQ.
  { injection E as <- <- <- <-. split; auto. }
  destruct (n_ltb _ t). { injection E as <- <- <- <-. split; auto. }
  assert (S0 : exists x0 b0, (if s_shuffle s then u_shuffle u b x else (x, b)) = (x0, b0) /\
    I (s_reg s) x0 /\ (forall a, Q x a -> Q x0 a) /\ incl b0 b).
  { destruct (s_shuffle s).
    - destruct (u_shuffle u b x) as [x0 b0] eqn:ES. exists x0, b0. split; [auto|eapply HF; eauto].
    - exists x, b. split; auto. split; auto. split; auto. apply incl_refl. }
  destruct S0 as (x0 & b0 & S0 & J1 & J2 & J3). rewrite S0 in E.
  destruct (run_bucket u (s_time s) b0 _ x0) as [[[s1 x1] tr1] e1] eqn:E1.
  assert (V : inv s1 x1).
  { eapply bucket_inv; [| |exact E1].
    - split; auto. intros t' b' a J K. cbn in J. apply J2. apply (H2 t' b'); auto. rewrite EQ. now right.
    - intros a J. apply J2. apply (H2 t b); auto. rewrite EQ. now left. }
  destruct e1; injection E as <- <- <- <-; auto.
  destruct V as [V1 V2]. unfold set_steps. cbn [s_queue]. destruct (s_queue s1) as [|[t1 b1] q1] eqn:EQ1; (split; [exact V1|]).
  - intros t' b' a J K. destruct J.
  - intros t0 b2 a J K. apply (V2 t0 b2); auto. rewrite EQ1. exact J.
Qed.
Lemma steps_inv n : forall s x s' x' tr, inv s x -> run_hist u (repeat CStep n) s x = (s', x', tr) -> inv s' x'.
Proof.
  induction n as [|n IH]; cbn [repeat run_hist run_cmd]; intros s x s' x' tr V E.
  - now injection E as <- <- <-.
  - destruct (timed_step u s x) as [[[s1 x1] tr1] e1] eqn:E1.
    destruct (run_hist u (repeat CStep n) s1 x1) as [[s2 x2] tr2] eqn:E2. injection E as <- <- <-.
    exact (IH _ _ _ _ _ (tstep_inv _ _ _ _ _ _ V E1) E2).
Qed.
End Inv.
