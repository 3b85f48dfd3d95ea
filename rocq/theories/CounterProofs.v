(** Proofs about CounterModel. *)
From Coq Require Import ZArith List Bool Arith Lia Permutation.
From Verif Require Import Num TimedModel CounterModel CounterSpec.
Import ListNotations.

Lemma activated_app a t1 t2 : activated a (t1 ++ t2) = activated a t1 + activated a t2.
Proof. induction t1 as [|[|] t1 IH]; simpl; auto. lia. Qed.

(** What activations do to one agent: [n] of them, with [k] neighbours and [m] agents. *)
Definition counted (c : counter) (n k m : nat) (x y : nat * nat * nat) : Prop :=
  let '(t, b, l) := x in let '(t', b', l') := y in
  match c with
  | Bass => t' = t /\ b' = b /\ l' = l
  | Ticker => t' = t + n /\ b' = b /\ l' = l
  | Counter => t' = t + n /\ b' = (if Nat.eqb n 0 then b else k) /\ l' = (if Nat.eqb n 0 then l else m)
  | Aggregated => t' = t + n /\ b' = b + n * k /\ l' = l + n * m
  end.
Definition attrs (w : cworld) (a : aid) : nat * nat * nat := (cw_times w a, cw_neighbors w a, cw_total w a).
Definition nb (reg : list aid) (w : cworld) (a : aid) : nat :=
  List.length (filter (fun b => existsb (Nat.eqb b) (cw_nbrs w a)) reg).
Record rel (reg : list aid) (w : cworld) (tr : list ev) (w' : cworld) : Prop := {
  r_class : cw_class w' = cw_class w;
  r_nbrs : cw_nbrs w' = cw_nbrs w;
  r_attrs : forall a, counted (cw_class w a) (activated a tr) (nb reg w a) (List.length reg) (attrs w a) (attrs w' a);
  r_out : forall t a o, In (EvAct t a o) tr -> o = match cw_class w a with Bass => Exc | _ => Ret None end }.

Lemma rel_refl reg w : rel reg w [] w.
Proof.
  split; auto; [|intros ? ? ? []]. intros a. unfold counted, attrs. cbn. destruct (cw_class w a); repeat split; lia.
Qed.
Lemma counted_trans c n1 n2 k m x y z : counted c n1 k m x y -> counted c n2 k m y z -> counted c (n1 + n2) k m x z.
Proof.
  destruct x as [[t b] l], y as [[t' b'] l'], z as [[t2 b2] l2]. unfold counted.
  destruct c; intros (-> & -> & ->) (-> & -> & ->); repeat split; try lia;
    destruct n1, n2; cbn; auto.
Qed.
Lemma rel_trans reg w t1 w1 t2 w2 : rel reg w t1 w1 -> rel reg w1 t2 w2 -> rel reg w (t1 ++ t2) w2.
Proof.
  intros [A1 A2 A3 A4] [B1 B2 B3 B4]. split; [congruence|congruence| |].
  - intros a. rewrite activated_app. eapply counted_trans; eauto. specialize (B3 a).
    rewrite A1 in B3. unfold nb in *. now rewrite A2 in B3.
  - intros t a o I. apply in_app_or in I. destruct I as [I|I]; [eauto|]. apply B4 in I. now rewrite A1 in I.
Qed.

Lemma step_rel s a w w' ops o t : normal_step s a w = (w', ops, o) ->
  ops = [] /\ rel (s_reg s) w [EvAct t a o] w'.
Proof.
  unfold normal_step. intros E.
  destruct (cw_class w a) eqn:C; injection E as <- <- <-; (split; [reflexivity|split; [reflexivity|reflexivity| |]]).
  all: try (intros t0 a0 o0 [I|[]]; injection I as <- <- <-; now rewrite C).
  all: intros b; cbn [activated]; unfold attrs, ticker_step, counter_step, aggregated_step, set_at, get_neighbors, nb; cbn.
  all: unfold set_at; destruct (Nat.eq_dec b a) as [->|NE];
    [rewrite ?Nat.eqb_refl, C|apply Nat.eqb_neq in NE; rewrite ?NE; destruct (cw_class w b)]; cbn; auto; try (repeat split; lia).
Qed.

Lemma schedule_reg s a t : s_reg (timed_schedule s a t) = s_reg s.
Proof. reflexivity. Qed.

Section Hist.
Context {AR : Arith}.
Variable shuffle : list aid -> list aid.
Notation u := (counter_user shuffle).

Lemma bucket_rel now l : forall s w s' w' tr x, run_bucket u now l s w = (s', w', tr, x) ->
  s_reg s' = s_reg s /\ rel (s_reg s) w tr w'.
Proof.
  induction l as [|a l IH]; intros s w s' w' tr x E; cbn [run_bucket] in E.
  - injection E as <- <- <- <-. split; auto. apply rel_refl.
  - cbn [u_step counter_user] in E. destruct (normal_step s a w) as [[w1 ops] o] eqn:N.
    destruct (step_rel _ _ _ _ _ _ now N) as [-> R]. cbn [run_ops] in E.
    destruct o as [r| |].
    + set (s2 := if negb _ then _ else _) in E.
      assert (Rg : s_reg s2 = s_reg s) by (subst s2; destruct (negb _); reflexivity).
      destruct (run_bucket u now l s2 w1) as [[[s3 w3] tr3] x3] eqn:B. injection E as <- <- <- <-.
      destruct (IH _ _ _ _ _ _ B) as [E1 E2]. split; [congruence|]. rewrite Rg in E2.
      exact (rel_trans _ _ _ _ _ _ R E2).
    + destruct (run_bucket u now l s w1) as [[[s3 w3] tr3] x3] eqn:B. injection E as <- <- <- <-.
      destruct (IH _ _ _ _ _ _ B) as [E1 E2]. split; [congruence|]. exact (rel_trans _ _ _ _ _ _ R E2).
    + injection E as <- <- <- <-. split; auto.
Qed.

Lemma tstep_rel s w s' w' tr x : timed_step u s w = (s', w', tr, x) -> s_reg s' = s_reg s /\ rel (s_reg s) w tr w'.
Proof.
  unfold timed_step. intros E. destruct (s_queue s) as [|[t b] q].
  { injection E as <- <- <- <-. split; auto. apply rel_refl. }
  destruct (n_ltb _ t). { injection E as <- <- <- <-. split; auto. apply rel_refl. }
  assert (X : exists b0, (if s_shuffle s then u_shuffle u b w else (w, b)) = (w, b0)).
  { destruct (s_shuffle s); cbn; eauto. }
  destruct X as [b0 X]. rewrite X in E.
  destruct (run_bucket u (s_time s) b0 (set_queue s q) w) as [[[s1 w1] tr1] x1] eqn:B.
  destruct (bucket_rel _ _ _ _ _ _ _ _ B) as [E1 E2]. cbn in E1, E2.
  destruct x1; injection E as <- <- <- <-; split; auto. cbn. destruct (s_queue s1) as [|[? ?] ?]; auto.
Qed.

(** The counts that do not depend on the other agents. *)
Record rel0 (w : cworld) (tr : list ev) (w' : cworld) : Prop := {
  r0_class : cw_class w' = cw_class w;
  r0_nbrs : cw_nbrs w' = cw_nbrs w;
  r0_times : forall a, cw_times w' a = cw_times w a + match cw_class w a with Bass => 0 | _ => activated a tr end;
  r0_out : forall t a o, In (EvAct t a o) tr -> o = match cw_class w a with Bass => Exc | _ => Ret None end }.
Lemma rel0_of reg w tr w' : rel reg w tr w' -> rel0 w tr w'.
Proof.
  intros [A1 A2 A3 A4]. split; auto. intros a. specialize (A3 a). unfold counted, attrs in A3.
  destruct (cw_class w a); destruct A3 as (A & _); lia.
Qed.
Lemma hist_rel0 h : forall s w s' w' tr, hands_off h -> run_hist u h s w = (s', w', tr) -> rel0 w tr w'.
Proof.
  induction h as [|c h IH]; intros s w s' w' tr Ho E; cbn [run_hist] in E.
  - injection E as <- <- <-. eapply rel0_of. apply (rel_refl [] w).
  - destruct (run_cmd u s w c) as [[s1 w1] tr1] eqn:C. destruct (run_hist u h s1 w1) as [[s2 w2] tr2] eqn:H.
    injection E as <- <- <-. apply IH in H; [|intros f I; apply (Ho f); now right].
    assert (R : rel0 w tr1 w1).
    { destruct c; cbn [run_cmd] in C.
      - destruct (timed_step u s w) as [[[s3 w3] tr3] x3] eqn:T. injection C as <- <- <-.
        eapply rel0_of, tstep_rel; eauto.
      - destruct (run_op s (SAdd a when)) as [s3 tr3] eqn:O. injection C as <- <- <-. injection O as <- <-.
        split; auto; [|intros ? ? ? [I|[]]; discriminate I]. intros b. cbn. destruct (cw_class w b); lia.
      - injection C as <- <- <-. split; auto; [|intros ? ? ? []]. intros b. cbn. destruct (cw_class w b); lia.
      - destruct (Ho f). now left. }
    destruct R as [A1 A2 A3 A4], H as [B1 B2 B3 B4]. split; [congruence|congruence| |].
    + intros a. rewrite B3, A3, A1, activated_app. destruct (cw_class w a); lia.
    + intros t a o I. apply in_app_or in I. destruct I as [I|I]; [eauto|]. apply B4 in I. now rewrite A1 in I.
Qed.

Lemma steps_rel n : forall s w s' w' tr, run_hist u (repeat CStep n) s w = (s', w', tr) ->
  s_reg s' = s_reg s /\ rel (s_reg s) w tr w'.
Proof.
  induction n as [|n IH]; intros s w s' w' tr E; cbn [run_hist repeat run_cmd] in E.
  - injection E as <- <- <-. split; auto. apply rel_refl.
  - destruct (timed_step u s w) as [[[s1 w1] tr1] x] eqn:T.
    destruct (run_hist u (repeat CStep n) s1 w1) as [[s2 w2] tr2] eqn:H. injection E as <- <- <-.
    apply tstep_rel in T. destruct T as [T1 T2]. apply IH in H. destruct H as [H1 H2]. split; [congruence|].
    eapply rel_trans; eauto. now rewrite T1 in H2.
Qed.
End Hist.

Lemma nb_common reg w a l : NoDup reg -> common (cw_nbrs w a) reg l -> nb reg w a = List.length l.
Proof.
  intros N [Nl C]. unfold nb. apply Permutation_length, NoDup_Permutation; auto.
  - now apply NoDup_filter.
  - intros b. rewrite filter_In, C, existsb_exists. split.
    + intros (I & x & Ix & Ex). apply Nat.eqb_eq in Ex. subst. auto.
    + intros [I1 I2]. split; auto. exists b. split; auto. apply Nat.eqb_refl.
Qed.

(** Theorems. *)
Lemma times_counted (AR : Arith) shuffle h s w s' w' tr : hands_off h ->
  run_hist (counter_user shuffle) h s w = (s', w', tr) ->
  forall a, cw_class w a <> Bass -> cw_times w' a = cw_times w a + activated a tr.
Proof.
  intros Ho E a NB. destruct (hist_rel0 shuffle h s w s' w' tr Ho E) as [_ _ T _]. rewrite T.
  destruct (cw_class w a); auto. now destruct NB.
Qed.
Lemma bass_raises (AR : Arith) shuffle h s w s' w' tr : hands_off h ->
  run_hist (counter_user shuffle) h s w = (s', w', tr) ->
  forall t a o, cw_class w a = Bass -> In (EvAct t a o) tr -> o = Exc.
Proof.
  intros Ho E t a o B I. destruct (hist_rel0 shuffle h s w s' w' tr Ho E) as [_ _ _ O]. apply O in I. now rewrite B in I.
Qed.
Lemma neighbours_counted (AR : Arith) shuffle n s w s' w' tr : NoDup (s_reg s) ->
  run_hist (counter_user shuffle) (repeat CStep n) s w = (s', w', tr) ->
  forall a l, common (cw_nbrs w a) (s_reg s) l ->
  (cw_class w a = Counter -> 0 < activated a tr ->
     cw_neighbors w' a = List.length l /\ cw_total w' a = List.length (s_reg s)) /\
  (cw_class w a = Aggregated ->
     cw_neighbors w' a = cw_neighbors w a + activated a tr * List.length l /\
     cw_total w' a = cw_total w a + activated a tr * List.length (s_reg s)) /\
  (cw_class w a = Counter -> activated a tr = 0 ->
     cw_neighbors w' a = cw_neighbors w a /\ cw_total w' a = cw_total w a).
Proof.
  intros N E a l C. destruct (steps_rel shuffle n s w s' w' tr E) as (_ & [_ _ A _]). specialize (A a).
  rewrite (nb_common _ _ _ _ N C) in A. unfold counted, attrs in A. split; [|split]; intros K; rewrite K in A.
  - intros P. destruct (activated a tr) as [|k] eqn:Q; [lia|]. cbn in A. tauto.
  - tauto.
  - intros P. rewrite P in A. cbn in A. tauto.
Qed.
