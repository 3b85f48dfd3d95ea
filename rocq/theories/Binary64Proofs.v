(** The addition of floats is monotone: an instance of [Arith]. *)
From Coq Require Import ZArith List Bool Lia.
From Verif Require Import Num Binary64Model.
Import ListNotations.
Local Open Scope Z_scope.

Lemma add_float_comm x y : add_float x y = add_float y x.
Proof.
  destruct x, y; simpl; auto. rewrite Z.add_comm, andb_comm. reflexivity.
Qed.

(** Two neighbouring floats with the exponent of [z] enclose the rounded value. *)
Lemma round_abs_cases z : 0 <= z -> 0 < Z.log2 z - 52 ->
  exists q, q = z / 2 ^ (Z.log2 z - 52) /\ 2 ^ 52 <= q < 2 ^ 53 /\
  q * 2 ^ (Z.log2 z - 52) <= z < (q + 1) * 2 ^ (Z.log2 z - 52) /\
  (round_abs z = q * 2 ^ (Z.log2 z - 52) \/ round_abs z = (q + 1) * 2 ^ (Z.log2 z - 52)) /\
  (z = q * 2 ^ (Z.log2 z - 52) -> round_abs z = z).
Proof.
  intros Z0 SH. set (sh := Z.log2 z - 52) in *.
  assert (0 < 2 ^ sh) as P by (apply Z.pow_pos_nonneg; lia).
  assert (0 < z) as ZP. { destruct (Z.eq_dec z 0) as [->|]; [simpl in sh; unfold sh in SH; simpl in SH; lia|lia]. }
  pose proof (Z.log2_spec z ZP) as L.
  pose proof (Z.div_mod z (2 ^ sh) ltac:(lia)) as DM.
  pose proof (Z.mod_pos_bound z (2 ^ sh) P) as MB.
  exists (z / 2 ^ sh). split; auto.
  assert (Z.log2 z = 52 + sh) as LE by lia.
  split.
  { rewrite LE in L. rewrite <- Z.add_succ_l, !Z.pow_add_r in L by lia.
    change (2 ^ Z.succ 52) with (2 ^ 53) in L. split.
    - apply Z.div_le_lower_bound; lia.
    - apply Z.div_lt_upper_bound; lia. }
  split; [lia|]. unfold round_abs. fold sh.
  destruct (Z.leb_spec sh 0); [lia|]. split.
  - destruct (if _ <? _ then _ else _); auto.
  - intros E. assert (z mod 2 ^ sh = 0) as -> by lia.
    assert (0 < 2 ^ (sh - 1)) by (apply Z.pow_pos_nonneg; lia).
    destruct (Z.ltb_spec 0 (2 ^ (sh - 1))); lia.
Qed.

Lemma round_abs_small z : Z.log2 z <= 52 -> round_abs z = z.
Proof. intros H. unfold round_abs. destruct (Z.leb_spec (Z.log2 z - 52) 0); lia. Qed.

(** A float with the exponent of [z] is one of the multiples. *)
Lemma round_abs_fix x : 0 <= x -> 0 < Z.log2 x - 52 -> round_abs x = x ->
  exists k, x = k * 2 ^ (Z.log2 x - 52).
Proof.
  intros X SH E. destruct (round_abs_cases x X SH) as (q&_&_&_&[R|R]&_);
    rewrite E in R; eauto.
Qed.

(** Rounding up does not cross a float. *)
Lemma round_abs_lower x z : 0 <= x -> x <= z -> round_abs x = x -> x <= round_abs z.
Proof.
  intros X L E. destruct (Z.le_gt_cases (Z.log2 z) 52) as [S|S].
  { rewrite round_abs_small; auto. }
  destruct (round_abs_cases z ltac:(lia) ltac:(lia)) as (q&_&Q&B&R&_).
  set (sh := Z.log2 z - 52) in *.
  assert (0 < 2 ^ sh) as P by (apply Z.pow_pos_nonneg; lia).
  assert (q * 2 ^ sh <= round_abs z) as GE by (destruct R as [->| ->]; lia).
  enough (x <= q * 2 ^ sh) by lia.
  pose proof (Z.log2_le_mono x z L) as LM.
  destruct (Z.eq_dec (Z.log2 x) (Z.log2 z)) as [EQ|NE].
  - destruct (round_abs_fix x X ltac:(lia) E) as [k K]. rewrite EQ in K. fold sh in K.
    assert (k < q + 1) by (apply (Z.mul_lt_mono_pos_r (2 ^ sh)); lia).
    rewrite K. apply Z.mul_le_mono_nonneg_r; lia.
  - assert (x < 2 ^ Z.log2 z).
    { destruct (Z.eq_dec x 0) as [->|]; [apply Z.pow_pos_nonneg; lia|].
      apply Z.lt_le_trans with (2 ^ Z.succ (Z.log2 x)); [apply Z.log2_spec; lia|].
      apply Z.pow_le_mono_r; lia. }
    assert (2 ^ Z.log2 z = 2 ^ 52 * 2 ^ sh) as PE by (rewrite <- Z.pow_add_r by lia; f_equal; lia).
    apply Z.le_trans with (2 ^ 52 * 2 ^ sh); [lia|].
    apply Z.mul_le_mono_nonneg_r; lia.
Qed.

Lemma round_abs_upper x z : 0 <= z -> z <= x -> round_abs x = x -> round_abs z <= x.
Proof.
  intros X L E. destruct (Z.eq_dec z x) as [->|NZ]; [lia|].
  destruct (Z.le_gt_cases (Z.log2 z) 52) as [S|S].
  { rewrite round_abs_small; auto. }
  destruct (round_abs_cases z ltac:(lia) ltac:(lia)) as (q&_&Q&B&R&_).
  set (sh := Z.log2 z - 52) in *.
  assert (0 < 2 ^ sh) as P by (apply Z.pow_pos_nonneg; lia).
  assert (round_abs z <= (q + 1) * 2 ^ sh) as GE by (destruct R as [->| ->]; lia).
  enough ((q + 1) * 2 ^ sh <= x) by lia.
  pose proof (Z.log2_le_mono z x L) as LM.
  destruct (Z.eq_dec (Z.log2 x) (Z.log2 z)) as [EQ|NE].
  - destruct (round_abs_fix x ltac:(lia) ltac:(lia) E) as [k K]. rewrite EQ in K. fold sh in K.
    assert (q < k) by (apply (Z.mul_lt_mono_pos_r (2 ^ sh)); lia).
    rewrite K. apply Z.mul_le_mono_nonneg_r; lia.
  - assert (2 ^ Z.succ (Z.log2 z) <= x).
    { apply Z.le_trans with (2 ^ Z.log2 x); [apply Z.pow_le_mono_r; lia|].
      apply Z.log2_spec; lia. }
    assert (2 ^ Z.succ (Z.log2 z) = 2 ^ 53 * 2 ^ sh) as PE
      by (rewrite <- Z.pow_add_r by lia; f_equal; lia).
    apply Z.le_trans with (2 ^ 53 * 2 ^ sh); [|lia].
    apply Z.mul_le_mono_nonneg_r; lia.
Qed.

Lemma round_abs_nonneg z : 0 <= z -> 0 <= round_abs z.
Proof. intros. apply round_abs_lower; auto. lia. Qed.

(** Rounding preserves the order with respect to a float. *)
Lemma round53_lower x z : x <= z -> round53 x = x -> x <= round53 z.
Proof.
  unfold round53. intros L. destruct (Z.ltb_spec x 0), (Z.ltb_spec z 0); intros E.
  - pose proof (round_abs_upper (- x) (- z) ltac:(lia) ltac:(lia) ltac:(lia)). lia.
  - pose proof (round_abs_nonneg z ltac:(lia)). lia.
  - lia.
  - apply round_abs_lower; auto.
Qed.

Lemma round53_opp z : round53 (- z) = - round53 z.
Proof.
  unfold round53. destruct (Z.ltb_spec z 0), (Z.ltb_spec (- z) 0); try lia.
  - rewrite Z.opp_involutive. lia.
  - assert (z = 0) as -> by lia. reflexivity.
Qed.

Lemma round53_upper x z : z <= x -> round53 x = x -> round53 z <= x.
Proof.
  intros L E. pose proof (round53_lower (- x) (- z) ltac:(lia)
    ltac:(rewrite round53_opp; lia)) as H. rewrite round53_opp in H. lia.
Qed.

Lemma overflow_float : round53 overflow = overflow.
Proof. vm_compute. reflexivity. Qed.

Lemma overflow_pos : 0 < overflow.
Proof. vm_compute. reflexivity. Qed.

Lemma overflow_eq : overflow = 2 ^ 2098.
Proof. reflexivity. Qed.

#[global] Opaque overflow.

Lemma is_float_iff z : is_float z = true <-> round53 z = z /\ Z.abs z < overflow.
Proof. unfold is_float. rewrite andb_true_iff, Z.eqb_eq, Z.ltb_lt. tauto. Qed.

Lemma add_float_leb x d : is_time x = true -> nonneg d = true -> n_leb x (add_float x d) = true.
Proof.
  intros T D. destruct x as [a| | |], d as [b| | |]; try discriminate; try reflexivity.
  assert (0 <= b) as B.
  { unfold nonneg, n_leb in D. cbn in D. rewrite orb_true_iff, Z.ltb_lt, Z.eqb_eq in D. lia. }
  unfold add_float. destruct (is_float a && is_float b) eqn:F.
  2:{ unfold n_leb; cbn. rewrite orb_true_iff, Z.ltb_lt, Z.eqb_eq. lia. }
  apply andb_true_iff in F. destruct F as [FA _]. apply is_float_iff in FA. destruct FA as [FA FB].
  pose proof (round53_lower a (a + b) ltac:(lia) FA) as L. unfold to_float.
  destruct (Z.leb_spec overflow (round53 (a + b))); [reflexivity|].
  destruct (Z.leb_spec (round53 (a + b)) (- overflow)); [lia|].
  unfold n_leb; cbn. rewrite orb_true_iff, Z.ltb_lt, Z.eqb_eq. lia.
Qed.

Definition binary64 : Arith :=
  {| n_add := add_float; n_add_comm := add_float_comm; n_add_leb := add_float_leb |}.

(** Rounding yields a float, so floats are closed under addition. *)
Lemma pow2_log k : 0 <= k -> Z.log2 (2 ^ k) = k.
Proof. intros; apply Z.log2_pow2; auto. Qed.

Lemma round_abs_idem z : 0 <= z -> round_abs (round_abs z) = round_abs z.
Proof.
  intros Z0. destruct (Z.le_gt_cases (Z.log2 z) 52) as [S|S].
  { rewrite !(round_abs_small z); auto. }
  destruct (round_abs_cases z ltac:(lia) ltac:(lia)) as (q&_&Q&B&R&_).
  set (sh := Z.log2 z - 52) in *.
  assert (0 < 2 ^ sh) as P by (apply Z.pow_pos_nonneg; lia).
  assert (exists k, 2 ^ 52 <= k <= 2 ^ 53 /\ round_abs z = k * 2 ^ sh) as (k&K&->).
  { destruct R as [->| ->]; eexists; split; eauto; lia. }
  assert (0 < 2 ^ 52) by reflexivity.
  assert (0 < k * 2 ^ sh) as KP by lia.
  destruct (Z.eq_dec k (2 ^ 53)) as [->|NK].
  - replace (2 ^ 53 * 2 ^ sh) with (2 ^ 52 * 2 ^ (sh + 1)) in *
      by (replace (sh + 1) with (Z.succ sh) by lia; rewrite Z.pow_succ_r by lia; change (2 ^ 53) with (2 * 2 ^ 52); lia).
    assert (Z.log2 (2 ^ 52 * 2 ^ (sh + 1)) = sh + 53) as LG
      by (rewrite <- Z.pow_add_r, pow2_log by lia; lia).
    destruct (round_abs_cases (2 ^ 52 * 2 ^ (sh + 1)) ltac:(lia) ltac:(lia)) as (q2&Q2&_&_&_&F).
    rewrite LG in *. replace (sh + 53 - 52) with (sh + 1) in * by lia.
    apply F. rewrite Q2, Z.div_mul; auto. apply Z.pow_nonzero; lia.
  - assert (Z.log2 (k * 2 ^ sh) = Z.log2 z) as LG.
    { rewrite Z.log2_mul_pow2 by lia. enough (Z.log2 k = 52) by lia.
      apply Z.log2_unique; [lia|]. change (Z.succ 52) with 53. lia. }
    destruct (round_abs_cases (k * 2 ^ sh) ltac:(lia) ltac:(lia)) as (q2&Q2&_&_&_&F).
    rewrite LG in *. fold sh in F, Q2. apply F. rewrite Q2, Z.div_mul; lia.
Qed.

Lemma round53_idem z : round53 (round53 z) = round53 z.
Proof.
  assert (forall y, 0 <= y -> round53 (round53 y) = round53 y) as K.
  { intros y Y. unfold round53 at 2 3. destruct (Z.ltb_spec y 0); [lia|].
    unfold round53. pose proof (round_abs_nonneg y Y).
    destruct (Z.ltb_spec (round_abs y) 0); [lia|]. apply round_abs_idem; auto. }
  destruct (Z.le_gt_cases 0 z); auto.
  replace z with (- (- z)) by lia. rewrite (round53_opp (- z)), round53_opp, K; lia.
Qed.

Lemma to_float_closed z a : to_float z = Fin a -> is_float a = true.
Proof.
  unfold to_float. destruct (Z.leb_spec overflow (round53 z)); [discriminate|].
  destruct (Z.leb_spec (round53 z) (- overflow)); [discriminate|].
  intros E. injection E as <-. apply is_float_iff. split; [apply round53_idem|lia].
Qed.

Definition float (x : num) : Prop := match x with Fin a => is_float a = true | _ => True end.

Lemma add_float_closed x y : float x -> float y -> float (add_float x y).
Proof.
  destruct x as [a| | |], y as [b| | |]; simpl; auto. intros -> ->. simpl.
  destruct (to_float (a + b)) eqn:E; simpl; auto. eapply to_float_closed; eauto.
Qed.

Lemma to_float_id a : is_float a = true -> to_float a = Fin a.
Proof.
  rewrite is_float_iff. intros [E B]. unfold to_float. rewrite E.
  destruct (Z.leb_spec overflow a); [lia|]. destruct (Z.leb_spec a (- overflow)); [lia|]. reflexivity.
Qed.

(** A multiple of 2^e with at most 53 bits is a float. *)
Lemma is_float_mult k e : 0 <= e -> Z.abs k <= 2 ^ 53 -> Z.abs (k * 2 ^ e) < overflow ->
  is_float (k * 2 ^ e) = true.
Proof.
  intros E K O. apply is_float_iff. split; auto.
  assert (forall k, 0 <= k <= 2 ^ 53 -> round_abs (k * 2 ^ e) = k * 2 ^ e) as A.
  { clear k K O. intros k K. destruct (Z.eq_dec k 0) as [->|NK]; [reflexivity|].
    assert (0 < 2 ^ e) as P by (apply Z.pow_pos_nonneg; lia).
    destruct (Z.le_gt_cases (Z.log2 (k * 2 ^ e)) 52) as [S|S]; [apply round_abs_small; auto|].
    assert (exists k' e', 0 <= e' /\ 0 < k' < 2 ^ 53 /\ k * 2 ^ e = k' * 2 ^ e') as (k'&e'&E'&K'&EQ).
    { destruct (Z.eq_dec k (2 ^ 53)) as [->|].
      - exists (2 ^ 52), (e + 1). split; [lia|]. split; [split; reflexivity|].
        replace (e + 1) with (Z.succ e) by lia. rewrite Z.pow_succ_r by lia.
        change (2 ^ 53) with (2 * 2 ^ 52). lia.
      - exists k, e. repeat split; auto; lia. }
    rewrite EQ in *. clear k e EQ K NK E P.
    assert (0 < 2 ^ e') as P by (apply Z.pow_pos_nonneg; lia).
    assert (0 < k' * 2 ^ e') as KP by lia.
    destruct (round_abs_cases (k' * 2 ^ e') ltac:(lia) ltac:(lia)) as (q&Q&_&_&_&F).
    apply F. rewrite Q. rewrite Z.log2_mul_pow2 in * by lia.
    assert (Z.log2 k' <= 52). { enough (Z.log2 k' < 53) by lia. apply Z.log2_lt_pow2; lia. }
    set (sh := e' + Z.log2 k' - 52) in *.
    replace (2 ^ e') with (2 ^ (e' - sh) * 2 ^ sh) by (rewrite <- Z.pow_add_r by lia; f_equal; lia).
    rewrite Z.mul_assoc, Z.div_mul; auto. apply Z.pow_nonzero; lia. }
  unfold round53. destruct (Z.ltb_spec (k * 2 ^ e) 0).
  - assert (0 < 2 ^ e) by (apply Z.pow_pos_nonneg; lia).
    replace (- (k * 2 ^ e)) with ((- k) * 2 ^ e) by lia. rewrite A; [lia|]. lia.
  - assert (0 < 2 ^ e) by (apply Z.pow_pos_nonneg; lia). apply A. split; [|lia].
    apply Z.mul_nonneg_cancel_r in H; lia.
Qed.

(** The shape of a non-negative float. *)
Lemma float_shape a : 0 <= a -> round53 a = a -> exists k e, 0 <= e /\ 0 <= k < 2 ^ 53 /\ a = k * 2 ^ e /\
  (e = 0 \/ 2 ^ 52 <= k).
Proof.
  intros A E. unfold round53 in E. destruct (Z.ltb_spec a 0); [lia|].
  destruct (Z.le_gt_cases (Z.log2 a) 52) as [S|S].
  - exists a, 0. split; [lia|]. split; [|split; [lia|auto]]. split; auto.
    destruct (Z.eq_dec a 0) as [->|]; [reflexivity|].
    apply Z.log2_lt_pow2; lia.
  - destruct (round_abs_cases a A ltac:(lia)) as (q&_&Q&B&R&_). rewrite E in R.
    exists q, (Z.log2 a - 52). repeat split; try lia.
Qed.

(** Sterbenz: the difference of two floats that are within a factor of two of each other
    is a float. *)
Lemma sterbenz now s : is_float now = true -> is_float s = true -> 0 <= now -> now <= s -> s <= 2 * now ->
  is_float (s - now) = true.
Proof.
  rewrite !is_float_iff. intros [FN BN] [FS BS] N0 L U.
  destruct (float_shape now N0 FN) as (k1&e1&E1&K1&->&_).
  destruct (float_shape s ltac:(lia) FS) as (k2&e2&E2&K2&->&C2).
  apply is_float_iff.
  set (P1 := 2 ^ e1) in *. set (P2 := 2 ^ e2) in *.
  assert (0 < P1) by (apply Z.pow_pos_nonneg; lia).
  assert (0 < P2) by (apply Z.pow_pos_nonneg; lia).
  destruct (Z.le_gt_cases e1 e2) as [LE|GT].
  - assert (P2 = 2 ^ (e2 - e1) * P1) as EQ
      by (unfold P1, P2; rewrite <- Z.pow_add_r by lia; f_equal; lia).
    replace (k2 * P2 - k1 * P1) with ((k2 * 2 ^ (e2 - e1) - k1) * P1) in * by (rewrite EQ; lia).
    set (k := k2 * 2 ^ (e2 - e1) - k1) in *.
    assert (0 <= k <= k1).
    { unfold k. split.
      - enough (k1 <= k2 * 2 ^ (e2 - e1)) by lia. apply (Z.mul_le_mono_pos_r _ _ P1); lia.
      - enough (k2 * 2 ^ (e2 - e1) <= 2 * k1) by lia. apply (Z.mul_le_mono_pos_r _ _ P1); lia. }
    apply is_float_mult; auto; [lia|]. fold P1.
    assert (k * P1 <= k1 * P1) by (apply Z.mul_le_mono_nonneg_r; lia). lia.
  - assert (P1 = 2 ^ (e1 - e2) * P2) as EQ
      by (unfold P1, P2; rewrite <- Z.pow_add_r by lia; f_equal; lia).
    replace (k2 * P2 - k1 * P1) with ((k2 - k1 * 2 ^ (e1 - e2)) * P2) in * by (rewrite EQ; lia).
    set (k := k2 - k1 * 2 ^ (e1 - e2)) in *.
    assert (0 < 2 ^ (e1 - e2)) by (apply Z.pow_pos_nonneg; lia).
    assert (0 <= k <= k2).
    { unfold k. split.
      - enough (k1 * 2 ^ (e1 - e2) <= k2) by lia. apply (Z.mul_le_mono_pos_r _ _ P2); lia.
      - enough (0 <= k1 * 2 ^ (e1 - e2)) by lia. apply Z.mul_nonneg_nonneg; lia. }
    apply is_float_mult; auto; [lia|]. fold P2.
    assert (k * P2 <= k2 * P2) by (apply Z.mul_le_mono_nonneg_r; lia). lia.
Qed.

(** So the detour of [BaseAgent.at] ends where it should. *)
Lemma at_exact now s : is_float now = true -> is_float s = true -> 0 <= now -> now <= s -> s <= 2 * now ->
  add_float (Fin now) (add_float (Fin s) (Fin (- now))) = Fin s.
Proof.
  intros FN FS N0 L U. pose proof (sterbenz now s FN FS N0 L U) as FD.
  assert (is_float (- now) = true) as FO.
  { apply is_float_iff in FN. apply is_float_iff. rewrite round53_opp, Z.abs_opp. lia. }
  unfold add_float at 2. rewrite FS, FO. cbn [andb].
  replace (s + - now) with (s - now) by lia. rewrite to_float_id by auto.
  unfold add_float. rewrite FN, FD. cbn [andb]. replace (now + (s - now)) with s by lia.
  apply to_float_id; auto.
Qed.
