(** [add_float] is the addition of the standard library's specification of IEEE 754
    arithmetic ([SpecFloat], the one that specifies Coq's own machine floats), for
    precision 53 and maximal exponent 1024. *)
From Coq Require Import ZArith List Bool Lia.
From Coq Require Import SpecFloat.
From Verif Require Import Num Binary64Model Binary64Proofs.
Local Open Scope Z_scope.

(** A float in ticks. *)
Definition ticks (x : spec_float) : num :=
  match x with
  | S754_zero _ => Fin 0
  | S754_infinity false => PInf
  | S754_infinity true => NInf
  | S754_nan => NaN
  | S754_finite s m e => Fin (cond_Zopp s (Zpos m * 2 ^ (e + 1074)))
  end.

Lemma digits2_log m : Zpos (digits2_pos m) = Z.log2 (Zpos m) + 1.
Proof.
  assert (digits2_pos m = Pos.size m) as ->.
  { induction m; simpl; congruence. }
  induction m; simpl; lia.
Qed.

(** The record after [n] shifts of [m0]. *)
Definition shifted (n m0 : Z) (r : shr_record) : Prop :=
  if n =? 0 then r = Build_shr_record m0 false false
  else exists t, 0 <= t < 2 ^ (n - 1) /\ shr_s r = negb (t =? 0) /\ 0 <= shr_m r /\
       m0 = shr_m r * 2 ^ n + (if shr_r r then 2 ^ (n - 1) else 0) + t.

Lemma shifted_1 n m0 r : 0 <= n -> 0 <= m0 -> shifted n m0 r -> shifted (n + 1) m0 (shr_1 r).
Proof.
  intros N M H. unfold shifted in *. destruct (Z.eqb_spec (n + 1) 0); [lia|].
  replace (n + 1 - 1) with n by lia.
  assert (exists t', 0 <= t' < 2 ^ n /\ (shr_r r || shr_s r) = negb (t' =? 0) /\ 0 <= shr_m r /\
            m0 = shr_m r * 2 ^ n + t') as (t'&T&S&MM&E).
  { destruct (Z.eqb_spec n 0) as [->|NZ].
    - subst r. exists 0. simpl. lia.
    - destruct H as (t&T&S&MM&E).
      assert (2 ^ n = 2 * 2 ^ (n - 1)) as P2.
      { replace n with (Z.succ (n - 1)) at 1 by lia. apply Z.pow_succ_r; lia. }
      exists ((if shr_r r then 2 ^ (n - 1) else 0) + t). rewrite S.
      destruct (shr_r r); simpl; split; try lia; split; try lia;
        destruct (Z.eqb_spec (2 ^ (n - 1) + t) 0); auto; lia. }
  rewrite Z.pow_add_r, Z.pow_1_r by lia. exists t'.
  destruct r as [m rr ss]. cbn [shr_m shr_r shr_s] in *.
  destruct m as [|[p|p|]|p]; cbn [shr_1 shr_m shr_r shr_s]; try lia; repeat split; try lia; auto.
Qed.

Lemma shifted_iter p : forall n m0 r, 0 <= n -> 0 <= m0 -> shifted n m0 r ->
  shifted (n + Zpos p) m0 (iter_pos shr_1 p r).
Proof.
  induction p as [p IH|p IH|]; cbn [iter_pos]; intros n m0 r N M H.
  - replace (n + Zpos p~1) with (n + 1 + Zpos p + Zpos p) by lia.
    apply IH; try lia. apply IH; try lia. apply shifted_1; auto.
  - replace (n + Zpos p~0) with (n + Zpos p + Zpos p) by lia.
    apply IH; try lia. apply IH; try lia. auto.
  - apply shifted_1; auto.
Qed.

Lemma shr_shifted m e n : 0 <= m -> 0 <= n ->
  exists r, shr (shr_record_of_loc m loc_Exact) e n = (r, e + n) /\ shifted n m r.
Proof.
  intros M N. assert (shifted 0 m (shr_record_of_loc m loc_Exact)) as H by reflexivity.
  destruct n as [|p|p]; [|exists (iter_pos shr_1 p (shr_record_of_loc m loc_Exact))|lia].
  - exists (shr_record_of_loc m loc_Exact). rewrite Z.add_0_r. auto.
  - split; [reflexivity|]. apply (shifted_iter p 0); auto; lia.
Qed.

(** The rounded mantissa, as in [round_abs]. *)
Definition rounded (m n : Z) : Z :=
  let q := m / 2 ^ n in
  let r := m mod 2 ^ n in
  if 2 * r <? 2 ^ n then q else if 2 ^ n <? 2 * r then q + 1 else if Z.odd q then q + 1 else q.

Lemma shifted_rounded n m r : 0 <= n -> 0 <= m -> shifted n m r ->
  round_nearest_even (shr_m r) (loc_of_shr_record r) = rounded m n.
Proof.
  intros N M H. unfold shifted in H. destruct (Z.eqb_spec n 0) as [->|NZ].
  - subst r. unfold rounded. cbn [shr_m loc_of_shr_record round_nearest_even].
    rewrite Z.pow_0_r, Z.div_1_r, Z.mod_1_r. reflexivity.
  - destruct H as (t&T&S&MM&E).
    assert (2 ^ n = 2 * 2 ^ (n - 1)) as P2.
    { replace n with (Z.succ (n - 1)) at 1 by lia. apply Z.pow_succ_r; lia. }
    set (b := if shr_r r then 2 ^ (n - 1) else 0) in *.
    assert (0 <= b + t < 2 ^ n) as BT by (unfold b; destruct (shr_r r); lia).
    assert (m / 2 ^ n = shr_m r) as Q.
    { symmetry. apply (Z.div_unique_pos m (2 ^ n) (shr_m r) (b + t)); lia. }
    assert (m mod 2 ^ n = b + t) as R.
    { symmetry. apply (Z.mod_unique_pos m (2 ^ n) (shr_m r) (b + t)); lia. }
    unfold rounded. rewrite Q, R. unfold b in *. clear b.
    destruct r as [k [|] s]; cbn [shr_m shr_r shr_s loc_of_shr_record] in *; subst s.
    + destruct (Z.eqb_spec t 0) as [->|TZ]; cbn [negb round_nearest_even].
      * destruct (Z.ltb_spec (2 * (2 ^ (n - 1) + 0)) (2 ^ n)); [lia|].
        destruct (Z.ltb_spec (2 ^ n) (2 * (2 ^ (n - 1) + 0))); [lia|].
        rewrite <- Z.negb_even. destruct (Z.even k); reflexivity.
      * destruct (Z.ltb_spec (2 * (2 ^ (n - 1) + t)) (2 ^ n)); [lia|].
        destruct (Z.ltb_spec (2 ^ n) (2 * (2 ^ (n - 1) + t))); [reflexivity|lia].
    + destruct (Z.ltb_spec (2 * (0 + t)) (2 ^ n)); [|lia].
      destruct (t =? 0); reflexivity.
Qed.

Lemma rounded_0 m : rounded m 0 = m.
Proof. unfold rounded. rewrite Z.pow_0_r, Z.div_1_r, Z.mod_1_r. reflexivity. Qed.

Lemma log2_scale m k : 0 < m -> 0 <= k -> Z.log2 (m * 2 ^ k) = Z.log2 m + k.
Proof. intros. rewrite Z.log2_mul_pow2 by lia. lia. Qed.

(** [round_abs] of a scaled mantissa. *)
Lemma round_abs_scaled m k n : 0 < m -> 0 <= k -> 0 <= n -> n + k = Z.max (Z.log2 m + k - 52) 0 ->
  round_abs (m * 2 ^ k) = rounded m n * 2 ^ (n + k).
Proof.
  intros M K N E. unfold round_abs. rewrite log2_scale by auto.
  assert (0 < 2 ^ k) as PK by (apply Z.pow_pos_nonneg; lia).
  destruct (Z.leb_spec (Z.log2 m + k - 52) 0) as [L|L].
  - assert (n = 0) as -> by lia. assert (k = 0) as -> by lia. rewrite rounded_0. reflexivity.
  - replace (Z.log2 m + k - 52) with (n + k) by lia. f_equal.
    assert (2 ^ (n + k) = 2 ^ n * 2 ^ k) as PE by (apply Z.pow_add_r; lia).
    assert (0 < 2 ^ n) as PN by (apply Z.pow_pos_nonneg; lia).
    rewrite PE. rewrite Z.div_mul_cancel_r, Z.mul_mod_distr_r by lia.
    assert (2 ^ n * 2 ^ k = 2 * 2 ^ (n + k - 1)) as PH.
    { rewrite <- PE. replace (n + k) with (Z.succ (n + k - 1)) at 1 by lia. apply Z.pow_succ_r; lia. }
    unfold rounded. set (q := m / 2 ^ n). set (r := m mod 2 ^ n).
    destruct (Z.ltb_spec (r * 2 ^ k) (2 ^ (n + k - 1))) as [A|A],
             (Z.ltb_spec (2 * r) (2 ^ n)) as [B|B]; try reflexivity.
    + exfalso. assert (2 ^ n * 2 ^ k <= 2 * r * 2 ^ k) by (apply Z.mul_le_mono_nonneg_r; lia). lia.
    + exfalso. assert (2 * r * 2 ^ k < 2 ^ n * 2 ^ k) by (apply Z.mul_lt_mono_pos_r; lia). lia.
    + destruct (Z.ltb_spec (2 ^ (n + k - 1)) (r * 2 ^ k)) as [A2|A2],
               (Z.ltb_spec (2 ^ n) (2 * r)) as [B2|B2]; try reflexivity.
      * exfalso. assert (2 * r * 2 ^ k <= 2 ^ n * 2 ^ k) by (apply Z.mul_le_mono_nonneg_r; lia). lia.
      * exfalso. assert (2 ^ n * 2 ^ k < 2 * r * 2 ^ k) by (apply Z.mul_lt_mono_pos_r; lia). lia.
Qed.

Lemma rounded_bounds m n : 0 < m -> 0 <= n -> m / 2 ^ n <= rounded m n <= m / 2 ^ n + 1.
Proof.
  intros. unfold rounded. destruct (_ <? _); [lia|]. destruct (_ <? _); [lia|].
  destruct (Z.odd _); lia.
Qed.

Lemma to_float_opp z : to_float (- z) = n_opp (to_float z).
Proof.
  unfold to_float. rewrite round53_opp. pose proof overflow_pos.
  destruct (Z.leb_spec overflow (- round53 z)), (Z.leb_spec overflow (round53 z)),
    (Z.leb_spec (- round53 z) (- overflow)), (Z.leb_spec (round53 z) (- overflow));
    simpl; try lia; auto.
Qed.

Lemma to_float_pos z : 0 <= z ->
  to_float z = if overflow <=? round_abs z then PInf else Fin (round_abs z).
Proof.
  intros Z0. unfold to_float, round53. destruct (Z.ltb_spec z 0); [lia|].
  pose proof (round_abs_nonneg z Z0). pose proof overflow_pos.
  destruct (Z.leb_spec overflow (round_abs z)); auto.
  destruct (Z.leb_spec (round_abs z) (- overflow)); auto. lia.
Qed.

Definition signed (s : bool) (x : num) : num := if s then n_opp x else x.

Lemma mantissa_valid m e : Zpos m < 2 ^ 53 -> e = -1074 \/ 2 ^ 52 <= Zpos m -> -1074 <= e <= 971 ->
  bounded 53 1024 m e = true.
Proof.
  intros M C E. unfold bounded, canonical_mantissa. apply andb_true_iff. split.
  - apply Zeq_is_eq_bool. rewrite digits2_log. unfold fexp, emin.
    assert (Z.log2 (Zpos m) < 53) by (apply Z.log2_lt_pow2; lia).
    destruct C as [->|C]; [lia|].
    assert (Z.log2 (Zpos m) = 52) as -> by (apply Z.log2_unique; change (Z.succ 52) with 53; lia).
    lia.
  - apply Zle_imp_le_bool. lia.
Qed.

(** Rounding a mantissa and an exponent. *)
Lemma round_aux_ticks s mz ez : -1074 <= ez -> ez <= fexp 53 1024 (Zpos (digits2_pos mz) + ez) ->
  exists R, binary_round_aux 53 1024 s (Zpos mz) ez loc_Exact = R /\
  ticks R = signed s (to_float (Zpos mz * 2 ^ (ez + 1074))) /\ valid_binary 53 1024 R = true.
Proof.
  intros LO FE.
  set (P := fun R => ticks R = signed s (to_float (Zpos mz * 2 ^ (ez + 1074))) /\
                     valid_binary 53 1024 R = true).
  enough (P (binary_round_aux 53 1024 s (Zpos mz) ez loc_Exact)) as HP
    by (eexists; split; [reflexivity|exact HP]).
  unfold binary_round_aux, shr_fexp at 1. cbn [Zdigits2].
  unfold fexp, emin in *. change (3 - 1024 - 53) with (-1074) in *. rewrite digits2_log in *.
  set (n := Z.max (Z.log2 (Z.pos mz) + 1 + ez - 53) (-1074) - ez) in *.
  assert (0 <= n) as N by lia.
  destruct (shr_shifted (Zpos mz) ez n ltac:(lia) N) as (r&->&SH).
  rewrite (shifted_rounded n (Zpos mz) r) by (auto; lia).
  set (m1 := rounded (Z.pos mz) n).
  set (V := Zpos mz * 2 ^ (ez + 1074)).
  assert (0 < 2 ^ (ez + 1074)) as PE by (apply Z.pow_pos_nonneg; lia).
  assert (0 < V) as VP by (unfold V; lia).
  assert (round_abs V = m1 * 2 ^ (n + (ez + 1074))) as RV
    by (apply round_abs_scaled; lia).
  assert (0 < 2 ^ n) as PN by (apply Z.pow_pos_nonneg; lia).
  pose proof (rounded_bounds (Zpos mz) n ltac:(lia) N) as RB. fold m1 in RB.
  pose proof (Z.log2_spec (Zpos mz) ltac:(lia)) as LG.
  (* the exponent is the least one, or the mantissa has 53 bits *)
  assert (n = 0 /\ ez = -1074 /\ Z.log2 (Zpos mz) <= 52 \/
          ez + n = Z.log2 (Zpos mz) - 52 + ez /\ 2 ^ 52 <= Zpos mz / 2 ^ n < 2 ^ 53) as C.
  { destruct (Z.le_gt_cases (Z.log2 (Zpos mz) + 1 + ez - 53) (-1074)) as [A|A].
    - left. lia.
    - right. split; [lia|]. assert (Z.log2 (Zpos mz) = 52 + n) as LE by lia.
      rewrite LE in LG. rewrite <- Z.add_succ_l, !Z.pow_add_r in LG by lia.
      change (2 ^ Z.succ 52) with (2 ^ 53) in LG. split.
      + apply Z.div_le_lower_bound; lia.
      + apply Z.div_lt_upper_bound; lia. }
  assert (0 < m1 <= 2 ^ 53) as M1.
  { destruct C as [(N0&_&L)|(_&L)]; [|change (2 ^ 52) with 4503599627370496 in L; lia].
    unfold m1. rewrite N0, rounded_0. split; [lia|].
    assert (2 ^ Z.succ (Z.log2 (Zpos mz)) <= 2 ^ 53) by (apply Z.pow_le_mono_r; lia). lia. }
  (* second normalisation *)
  destruct m1 as [|p1|p1] eqn:EM; try lia. rewrite <- EM in *.
  unfold shr_fexp. rewrite EM at 1 2. cbn [Zdigits2]. rewrite digits2_log, <- EM.
  unfold fexp, emin. change (3 - 1024 - 53) with (-1074).
  set (n2 := Z.max (Z.log2 m1 + 1 + (ez + n) - 53) (-1074) - (ez + n)).
  assert (Z.log2 m1 <= 53) as L53.
  { rewrite <- (pow2_log 53) by lia. apply Z.log2_le_mono. lia. }
  assert (n2 = 0 /\ m1 < 2 ^ 53 /\ (ez + n = -1074 \/ 2 ^ 52 <= m1) \/
          n2 = 1 /\ m1 = 2 ^ 53) as C2.
  { destruct (Z.eq_dec m1 (2 ^ 53)) as [E|NE].
    - right. split; auto. unfold n2. rewrite E, pow2_log by lia. lia.
    - left. assert (m1 < 2 ^ 53) as L by lia.
      assert (Z.log2 m1 <= 52) by (enough (Z.log2 m1 < 53) by lia; apply Z.log2_lt_pow2; lia).
      assert (ez + n = -1074 \/ 2 ^ 52 <= m1) as D by lia.
      split; [|auto]. unfold n2. destruct D as [D|D]; [lia|].
      assert (Z.log2 m1 = 52) as -> by (apply Z.log2_unique; change (Z.succ 52) with 53; lia). lia. }
  assert (0 <= n2) as N2 by lia.
  destruct (shr_shifted m1 (ez + n) n2 ltac:(lia) N2) as (r2&->&SH2).
  assert (exists m2, shr_m r2 = Zpos m2 /\ m1 * 2 ^ (n + (ez + 1074)) = Zpos m2 * 2 ^ (ez + n + n2 + 1074) /\
            Zpos m2 < 2 ^ 53 /\ (ez + n + n2 = -1074 \/ 2 ^ 52 <= Zpos m2)) as (m2&E2&V2&B2&D2).
  { destruct C2 as [(Z2&B&D)|(Z2&B)]; rewrite Z2 in *.
    - unfold shifted in SH2. simpl in SH2. subst r2. cbn [shr_m].
      exists p1. rewrite <- EM. repeat split; auto.
      + f_equal. f_equal. lia.
      + rewrite Z.add_0_r. auto.
    - unfold shifted in SH2. simpl in SH2. destruct SH2 as (t&T&_&MM&E).
      change (2 ^ (1 - 1)) with 1 in *. assert (t = 0) as -> by lia.
      change (2 ^ 1) with 2 in E. rewrite B in E.
      assert (shr_m r2 = 2 ^ 52).
      { change (2 ^ 53) with (2 * 2 ^ 52) in E. destruct (shr_r r2); lia. }
      exists (Z.to_pos (2 ^ 52)). rewrite Z2Pos.id by reflexivity.
      split; auto. split; [|split; [reflexivity|right; lia]].
      rewrite B. replace (ez + n + 1 + 1074) with (Z.succ (n + (ez + 1074))) by lia.
      rewrite Z.pow_succ_r by lia. change (2 ^ 53) with (2 * 2 ^ 52). lia. }
  rewrite E2. cbv zeta. change (1024 - 53) with 971.
  assert (to_float V = if overflow <=? Zpos m2 * 2 ^ (ez + n + n2 + 1074) then PInf
                       else Fin (Zpos m2 * 2 ^ (ez + n + n2 + 1074))) as TV
    by (rewrite to_float_pos by lia; rewrite RV, V2; reflexivity).
  assert (0 < 2 ^ (ez + n + n2 + 1074)) as PF by (apply Z.pow_pos_nonneg; lia).
  destruct (Zle_bool (ez + n + n2) 971) eqn:LE.
  - apply Zle_bool_imp_le in LE.
    assert (Zpos m2 * 2 ^ (ez + n + n2 + 1074) < overflow).
    { rewrite overflow_eq. change 2098 with (53 + 2045). rewrite (Z.pow_add_r 2 53 2045) by lia.
      assert (2 ^ (ez + n + n2 + 1074) <= 2 ^ 2045) by (apply Z.pow_le_mono_r; lia).
      apply Z.lt_le_trans with (2 ^ 53 * 2 ^ (ez + n + n2 + 1074)).
      - apply Z.mul_lt_mono_pos_r; lia.
      - apply Z.mul_le_mono_nonneg_l; lia. }
    destruct (Z.leb_spec overflow (Zpos m2 * 2 ^ (ez + n + n2 + 1074))) in TV; [lia|].
    unfold P. fold V. rewrite TV. split; [destruct s; reflexivity|]. cbn [valid_binary]. apply mantissa_valid; auto; lia.
  - assert (972 <= ez + n + n2).
    { destruct (Z.le_gt_cases (ez + n + n2) 971) as [X|X]; [|lia].
      apply Zle_imp_le_bool in X. congruence. }
    assert (overflow <= Zpos m2 * 2 ^ (ez + n + n2 + 1074)).
    { rewrite overflow_eq. change 2098 with (52 + 2046). rewrite (Z.pow_add_r 2 52 2046) by lia.
      assert (2 ^ 2046 <= 2 ^ (ez + n + n2 + 1074)) by (apply Z.pow_le_mono_r; lia).
      apply Z.mul_le_mono_nonneg; lia. }
    destruct (Z.leb_spec overflow (Zpos m2 * 2 ^ (ez + n + n2 + 1074))) in TV; [|lia].
    unfold P. fold V. rewrite TV. split; destruct s; reflexivity.
Qed.

Lemma shl_align_value m e e' : -1074 <= e' -> e' <= e \/ -1074 <= e ->
  exists m2 e2, shl_align m e e' = (m2, e2) /\ e2 = Z.min e e' /\
    (-1074 <= e -> Zpos m2 * 2 ^ (e2 + 1074) = Zpos m * 2 ^ (e + 1074)) /\
    Zpos (digits2_pos m2) + e2 = Zpos (digits2_pos m) + e.
Proof.
  intros E' C. unfold shl_align. destruct (e' - e) as [|d|d] eqn:D.
  - exists m, e. repeat split; auto. lia.
  - exists m, e. repeat split; auto. lia.
  - exists (shift_pos d m), e'.
    assert (Zpos (shift_pos d m) = Zpos m * 2 ^ Zpos d) as V.
    { pose proof (shift_pos_correct d m) as H. rewrite H. rewrite <- Zpower_pos_equiv || idtac.
      unfold Z.pow. lia. }
    repeat split; try lia.
    + intros _. rewrite V, <- Z.mul_assoc, <- Z.pow_add_r by lia. f_equal. f_equal. lia.
    + rewrite !digits2_log, V, log2_scale; lia.
Qed.

Lemma binary_round_ticks s m e : -1074 <= e ->
  ticks (binary_round 53 1024 s m e) = signed s (to_float (Zpos m * 2 ^ (e + 1074))) /\
  valid_binary 53 1024 (binary_round 53 1024 s m e) = true.
Proof.
  intros E. unfold binary_round.
  assert (-1074 <= fexp 53 1024 (Zpos (digits2_pos m) + e)) as F
    by (unfold fexp, emin; lia).
  destruct (shl_align_value m e (fexp 53 1024 (Zpos (digits2_pos m) + e)) F ltac:(auto))
    as (m2&e2&->&E2&V&DG).
  rewrite <- V by auto. destruct (round_aux_ticks s m2 e2) as (R&->&T); auto; [lia|].
  rewrite DG. lia.
Qed.

Lemma valid_float m e : bounded 53 1024 m e = true ->
  -1074 <= e <= 971 /\ Zpos m < 2 ^ 53.
Proof.
  unfold bounded, canonical_mantissa. rewrite andb_true_iff. intros [C L].
  apply Zeq_bool_eq in C. apply Zle_bool_imp_le in L. unfold fexp, emin in C.
  rewrite digits2_log in C. split; [lia|]. apply Z.log2_lt_cancel. rewrite pow2_log; lia.
Qed.

Lemma ticks_float s m e : bounded 53 1024 m e = true ->
  is_float (cond_Zopp s (Zpos m * 2 ^ (e + 1074))) = true.
Proof.
  intros B. apply valid_float in B. destruct B as [E M].
  assert (0 < 2 ^ (e + 1074)) by (apply Z.pow_pos_nonneg; lia).
  assert (Zpos m * 2 ^ (e + 1074) < overflow).
  { rewrite overflow_eq. change 2098 with (53 + 2045). rewrite (Z.pow_add_r 2 53 2045) by lia.
    assert (2 ^ (e + 1074) <= 2 ^ 2045) by (apply Z.pow_le_mono_r; lia).
    apply Z.lt_le_trans with (2 ^ 53 * 2 ^ (e + 1074)).
    - apply Z.mul_lt_mono_pos_r; lia.
    - apply Z.mul_le_mono_nonneg_l; lia. }
  assert (is_float (Zpos m * 2 ^ (e + 1074)) = true) as F.
  { apply is_float_mult; lia. }
  destruct s; unfold cond_Zopp; auto. apply is_float_iff in F. apply is_float_iff.
  rewrite round53_opp, Z.abs_opp. lia.
Qed.

Lemma zero_float : is_float 0 = true.
Proof. apply is_float_iff. split; [reflexivity|]. pose proof overflow_pos. lia. Qed.

(** The theorem: addition of valid binary64 floats, seen in ticks. *)
Lemma SFadd_ticks x y : valid_binary 53 1024 x = true -> valid_binary 53 1024 y = true ->
  ticks (SFadd 53 1024 x y) = add_float (ticks x) (ticks y) /\
  valid_binary 53 1024 (SFadd 53 1024 x y) = true.
Proof.
  destruct x as [sx|sx| |sx mx ex], y as [sy|sy| |sy my ey]; cbn [valid_binary]; intros VX VY;
    try (destruct sx, sy; split; reflexivity); try (destruct sx; split; reflexivity);
    try (destruct sy; split; reflexivity); try (split; reflexivity).
  - cbn [SFadd ticks add_float valid_binary]. split; [|exact VY].
    rewrite zero_float, (ticks_float sy _ _ VY). cbn [andb].
    rewrite Z.add_0_l, to_float_id; auto. apply ticks_float; auto.
  - cbn [SFadd ticks add_float valid_binary]. split; [|exact VX].
    rewrite zero_float, (ticks_float sx _ _ VX). cbn [andb].
    rewrite Z.add_0_r, to_float_id; auto. apply ticks_float; auto.
  - cbn [SFadd ticks add_float]. rewrite (ticks_float sx _ _ VX), (ticks_float sy _ _ VY). cbn [andb].
    destruct (valid_float _ _ VX) as [EX _]. destruct (valid_float _ _ VY) as [EY _].
    set (ez := Z.min ex ey).
    destruct (shl_align_value mx ex ez ltac:(lia) ltac:(lia)) as (m1&e1&->&E1&V1&_).
    destruct (shl_align_value my ey ez ltac:(lia) ltac:(lia)) as (m2&e2&->&E2&V2&_).
    cbn [fst]. rewrite <- V1, <- V2 by lia. assert (e1 = ez) as -> by lia. assert (e2 = ez) as -> by lia.
    set (P := 2 ^ (ez + 1074)).
    assert (cond_Zopp sx (Zpos m1 * P) + cond_Zopp sy (Zpos m2 * P) =
            (cond_Zopp sx (Zpos m1) + cond_Zopp sy (Zpos m2)) * P) as ->.
    { destruct sx, sy; unfold cond_Zopp; lia. }
    set (m := cond_Zopp sx (Zpos m1) + cond_Zopp sy (Zpos m2)).
    destruct m as [|p|p]; cbn [binary_normalize].
    + split; [|reflexivity]. cbn [ticks]. rewrite Z.mul_0_l. symmetry. apply to_float_id, zero_float.
    + apply binary_round_ticks; lia.
    + destruct (binary_round_ticks true p ez ltac:(lia)) as [-> VV]. split; [|exact VV].
      cbn [signed]. rewrite <- to_float_opp. f_equal. fold P. lia.
Qed.

(** Comparison. *)
Lemma bounded_lt m1 e1 m2 e2 : bounded 53 1024 m1 e1 = true -> bounded 53 1024 m2 e2 = true ->
  e1 < e2 -> Zpos m1 * 2 ^ (e1 + 1074) < Zpos m2 * 2 ^ (e2 + 1074).
Proof.
  intros B1 B2 L. pose proof (valid_float _ _ B1) as [E1 M1]. pose proof (valid_float _ _ B2) as [E2 M2].
  unfold bounded, canonical_mantissa in B2. apply andb_true_iff in B2. destruct B2 as [C _].
  apply Zeq_bool_eq in C. unfold fexp, emin in C. rewrite digits2_log in C.
  assert (2 ^ 52 <= Zpos m2) as K.
  { apply Z.le_trans with (2 ^ Z.log2 (Zpos m2)); [apply Z.pow_le_mono_r; lia|].
    apply Z.log2_spec; lia. }
  assert (0 < 2 ^ (e1 + 1074)) by (apply Z.pow_pos_nonneg; lia).
  apply Z.lt_le_trans with (2 ^ 53 * 2 ^ (e1 + 1074)); [apply Z.mul_lt_mono_pos_r; lia|].
  apply Z.le_trans with (2 ^ 52 * 2 ^ (e2 + 1074)).
  - rewrite <- !Z.pow_add_r by lia. apply Z.pow_le_mono_r; lia.
  - apply Z.mul_le_mono_nonneg_r; [|lia]. apply Z.pow_nonneg. lia.
Qed.

Lemma bounded_compare m1 e1 m2 e2 : bounded 53 1024 m1 e1 = true -> bounded 53 1024 m2 e2 = true ->
  match Z.compare e1 e2 with Lt => Lt | Gt => Gt | Eq => Pcompare m1 m2 Eq end =
  Z.compare (Zpos m1 * 2 ^ (e1 + 1074)) (Zpos m2 * 2 ^ (e2 + 1074)).
Proof.
  intros B1 B2. pose proof (valid_float _ _ B1) as [E1 M1].
  destruct (Z.compare_spec e1 e2) as [->|L|L].
  - rewrite <- (Zmult_compare_compat_r (Zpos m1) (Zpos m2) (2 ^ (e2 + 1074))).
    + reflexivity.
    + apply Z.lt_gt, Z.pow_pos_nonneg; lia.
  - symmetry. apply Z.compare_lt_iff. apply bounded_lt; auto.
  - symmetry. apply Z.compare_gt_iff. apply bounded_lt; auto.
Qed.

Lemma n_leb_compare a b : n_leb (Fin a) (Fin b) =
  match Z.compare a b with Gt => false | _ => true end.
Proof.
  unfold n_leb, n_ltb, n_eqb, Z.ltb. rewrite Z.eqb_compare. destruct (a ?= b); reflexivity.
Qed.

Lemma SFleb_ticks x y : valid_binary 53 1024 x = true -> valid_binary 53 1024 y = true ->
  SFleb x y = n_leb (ticks x) (ticks y).
Proof.
  unfold SFleb.
  assert (forall m e, bounded 53 1024 m e = true -> 0 < Zpos m * 2 ^ (e + 1074)) as POS.
  { intros m e B. apply valid_float in B. apply Z.mul_pos_pos; [lia|]. apply Z.pow_pos_nonneg; lia. }
  destruct x as [sx|sx| |sx mx ex], y as [sy|sy| |sy my ey]; cbn [valid_binary SFcompare]; intros VX VY;
    try (destruct sx, sy; reflexivity); try (destruct sx; reflexivity); try (destruct sy; reflexivity);
    try reflexivity.
  - cbn [ticks]. rewrite n_leb_compare. pose proof (POS _ _ VY).
    destruct sy; unfold cond_Zopp.
    + destruct (Z.compare_spec 0 (- (Z.pos my * 2 ^ (ey + 1074)))); auto; lia.
    + destruct (Z.compare_spec 0 (Z.pos my * 2 ^ (ey + 1074))); auto; lia.
  - cbn [ticks]. rewrite n_leb_compare. pose proof (POS _ _ VX).
    destruct sx; unfold cond_Zopp.
    + destruct (Z.compare_spec (- (Z.pos mx * 2 ^ (ex + 1074))) 0); auto; lia.
    + destruct (Z.compare_spec (Z.pos mx * 2 ^ (ex + 1074)) 0); auto; lia.
  - cbn [ticks]. rewrite n_leb_compare. pose proof (POS _ _ VX). pose proof (POS _ _ VY).
    pose proof (bounded_compare _ _ _ _ VX VY) as C.
    destruct sx, sy; unfold cond_Zopp.
    + replace (- (Z.pos mx * 2 ^ (ex + 1074)) ?= - (Z.pos my * 2 ^ (ey + 1074)))
        with (CompOpp (Z.pos mx * 2 ^ (ex + 1074) ?= Z.pos my * 2 ^ (ey + 1074)))
        by (rewrite Z.compare_opp, <- Z.compare_antisym; reflexivity).
      rewrite <- C.
      destruct (Z.compare ex ey); auto.
    + destruct (Z.compare_spec (- (Z.pos mx * 2 ^ (ex + 1074))) (Z.pos my * 2 ^ (ey + 1074))); auto; lia.
    + destruct (Z.compare_spec (Z.pos mx * 2 ^ (ex + 1074)) (- (Z.pos my * 2 ^ (ey + 1074)))); auto; lia.
    + rewrite <- C. destruct (Z.compare ex ey); auto. 
Qed.

Lemma SFadd_monotone x d : valid_binary 53 1024 x = true -> valid_binary 53 1024 d = true ->
  x <> S754_nan -> x <> S754_infinity true -> SFleb (S754_zero false) d = true ->
  SFleb x (SFadd 53 1024 x d) = true.
Proof.
  intros VX VD N1 N2 L. destruct (SFadd_ticks x d VX VD) as [E VS]. rewrite SFleb_ticks, E by auto.
  apply add_float_leb.
  - destruct x as [| [|] | |]; try reflexivity; congruence.
  - rewrite SFleb_ticks in L by auto. exact L.
Qed.
