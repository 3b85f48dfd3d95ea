(** Proofs about the experiment of newsspread. *)
From Coq Require Import ZArith List Bool Arith String Lia.
From Verif Require Import Num PyDict TimedModel AgentModel FsmModel PlainProofs NewsModel NewsSpec NewsProofs CampaignModel CampaignSpec.
Import ListNotations.
Local Open Scope nat_scope.
Local Open Scope list_scope.

Lemma acc_length l : forall a, List.length (accumulate a l) = List.length l.
Proof. induction l; cbn; auto. Qed.
Lemma acc_nth l : forall a i, i < List.length l -> nth i (accumulate a l) 0%Z = (a + sum (firstn (S i) l))%Z.
Proof.
  induction l as [|x l IH]; intros a i H; cbn [List.length] in H; [lia|]. destruct i as [|i].
  - cbn. lia.
  - cbn [accumulate nth]. rewrite IH by lia. cbn [firstn sum fold_right]. fold (sum (match l with [] => [] | a0 :: l0 => a0 :: firstn i l0 end)).
    destruct l; [cbn in H; lia|]. cbn [firstn sum fold_right]. lia.
Qed.
Lemma acc_last l a : l <> [] -> last (accumulate a l) 0%Z = (a + sum l)%Z.
Proof.
  revert a. induction l as [|x l IH]; intros a N; [congruence|]. destruct l as [|y l]; [cbn; lia|].
  change (last (accumulate a (x :: y :: l)) 0%Z) with (last (accumulate (a + x)%Z (y :: l)) 0%Z). rewrite IH by discriminate.
  cbn [sum fold_right]. fold (sum l). lia.
Qed.
Lemma bisect_spec less : forall fuel lo hi, hi - lo <= fuel -> lo <= hi -> (forall i j, i <= j -> less i = true -> less j = true) ->
  let r := bisect less fuel lo hi in
  lo <= r <= hi /\ (forall i, lo <= i < r -> less i = false) /\ (r < hi -> less r = true).
Proof.
  induction fuel as [|fuel IH]; intros lo hi F L M; cbn zeta; cbn [bisect].
  { assert (lo = hi) by lia. subst. repeat split; auto; lia. }
  destruct (Nat.ltb_spec lo hi) as [H|H]; [|assert (lo = hi) by lia; subst; repeat split; auto; lia].
  assert (MI : lo <= (lo + hi) / 2 < hi).
  { split; [apply Nat.div_le_lower_bound|apply Nat.div_lt_upper_bound]; lia. }
  set (mid := (lo + hi) / 2) in *. destruct (less mid) eqn:E.
  - destruct (IH lo mid ltac:(lia) ltac:(lia) M) as (A & B & C). repeat split; try lia; auto.
    intros _. destruct (Nat.eq_dec (bisect less fuel lo mid) mid) as [D|D]; [now rewrite D|]. apply C. lia.
  - destruct (IH (S mid) hi ltac:(lia) ltac:(lia) M) as (A & B & C). repeat split; try lia; auto.
    intros i I. destruct (Nat.lt_ge_cases mid i); [apply B; lia|]. destruct (less i) eqn:Q; auto. rewrite (M i mid) in E; auto.
Qed.

Lemma sum_firstn_S l : forall i w, nth_error l i = Some w -> sum (firstn (S i) l) = (sum (firstn i l) + w)%Z.
Proof.
  induction l as [|x l IH]; intros [|i] w E; cbn in E; try discriminate.
  - injection E as ->. cbn. lia.
  - specialize (IH i w E). cbn [firstn sum fold_right] in *. fold (sum (firstn i l)) in *. fold (sum (firstn (S i) l)). destruct l; cbn [firstn sum fold_right] in *; lia.
Qed.
Lemma sum_mono l : Forall (fun x => 0 <= x)%Z l -> forall i j, i <= j -> (sum (firstn i l) <= sum (firstn j l))%Z.
Proof.
  intros F. induction F as [|x l P F IH]; intros [|i] [|j] L; cbn; try lia.
  - fold (sum (firstn j l)). specialize (IH 0 j ltac:(lia)). cbn in IH. lia.
  - fold (sum (firstn i l)). fold (sum (firstn j l)). specialize (IH i j ltac:(lia)). lia.
Qed.

Lemma choice_interval ws k n : Forall (fun x => 0 <= x)%Z ws -> (0 < sum ws)%Z -> (0 <= k < n)%Z ->
  choice ws k n < List.length ws /\
  (sum (firstn (choice ws k n) ws) * n <= k * sum ws < sum (firstn (S (choice ws k n)) ws) * n)%Z.
Proof.
  intros F P K. unfold choice. assert (NE : ws <> []) by (intros ->; cbn in P; lia).
  rewrite acc_length, acc_last by auto. set (N := List.length ws). assert (N0 : 0 < N) by (destruct ws; [congruence|unfold N; cbn; lia]).
  assert (N1 : forall i, i < N -> nth i (accumulate 0%Z ws) 0%Z = sum (firstn (S i) ws)) by (intros i H; rewrite acc_nth by auto; lia).
  set (less := fun i => Z.ltb (k * (0 + sum ws)) (nth i (accumulate 0%Z ws) 0%Z * n)).
  set (less2 := fun i => Z.ltb (k * sum ws) (sum (firstn (S i) ws) * n)).
  assert (BE : forall fuel lo hi, hi < N -> bisect less fuel lo hi = bisect less2 fuel lo hi).
  { induction fuel as [|fuel IH]; intros lo hi H; cbn [bisect]; auto. destruct (Nat.ltb_spec lo hi) as [L|L]; auto.
    assert (MI : lo <= (lo + hi) / 2 < hi) by (split; [apply Nat.div_le_lower_bound|apply Nat.div_lt_upper_bound]; lia).
    assert (E : less ((lo + hi) / 2) = less2 ((lo + hi) / 2)) by (unfold less, less2; rewrite N1 by lia; reflexivity).
    rewrite E, !IH by lia. reflexivity. }
  rewrite BE by lia. 
  destruct (bisect_spec less2 N 0 (N - 1) ltac:(lia) ltac:(lia)) as (A & B & C).
  { intros i j L H. unfold less2 in *. apply Z.ltb_lt in H. apply Z.ltb_lt. pose proof (sum_mono ws F (S i) (S j) ltac:(lia)). nia. }
  set (r := bisect less2 N 0 (N - 1)) in *. split; [lia|]. split.
  - destruct r as [|r]; [cbn; nia|]. specialize (B r ltac:(lia)). unfold less2 in B. apply Z.ltb_ge in B. exact B.
  - destruct (Nat.eq_dec r (N - 1)) as [D|D].
    + rewrite D, firstn_all2 by (unfold N; lia). nia.
    + specialize (C ltac:(lia)). unfold less2 in C. now apply Z.ltb_lt in C.
Qed.
Lemma choice_iff ws k n i : Forall (fun x => 0 <= x)%Z ws -> (0 < sum ws)%Z -> (0 <= k < n)%Z -> i < List.length ws ->
  choice ws k n = i <-> (sum (firstn i ws) * n <= k * sum ws < sum (firstn (S i) ws) * n)%Z.
Proof.
  intros F P K L. destruct (choice_interval ws k n F P K) as [A B]. split; [intros <-; exact B|]. intros C.
  destruct (Nat.lt_trichotomy (choice ws k n) i) as [H|[H|H]]; auto; exfalso.
  - pose proof (sum_mono ws F (S (choice ws k n)) i ltac:(lia)). nia.
  - pose proof (sum_mono ws F (S i) (choice ws k n) ltac:(lia)). nia.
Qed.

Lemma count_interval (A B : nat) n : forall s,
  List.length (filter (fun k => Nat.leb A k && Nat.ltb k B) (seq s n)) = Nat.min B (s + n) - Nat.max A s.
Proof.
  induction n as [|n IH]; intros s; cbn [seq filter]; [cbn; lia|].
  destruct (Nat.leb_spec A s) as [L|L], (Nat.ltb_spec s B) as [M|M]; cbn [andb List.length]; rewrite IH; lia.
Qed.

Lemma choices_fair ws : Forall (fun x => 0 <= x)%Z ws -> (0 < sum ws)%Z -> fair_shares ws.
Proof.
  intros F P q. cbn zeta. set (n := Z.to_nat (sum ws) * q). intros i w E. unfold draws_with.
  assert (L : i < List.length ws) by (apply nth_error_Some; congruence).
  pose proof (sum_mono ws F 0 i ltac:(lia)) as M0. cbn [firstn sum fold_right] in M0. fold (sum (firstn i ws)) in M0.
  pose proof (sum_firstn_S ws i w E) as SW.
  assert (W0 : (0 <= w)%Z) by (rewrite Forall_forall in F; apply F; eapply nth_error_In; eauto).
  pose proof (sum_mono ws F (S i) (List.length ws) ltac:(lia)) as M1. rewrite (firstn_all ws) in M1.
  set (A := Z.to_nat (sum (firstn i ws)) * q). set (B := Z.to_nat (sum (firstn (S i) ws)) * q).
  assert (EQ : forall s m, s + m <= n -> filter (fun k => Nat.eqb (choice ws (Z.of_nat k) (Z.of_nat n)) i) (seq s m) =
    filter (fun k => Nat.leb A k && Nat.ltb k B) (seq s m)).
  { intros s m. revert s. induction m as [|m IH]; intros s H; cbn [seq filter]; auto. rewrite IH by lia.
    replace (Nat.eqb (choice ws (Z.of_nat s) (Z.of_nat n)) i) with (Nat.leb A s && Nat.ltb s B); auto.
    pose proof (choice_iff ws (Z.of_nat s) (Z.of_nat n) i F P ltac:(lia) L) as C.
    assert (NZ : Z.of_nat n = (sum ws * Z.of_nat q)%Z) by (unfold n; rewrite Nat2Z.inj_mul, Z2Nat.id; lia).
    assert (AZ : Z.of_nat A = (sum (firstn i ws) * Z.of_nat q)%Z) by (unfold A; rewrite Nat2Z.inj_mul, Z2Nat.id; lia).
    assert (BZ : Z.of_nat B = (sum (firstn (S i) ws) * Z.of_nat q)%Z) by (unfold B; rewrite Nat2Z.inj_mul, Z2Nat.id; lia).
    rewrite NZ in C. rewrite !Z.mul_assoc, (Z.mul_comm (sum (firstn i ws))), (Z.mul_comm (sum (firstn (S i) ws))), <- !Z.mul_assoc, <- AZ, <- BZ in C.
    assert (C2 : choice ws (Z.of_nat s) (sum ws * Z.of_nat q) = i <-> A <= s < B) by (rewrite C; split; intros; nia).
    rewrite NZ. destruct (Nat.eqb_spec (choice ws (Z.of_nat s) (sum ws * Z.of_nat q)) i) as [D|D].
    - apply C2 in D. destruct (Nat.leb_spec A s), (Nat.ltb_spec s B); auto; lia.
    - destruct (Nat.leb_spec A s), (Nat.ltb_spec s B); auto. destruct D. apply C2. lia. }
  rewrite EQ by lia. rewrite count_interval.
  assert (B <= n) by (unfold n, B; nia). rewrite Nat.min_l, Nat.max_l by lia.
  assert (A <= B) by (unfold A, B; nia). rewrite Nat2Z.inj_sub by auto. unfold A, B. rewrite !Nat2Z.inj_mul, !Z2Nat.id, SW by lia. lia.
Qed.

(** * The experiment *)
Lemma audience_viewers given nbrs draws rolls : all_viewers (audience given nbrs draws rolls).
Proof.
  intros a. cbn [audience fw_rest fw_agents nr_class]. split; [reflexivity|]. exists "neutral"%string, neutral.
  split; [cbn; auto|]. destruct (viewer_for given (draws a)); split; reflexivity.
Qed.
Lemma nobody_hears {AR : Arith} share cure_prob shuffle h s s' w' c' tr given nbrs draws rolls : only_draws shuffle -> hands_off h ->
  run_hist (news_user share cure_prob shuffle) h s (audience given nbrs draws rolls, no_cors) = (s', (w', c'), tr) ->
  forall a, in_state "neutral" w' a /\ nr_hit (fw_rest w') a = false.
Proof.
  intros Sh Ho E a. pose proof (audience_viewers given nbrs draws rolls) as V.
  assert (NC : forall v, ~ (exists st, fa_cur (new_viewer v) = Some st /\ st_name st = "infected"%string) /\ ~ (exists st, fa_cur (new_viewer v) = Some st /\ st_name st = "cured"%string)).
  { intros v. destruct v; split; intros (st & C & N); vm_compute in C; injection C as <-; discriminate. }
  destruct (along_the_network share cure_prob shuffle Sh h s s' _ w' c' tr Ho V E (fun _ => True)) with (a := a) as [H1 H2]; auto.
  { intros b _. cbn [audience fw_rest nr_tv nr_hit]. split; auto. split; auto. apply (proj1 (NC _)). }
  destruct (never_cured AR share cure_prob shuffle Sh h s s' _ w' c' tr Ho V E) with (a := a) as [H3 _].
  { intros b. cbn [audience fw_rest nr_cure]. split; auto. apply (proj2 (NC _)). }
  split; auto.
  assert (V' : all_viewers w').
  { apply (news_hist share cure_prob (fun _ => True) shuffle Sh) with (h := h) (s := s) (w := audience given nbrs draws rolls) (c := no_cors) (s' := s') (c' := c') (tr := tr); auto using rested_nobody. }
  destruct (V' a) as (_ & nm & st & In3 & D & C). 
  assert (SN : st_name st = nm).
  { destruct In3 as [<-|[<-|[<-|[]]]]; destruct (nr_class (fw_rest w') a); vm_compute in D; try discriminate; injection D as <-; reflexivity. }
  destruct In3 as [<-|[<-|[<-|[]]]].
  - exists st. auto.
  - destruct H2. exists st. auto.
  - destruct H3. exists st. auto.
Qed.

Lemma negative_ratio net : In net networks ->
  (forall r1 r2, In (r1, r2) [(100, 100); (100, 50); (50, 100)]%Z ->
     In (study_of r1 r2 net) campaign /\ dget "ratio_wise"%string (st_given (study_of r1 r2 net)) = Some (PNumber (Fin (100 - r1 - r2))) /\
     (100 - r1 - r2 < 0)%Z /\ ~ fair_shares (weights (st_given (study_of r1 r2 net)))) /\
  forall k n, (0 <= k < n)%Z ->
  viewer_for (st_given (study_of 100 100 net)) (k, n) = Dumb /\ viewer_for (st_given (study_of 100 50 net)) (k, n) = Dumb /\
  viewer_for (st_given (study_of 50 100 net)) (k, n) = viewer_for (st_given (study_of 50 50 net)) (k, n).
Proof.
  intros I. split.
  - intros r1 r2 J.
    assert (L : In r1 levels /\ In r2 levels /\ (100 - r1 - r2 < 0)%Z).
    { cbn in J |- *. intuition (match goal with H : (_, _) = (_, _) |- _ => injection H as <- <- end; auto; lia). }
    destruct L as (L1 & L2 & N). split; [|split; [reflexivity|split; auto]].
    + unfold campaign. apply in_flat_map. exists r1. split; auto. apply in_flat_map. exists r2. split; auto. now apply in_map.
    + intros F. specialize (F 1). change (weights (st_given (study_of r1 r2 net))) with [r1; r2; 100 - r1 - r2]%Z in F. cbn zeta in F.
      specialize (F 2 _ eq_refl). rewrite Z.mul_1_r in F. lia.
  - intros k n K.
    assert (W : forall r1 r2, weights (st_given (study_of r1 r2 net)) = [r1; r2; 100 - r1 - r2]%Z) by reflexivity.
    unfold viewer_for. cbn [fst snd]. rewrite !W.
    assert (C : forall r1 r2, choice [r1; r2; (100 - r1 - r2)%Z] k n =
      if Z.ltb (k * 100) ((r1 + r2) * n) then (if Z.ltb (k * 100) (r1 * n) then 0 else 1) else 2).
    { intros r1 r2. unfold choice. cbn [accumulate List.length last Nat.sub]. cbn [bisect Nat.ltb Nat.leb Nat.add Nat.div Nat.divmod fst nth].
      replace (0 + r1 + r2 + (100 - r1 - r2))%Z with 100%Z by lia. replace (0 + r1)%Z with r1 by lia.
      destruct (Z.ltb (k * 100) ((r1 + r2) * n)); reflexivity. }
    rewrite !C. 
    repeat match goal with |- context [Z.ltb ?x ?y] => destruct (Z.ltb_spec x y) end; repeat split; auto; lia.
Qed.

Lemma rest_of_campaign :
  NoDup campaign /\ List.length campaign = 18 /\
  (forall st, In st campaign <-> exists r1 r2 net, In r1 levels /\ In r2 levels /\ In net networks /\ st = study_of r1 r2 net) /\
  forall r1 r2 net, In (study_of r1 r2 net) campaign -> In r1 levels -> In r2 levels ->
  news_init (@n_add exact) (st_given (study_of r1 r2 net)) = true /\
  ((r1 + r2 <= 100)%Z -> weights (st_given (study_of r1 r2 net)) = [r1; r2; 100 - r1 - r2]%Z /\ fair_shares (weights (st_given (study_of r1 r2 net)))).
Proof.
  split; [|split; [reflexivity|split]].
  - unfold campaign, levels, networks. cbn [flat_map map app].
    repeat (apply NoDup_cons; [intros I; cbn [In] in I; repeat (destruct I as [I|I]; [discriminate I|]); exact I|]). apply NoDup_nil.
  - intros st. unfold campaign. rewrite in_flat_map. split.
    + intros (r1 & I1 & J). apply in_flat_map in J. destruct J as (r2 & I2 & J). apply in_map_iff in J. destruct J as (net & <- & I3). eauto 8.
    + intros (r1 & r2 & net & I1 & I2 & I3 & ->). exists r1. split; auto. apply in_flat_map. exists r2. split; auto. now apply in_map.
  - intros r1 r2 net _ I1 I2. split.
    + cbn in I1, I2. intuition (subst; reflexivity).
    + intros L. split; [reflexivity|]. change (weights (st_given (study_of r1 r2 net))) with [r1; r2; 100 - r1 - r2]%Z.
      assert (P : (0 <= r1 /\ 0 <= r2)%Z) by (cbn in I1, I2; intuition lia).
      apply choices_fair; [repeat (apply Forall_cons; [lia|]); apply Forall_nil|]. cbn [sum fold_right]. lia.
Qed.
