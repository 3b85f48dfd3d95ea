(** Proofs about WealthModel. *)
From Coq Require Import ZArith QArith List Bool Arith Lia Lqa Permutation Sorting.Sorted.
From Verif Require Import PyDict WealthModel WealthSpec.
Import ListNotations.
Local Open Scope Z_scope.

Lemma total_ext f g l : (forall a, In a l -> f a = g a) -> total f l = total g l.
Proof.
  induction l as [|a l IH]; intros H; [reflexivity|]. simpl. rewrite H by (simpl; auto).
  rewrite IH; auto. intros b I. apply H. simpl. auto.
Qed.
Lemma total_set f l a v : NoDup l -> In a l ->
  total (fun b => if Nat.eqb b a then v else f b) l = total f l - f a + v.
Proof.
  induction l as [|b l IH]; intros N I; [destruct I|]. inversion N as [|x y N1 N2]; subst. simpl.
  destruct (Nat.eqb b a) eqn:E.
  - apply Nat.eqb_eq in E. subst b. rewrite (total_ext _ f l); [lia|].
    intros c J. destruct (Nat.eqb c a) eqn:E; auto. apply Nat.eqb_eq in E. now subst.
  - destruct I as [->|I]; [rewrite Nat.eqb_refl in E; discriminate|]. rewrite IH by auto. lia.
Qed.

Section P.
Context {P R : Type} {EP : Eqb P}.
Variables (neighborhood : P -> list P) (all : list nat) (friends : nat -> list nat) (social : nat -> bool).
Variables (pick : R -> nat -> R * nat) (order : list nat -> list nat).
Hypothesis Order : forall l x, In x (order l) -> In x l.
Notation world := (world P R).

Lemma choice_in {X} (l : list X) (w : world) x w' : choice pick l w = Some (x, w') -> In x l /\ w_wealth w' = w_wealth w.
Proof.
  destruct l as [|y l]; [discriminate|]. cbn [choice]. destruct (pick (w_rng w) (List.length (y :: l))) as [r i].
  intros H. assert (nth i (y :: l) y = x /\ World (w_wealth w) (w_pos w) r = w') as [<- <-] by (split; congruence).
  clear H. split; [|reflexivity]. destruct (Nat.lt_ge_cases i (List.length (y :: l))) as [L|L].
  - now apply nth_In.
  - rewrite nth_overflow by exact L. simpl. auto.
Qed.

Lemma transfer_total a other (w : world) : NoDup all -> In a all -> In other all ->
  total (w_wealth (transfer a other w)) all = total (w_wealth w) all.
Proof.
  intros N Ia Io. unfold transfer, set_wealth. cbn [w_wealth].
  rewrite (total_set _ all a) by auto. rewrite (total_set _ all other) by auto. lia.
Qed.
Lemma transfer_nonneg a other (w : world) b : 0 < w_wealth w a -> 0 <= w_wealth w b -> 0 <= w_wealth (transfer a other w) b.
Proof.
  intros A B. unfold transfer, set_wealth. cbn [w_wealth]. destruct (Nat.eqb b a) eqn:E1.
  - apply Nat.eqb_eq in E1. subst b. destruct (Nat.eqb a other) eqn:E2; [|lia]. apply Nat.eqb_eq in E2. subst other. lia.
  - destruct (Nat.eqb b other) eqn:E2; [|exact B]. apply Nat.eqb_eq in E2. subst other. lia.
Qed.

Lemma cellmates_all a (w : world) b : In b (cellmates all a w) -> In b all.
Proof. intros I. now apply filter_In in I. Qed.

Lemma give_ok a (w : world) : NoDup all -> In a all -> 0 < w_wealth w a -> (forall b, 0 <= w_wealth w b) ->
  total (w_wealth (give_money all friends social pick order a w)) all = total (w_wealth w) all /\
  forall b, 0 <= w_wealth (give_money all friends social pick order a w) b.
Proof.
  intros N Ia A NN. unfold give_money. destruct (social a).
  - destruct (choice pick _ w) as [[other w1]|] eqn:E; [|auto]. apply choice_in in E as [I E].
    apply Order, filter_In in I as [I _]. apply cellmates_all in I.
    split; [rewrite transfer_total by auto; now rewrite E|]. intros b. apply transfer_nonneg; rewrite E; auto.
  - destruct (Nat.ltb 1 _); [|auto].
    destruct (choice pick _ w) as [[other w1]|] eqn:E; [|auto]. apply choice_in in E as [I E].
    apply cellmates_all in I.
    split; [rewrite transfer_total by auto; now rewrite E|]. intros b. apply transfer_nonneg; rewrite E; auto.
Qed.

Lemma step_ok a (w : world) : NoDup all -> In a all -> (forall b, 0 <= w_wealth w b) ->
  let w' := fst (money_step neighborhood all friends social pick order a w) in
  total (w_wealth w') all = total (w_wealth w) all /\ forall b, 0 <= w_wealth w' b.
Proof.
  intros N Ia NN w'. unfold w', money_step, move.
  destruct (choice pick (neighborhood (w_pos w a)) w) as [[p w1]|] eqn:E; [|auto].
  apply choice_in in E as [_ E]. cbn [fst].
  set (w2 := World (w_wealth w1) _ (w_rng w1)). assert (w_wealth w2 = w_wealth w) as E2 by exact E.
  clearbody w2. rewrite <- E2 in *.
  destruct (0 <? w_wealth w2 a) eqn:L; [|auto]. apply Z.ltb_lt in L. now apply give_ok.
Qed.

Lemma steps_ok l : NoDup all -> (forall a, In a l -> In a all) -> forall w : world, (forall b, 0 <= w_wealth w b) ->
  let w' := steps neighborhood all friends social pick order l w in
  total (w_wealth w') all = total (w_wealth w) all /\ forall b, 0 <= w_wealth w' b.
Proof.
  intros N. induction l as [|a l IH]; intros I w NN; [simpl; auto|].
  destruct (step_ok a w N (I a (or_introl eq_refl)) NN) as [T1 N1].
  destruct (IH (fun b J => I b (or_intror J)) _ N1) as [T2 N2]. split; [|exact N2].
  etransitivity; [exact T2|exact T1].
Qed.

(** What one activation does to the wealth: nothing, or one unit from the agent to another. *)
Lemma step_transfer a (w : world) :
  let w' := fst (money_step neighborhood all friends social pick order a w) in
  (forall b, w_wealth w' b = w_wealth w b) \/
  exists other, In other all /\ w_pos w' other = w_pos w' a /\ 0 < w_wealth w a /\ (social a = true -> In other (friends a)) /\
    forall b, w_wealth w' b = w_wealth w b + (if Nat.eqb b other then 1 else 0) - (if Nat.eqb b a then 1 else 0).
Proof.
  intros w'. unfold w', money_step, move.
  destruct (choice pick (neighborhood (w_pos w a)) w) as [[p w1]|] eqn:E; [|auto].
  apply choice_in in E as [_ E]. cbn [fst].
  set (w2 := World (w_wealth w1) _ (w_rng w1)).
  assert (w_wealth w2 = w_wealth w) as E2 by exact E.
  destruct (0 <? w_wealth w2 a) eqn:L; [|left; intros b; now rewrite E2]. apply Z.ltb_lt in L. clearbody w2.
  assert (T : forall other (w3 : world), w_wealth w3 = w_wealth w2 -> forall b, w_wealth (transfer a other w3) b =
    w_wealth w b + (if Nat.eqb b other then 1 else 0) - (if Nat.eqb b a then 1 else 0)).
  { intros other w3 E3 b. unfold transfer, set_wealth. cbn [w_wealth]. rewrite E3, E2.
    destruct (Nat.eqb b a) eqn:X1.
    - apply Nat.eqb_eq in X1. subst b. destruct (Nat.eqb a other) eqn:X2; [apply Nat.eqb_eq in X2; subst other|]; lia.
    - destruct (Nat.eqb b other) eqn:X2; [apply Nat.eqb_eq in X2; subst other|]; lia. }
  assert (Q : forall X (l : list X) x (w3 : world), choice pick l w2 = Some (x, w3) -> w_pos w3 = w_pos w2).
  { intros X l x w3. destruct l; [discriminate|]. cbn [choice]. destruct (pick _ _) as [r i]. intros H. injection H as _ <-. reflexivity. }
  unfold give_money. destruct (social a) eqn:S.
  - destruct (choice pick _ w2) as [[other w3]|] eqn:C; [|left; intros b; now rewrite E2]. right. exists other.
    pose proof (Q _ _ _ _ C) as QP. apply choice_in in C as [I C].
    apply Order, filter_In in I as [I F]. apply filter_In in I as [I PE]. apply eqb_eq in PE.
    split; auto. split; [cbn [transfer set_wealth w_pos]; now rewrite QP|]. split; [rewrite <- E2; auto|]. split; [|now apply T].
    intros _. apply existsb_exists in F as (y & J & Y). apply Nat.eqb_eq in Y. now subst.
  - destruct (Nat.ltb 1 _); [|left; intros b; now rewrite E2].
    destruct (choice pick _ w2) as [[other w3]|] eqn:C; [|left; intros b; now rewrite E2]. right. exists other.
    pose proof (Q _ _ _ _ C) as QP. apply choice_in in C as [I C].
    apply filter_In in I as [I PE]. apply eqb_eq in PE.
    split; auto. split; [cbn [transfer set_wealth w_pos]; now rewrite QP|]. split; [rewrite <- E2; auto|]. split; [discriminate|now apply T].
Qed.

Lemma give_pos a (w : world) : w_pos (give_money all friends social pick order a w) = w_pos w.
Proof.
  assert (Q : forall X (l : list X) x (w3 : world), choice pick l w = Some (x, w3) -> w_pos w3 = w_pos w).
  { intros X l x w3. destruct l; [discriminate|]. cbn [choice]. destruct (pick _ _) as [r i]. intros H. injection H as _ <-. reflexivity. }
  unfold give_money. destruct (social a); [|destruct (Nat.ltb _ _); [|reflexivity]];
    (destruct (choice pick _ w) as [[other w1]|] eqn:C; [|reflexivity]);
    unfold transfer, set_wealth; cbn [w_pos]; eauto.
Qed.
Lemma step_moves a (w : world) :
  let '(w', raised) := money_step neighborhood all friends social pick order a w in
  (neighborhood (w_pos w a) = [] -> raised = true /\ w' = w) /\
  (neighborhood (w_pos w a) <> [] -> raised = false /\ In (w_pos w' a) (neighborhood (w_pos w a))) /\
  forall b, b <> a -> w_pos w' b = w_pos w b.
Proof.
  unfold money_step, move. destruct (choice pick (neighborhood (w_pos w a)) w) as [[p w1]|] eqn:E.
  - assert (NE : neighborhood (w_pos w a) <> []) by (intros X; rewrite X in E; discriminate).
    assert (Q : w_pos w1 = w_pos w).
    { destruct (neighborhood (w_pos w a)); [discriminate|]. cbn [choice] in E. destruct (pick _ _). injection E as _ <-. reflexivity. }
    apply choice_in in E as [I _].
    set (w2 := World (w_wealth w1) _ (w_rng w1)).
    set (w3 := if 0 <? w_wealth w2 a then _ else _).
    assert (X : w_pos w3 = w_pos w2) by (subst w3; destruct (0 <? _); auto using give_pos).
    split; [contradiction|]. rewrite X. subst w2. cbn [w_pos]. split.
    + intros _. now rewrite Nat.eqb_refl.
    + intros b N. apply Nat.eqb_neq in N. now rewrite N, Q.
  - assert (NE : neighborhood (w_pos w a) = []).
    { destruct (neighborhood (w_pos w a)); [reflexivity|]. cbn [choice] in E. destruct (pick _ _). discriminate. }
    rewrite NE. repeat split; auto; congruence.
Qed.

(** When money changes hands. *)
Lemma choice_some {X} (l : list X) (w : world) : l <> [] -> exists x w', choice pick l w = Some (x, w').
Proof. destruct l as [|x l]; [easy|]. intros _. cbn [choice]. destruct (pick _ _). eauto. Qed.
Hypothesis Order2 : forall l x, In x l -> In x (order l).
Lemma step_gives a (w : world) : neighborhood (w_pos w a) <> [] -> 0 < w_wealth w a -> In a all -> NoDup all ->
  let w' := fst (money_step neighborhood all friends social pick order a w) in
  (exists b, In b all /\ w_pos w' b = w_pos w' a /\ if social a then In b (friends a) else b <> a) ->
  exists other, In other all /\ w_pos w' other = w_pos w' a /\ (social a = true -> In other (friends a)) /\
    forall b, w_wealth w' b = w_wealth w b + (if Nat.eqb b other then 1 else 0) - (if Nat.eqb b a then 1 else 0).
Proof.
  intros NE M Ia ND w' (b & Ib & Pb & Fb). subst w'. revert Pb. unfold money_step, move.
  destruct (choice_some (neighborhood (w_pos w a)) w NE) as (p & w1 & E). rewrite E.
  apply choice_in in E as [_ E]. cbn [fst].
  set (w2 := World (w_wealth w1) _ (w_rng w1)).
  assert (w_wealth w2 = w_wealth w) as E2 by exact E. clearbody w2.
  rewrite E2. apply Z.ltb_lt in M. rewrite M. rewrite give_pos. intros Pb.
  assert (T : forall other (w3 : world), w_wealth w3 = w_wealth w2 -> forall b, w_wealth (transfer a other w3) b =
    w_wealth w b + (if Nat.eqb b other then 1 else 0) - (if Nat.eqb b a then 1 else 0)).
  { intros other w3 E3 c. unfold transfer, set_wealth. cbn [w_wealth]. rewrite E3, E2.
    destruct (Nat.eqb c a) eqn:X1.
    - apply Nat.eqb_eq in X1. subst c. destruct (Nat.eqb a other) eqn:X2; [apply Nat.eqb_eq in X2; subst other|]; lia.
    - destruct (Nat.eqb c other) eqn:X2; [apply Nat.eqb_eq in X2; subst other|]; lia. }
  assert (Cb : In b (cellmates all a w2)).
  { apply filter_In. split; auto. now apply eqb_eq. }
  unfold give_money. destruct (social a) eqn:S.
  - set (l := filter _ (cellmates all a w2)).
    assert (L : In b (order l)).
    { apply Order2, filter_In. split; auto. apply existsb_exists. exists b. split; auto. apply Nat.eqb_refl. }
    destruct (choice_some (order l) w2) as (other & w3 & C); [intros X; now rewrite X in L|]. rewrite C.
    exists other. apply choice_in in C as [I C]. apply Order, filter_In in I as [I F].
    apply filter_In in I as [I PE]. apply eqb_eq in PE. repeat split; auto.
    intros _. apply existsb_exists in F as (y & J & Y). apply Nat.eqb_eq in Y. now subst.
  - assert (L : Nat.ltb 1 (List.length (cellmates all a w2)) = true).
    { apply Nat.ltb_lt. change 1%nat with (pred (List.length [a; b])).
      assert (List.length [a; b] <= List.length (cellmates all a w2))%nat; [|simpl in *; lia].
      apply NoDup_incl_length.
      - constructor; [|constructor; [easy|constructor]]. intros [X|[]]. now subst.
      - intros x [<-|[<-|[]]]; auto. apply filter_In. split; auto. now apply eqb_eq. }
    rewrite L.
    destruct (choice_some (cellmates all a w2) w2) as (other & w3 & C); [intros X; now rewrite X in Cb|]. rewrite C.
    exists other. apply choice_in in C as [I C]. apply filter_In in I as [I PE]. apply eqb_eq in PE.
    repeat split; auto. discriminate.
Qed.
End P.

(** * The coefficient of Gini *)
Lemma insert_perm x l : Permutation (x :: l) (insert x l).
Proof.
  induction l as [|y l IH]; simpl; [auto|]. destruct (x <=? y); auto.
  eapply perm_trans; [apply perm_swap|]. now constructor.
Qed.
Lemma sort_perm l : Permutation l (sort l).
Proof. induction l as [|x l IH]; simpl; auto. eapply perm_trans; [|apply insert_perm]. now constructor. Qed.
Lemma insert_sorted x l : StronglySorted Z.le l -> StronglySorted Z.le (insert x l).
Proof.
  induction 1 as [|y l S IH F]; simpl; [repeat constructor|]. destruct (x <=? y) eqn:E.
  - apply Z.leb_le in E. constructor; [now constructor|]. constructor; auto.
    eapply Forall_impl; [|exact F]. simpl. intros; lia.
  - apply Z.leb_gt in E. constructor; auto. eapply Permutation_Forall; [apply insert_perm|]. constructor; auto. lia.
Qed.
Lemma sort_sorted l : StronglySorted Z.le (sort l).
Proof. induction l as [|x l IH]; simpl; [constructor|]. now apply insert_sorted. Qed.
Lemma sorted_unique l : forall m, StronglySorted Z.le l -> StronglySorted Z.le m -> Permutation l m -> l = m.
Proof.
  induction l as [|x l IH]; intros m L M H; [apply Permutation_nil in H; now subst|].
  destruct m as [|y m]; [symmetry in H; apply Permutation_nil in H; discriminate|].
  inversion L as [|x1 x2 L1 L2]; subst. inversion M as [|x1 x2 M1 M2]; subst.
  assert (x = y) as ->.
  { assert (In y (x :: l)) as I1 by (eapply Permutation_in; [symmetry; exact H|simpl; auto]).
    assert (In x (y :: m)) as I2 by (eapply Permutation_in; [exact H|simpl; auto]).
    rewrite Forall_forall in L2, M2. destruct I1 as [->|I1]; auto. destruct I2 as [->|I2]; auto.
    specialize (L2 y I1). specialize (M2 x I2). lia. }
  f_equal. apply IH; auto. now apply Permutation_cons_inv in H.
Qed.
Lemma sort_unique l m : Permutation l m -> sort l = sort m.
Proof.
  intros H. apply sorted_unique; auto using sort_sorted.
  eapply perm_trans; [symmetry; apply sort_perm|]. eapply perm_trans; [exact H|apply sort_perm].
Qed.
Lemma sum_perm l m : Permutation l m -> sum l = sum m.
Proof. unfold sum. induction 1; simpl; lia. Qed.

Lemma weighted_shift l : forall n i, weighted (n + 1) (i + 1) l = weighted n i l.
Proof.
  induction l as [|x l IH]; intros n i; [reflexivity|]. simpl. rewrite IH. f_equal. f_equal. lia.
Qed.
Lemma sum_ge x l : Forall (Z.le x) l -> x * Z.of_nat (List.length l) <= sum l.
Proof. induction 1 as [|y l H _ IH]; cbn [sum fold_right List.length] in *; [lia|]. fold (sum l) in *. lia. Qed.
Lemma weighted_upper l : StronglySorted Z.le l ->
  2 * weighted (Z.of_nat (List.length l)) 0 l <= (Z.of_nat (List.length l) + 1) * sum l.
Proof.
  induction 1 as [|x l S IH F]; [simpl; lia|]. cbn [weighted List.length].
  replace (Z.of_nat (Datatypes.S (List.length l))) with (Z.of_nat (List.length l) + 1) by lia.
  rewrite weighted_shift. apply sum_ge in F. change (sum (x :: l)) with (x + sum l).
  set (n := Z.of_nat (List.length l)) in *. nia.
Qed.
Lemma weighted_lower l : Forall (Z.le 0) l -> sum l <= weighted (Z.of_nat (List.length l)) 0 l.
Proof.
  induction 1 as [|x l H F IH]; [simpl; lia|]. cbn [weighted List.length].
  replace (Z.of_nat (Datatypes.S (List.length l))) with (Z.of_nat (List.length l) + 1) by lia.
  rewrite weighted_shift. change (sum (x :: l)) with (x + sum l). nia.
Qed.
Lemma weighted_same x k : 2 * weighted (Z.of_nat k) 0 (repeat x k) = (Z.of_nat k + 1) * (Z.of_nat k * x).
Proof.
  induction k as [|k IH]; [simpl; lia|]. cbn [repeat weighted].
  replace (Z.of_nat (S k)) with (Z.of_nat k + 1) by lia. rewrite weighted_shift. lia.
Qed.
Lemma sum_repeat x k : sum (repeat x k) = Z.of_nat k * x.
Proof. induction k as [|k IH]; [reflexivity|]. cbn [repeat]. change (sum (x :: repeat x k)) with (x + sum (repeat x k)). lia. Qed.
Lemma sort_repeat x k : sort (repeat x k) = repeat x k.
Proof.
  apply sorted_unique; auto using sort_sorted; [|symmetry; apply sort_perm].
  induction k as [|k IH]; simpl; constructor; auto. apply Forall_forall. intros y I. apply repeat_spec in I. lia.
Qed.

(** A fraction of integers between bounds. *)
Lemma gini_bounds l : Forall (Z.le 0) l -> 0 < sum l ->
  exists g, gini l = Some g /\ (0 <= g <= 1 - 1 / inject_Z (Z.of_nat (List.length l)))%Q.
Proof.
  intros F S. unfold gini. rewrite <- (sum_perm l (sort l) (sort_perm l)).
  set (n := Z.of_nat (List.length l)).
  assert (0 < n) as N. { destruct l; [simpl in S; lia|]. unfold n. cbn [List.length]. lia. }
  assert (n * sum l =? 0 = false) as -> by (apply Z.eqb_neq; nia). eexists. split; [reflexivity|].
  pose proof (weighted_upper (sort l) (sort_sorted l)) as U.
  pose proof (weighted_lower (sort l) (Permutation_Forall (sort_perm l) F)) as L.
  rewrite <- (Permutation_length (sort_perm l)), <- (sum_perm l (sort l) (sort_perm l)) in U, L. fold n in U, L.
  set (w := weighted n 0 (sort l)) in *. set (s := sum l) in *. clearbody w s n.
  assert (0 < inject_Z n)%Q as QN by (change 0%Q with (inject_Z 0); rewrite <- Zlt_Qlt; lia).
  assert (0 < inject_Z s)%Q as QS by (change 0%Q with (inject_Z 0); rewrite <- Zlt_Qlt; lia).
  assert (inject_Z (n * s) == inject_Z n * inject_Z s)%Q as E by now rewrite inject_Z_mult.
  rewrite Zle_Qle in U, L.
  rewrite !inject_Z_mult, inject_Z_plus in U. change (inject_Z 2) with 2%Q in U. change (inject_Z 1) with 1%Q in U.
  set (qw := inject_Z w) in *. set (qs := inject_Z s) in *. set (qn := inject_Z n) in *.
  assert (0 < qn * qs)%Q as QP by nra.
  assert (2 * (qw / inject_Z (n * s)) == (2 * qw) / (qn * qs))%Q as D.
  { rewrite E. field. split; lra. }
  assert (1 / qn == qs / (qn * qs))%Q as D1 by (field; split; lra).
  assert (1 == (qn * qs) / (qn * qs))%Q as D2 by (field; split; lra).
  assert (forall x y, x <= y -> x / (qn * qs) <= y / (qn * qs))%Q as M.
  { intros x y H. unfold Qdiv. apply Qmult_le_compat_r; auto. apply Qlt_le_weak, Qinv_lt_0_compat. exact QP. }
  split.
  - assert (2 * qw / (qn * qs) <= (qn * qs + qs) / (qn * qs))%Q as H by (apply M; lra).
    assert ((qn * qs + qs) / (qn * qs) == (qn * qs) / (qn * qs) + qs / (qn * qs))%Q as D3 by (field; split; lra).
    lra.
  - assert ((2 * qs) / (qn * qs) <= (2 * qw) / (qn * qs))%Q as H by (apply M; lra).
    assert ((2 * qs) / (qn * qs) == 2 * (qs / (qn * qs)))%Q as D3 by (field; split; lra).
    lra.
Qed.
Lemma gini_equal x k : 0 < x -> (0 < k)%nat -> exists g, gini (repeat x k) = Some g /\ (g == 0)%Q.
Proof.
  intros X K. unfold gini. rewrite sort_repeat, sum_repeat, repeat_length.
  pose proof (weighted_same x k) as W. set (n := Z.of_nat k) in *. assert (0 < n) as N by (unfold n; lia).
  assert (n * (n * x) =? 0 = false) as -> by (apply Z.eqb_neq; nia). eexists. split; [reflexivity|].
  set (w := weighted n 0 (repeat x k)) in *. clearbody w n. 
  apply (f_equal inject_Z) in W. rewrite !inject_Z_mult, inject_Z_plus in W.
  change (inject_Z 2) with 2%Q in W. change (inject_Z 1) with 1%Q in W. rewrite !inject_Z_mult.
  assert (0 < inject_Z n)%Q as QN by (change 0%Q with (inject_Z 0); rewrite <- Zlt_Qlt; lia).
  assert (0 < inject_Z x)%Q as QS by (change 0%Q with (inject_Z 0); rewrite <- Zlt_Qlt; lia).
  set (qw := inject_Z w) in *. set (qx := inject_Z x) in *. set (qn := inject_Z n) in *.
  assert (qw == (qn + 1) * (qn * qx) / 2)%Q as -> by (apply Qmult_inj_l with 2%Q; [discriminate|]; rewrite W; field).
  field. split; lra.
Qed.
Lemma gini_order l m : Permutation l m -> gini l = gini m.
Proof.
  intros H. unfold gini. rewrite (sort_unique l m H), (Permutation_length H). reflexivity.
Qed.
