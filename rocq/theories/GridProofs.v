(** Proofs for GridProps.v. *)
From Coq Require Import ZArith QArith List Bool Arith Lia Permutation.
From Verif Require Import PyDict WealthModel WealthSpec WealthProofs GridModel GridSpec.
Import ListNotations.
Local Open Scope Z_scope.
Local Open Scope list_scope.

Lemma zrange_in a b z : In z (zrange a b) <-> a <= z < b.
Proof.
  unfold zrange. rewrite in_map_iff. split.
  - intros (i & <- & I). apply in_seq in I. lia.
  - intros H. exists (Z.to_nat (z - a)). split; [lia|]. apply in_seq. lia.
Qed.
Lemma keys_of_facts l : forall ks, NoDup ks ->
  NoDup (fold_left (fun ks p => if existsb (eqb p) ks then ks else ks ++ [p]) l ks) /\
  forall q, In q (fold_left (fun ks p => if existsb (eqb p) ks then ks else ks ++ [p]) l ks) <-> In q ks \/ In q l.
Proof.
  induction l as [|p l IH]; intros ks N; cbn [fold_left]; [split; [exact N|intros q; cbn; tauto]|].
  destruct (existsb (eqb p) ks) eqn:E.
  - destruct (IH ks N) as [A B]. split; [exact A|]. intros q. rewrite B. cbn. apply existsb_exists in E. destruct E as (x & I & E).
    apply eqb_eq in E. subst x. split; [tauto|]. intros [H|[<-|H]]; auto.
  - destruct (IH (ks ++ [p])) as [A B].
    + apply (Permutation_NoDup (l := p :: ks)); [apply Permutation_cons_append|]. constructor; [|exact N]. intros I.
      assert (existsb (eqb p) ks = true); [|congruence]. apply existsb_exists. exists p. split; [exact I|]. now apply eqb_eq.
    + split; [exact A|]. intros q. rewrite B, in_app_iff. cbn. tauto.
Qed.
Lemma around_nodup torus width height p : NoDup (around torus width height p).
Proof. unfold around. apply NoDup_filter. apply keys_of_facts. constructor. Qed.
Lemma around_in torus width height p q : In q (around torus width height p) <-> q <> p /\
  In q (if torus then flat_map (fun dx => map (fun dy => ((fst p + dx) mod width, (snd p + dy) mod height)) (offsets height)) (offsets width)
        else flat_map (fun x => map (fun y => (x, y)) (zrange (Z.max 0 (snd p - 1)) (Z.min height (snd p + 2))))
               (zrange (Z.max 0 (fst p - 1)) (Z.min width (fst p + 2)))).
Proof.
  unfold around. rewrite filter_In. unfold keys_of. rewrite (proj2 (keys_of_facts _ [] (NoDup_nil _))). cbn [In].
  rewrite negb_true_iff. split.
  - intros [[[]|I] E]. split; [|exact I]. intros ->. assert (eqb p p = true) by now apply eqb_eq. congruence.
  - intros [E I]. split; [now right|]. apply not_true_iff_false. intros X. apply E. now apply eqb_eq.
Qed.

Lemma mod_shift w p q d : 0 < w -> 0 <= q < w -> (q = (p + d) mod w <-> (q - p - d) mod w = 0).
Proof.
  intros W Q. split.
  - intros ->. rewrite (Z.mod_eq (p + d) w) by lia. replace (p + d - w * ((p + d) / w) - p - d) with (- ((p + d) / w) * w) by lia. apply Z_mod_mult.
  - intros E. apply Z.mod_divide in E; [|lia]. destruct E as [k E]. replace (p + d) with (q + (- k) * w) by lia.
    rewrite Z_mod_plus_full. symmetry. now apply Z.mod_small.
Qed.
Lemma offsets_mod w p q : 0 < w -> 0 <= q < w ->
  ((exists d, In d (offsets w) /\ q = (p + d) mod w) <-> exists d, -1 <= d <= 1 /\ (q - p - d) mod w = 0).
Proof.
  intros W Q. unfold offsets. split.
  - intros (d & I & E). apply zrange_in in I. exists d. split; [|now apply mod_shift].
    destruct (_ && _); lia.
  - intros (d & D & E). destruct (Z.eq_dec w 1) as [->|W1].
    { exists 0. split; [apply zrange_in; cbn; lia|]. rewrite Z.mod_1_r. lia. }
    destruct (Z.eq_dec w 2) as [->|W2].
    { assert (X : (q - p - d) mod 2 = 0) by exact E. destruct (Z.eq_dec d 1) as [->|D1].
      - exists (-1). split; [apply zrange_in; cbn; lia|]. apply mod_shift; [lia|exact Q|].
        replace (q - p - -1) with (q - p - 1 + 1 * 2) by lia. now rewrite Z_mod_plus_full.
      - exists d. split; [apply zrange_in; cbn; lia|]. now apply mod_shift. }
    exists d. split; [|now apply mod_shift]. apply zrange_in.
    assert (M : 1 <= w / 2) by (apply Z.div_le_lower_bound; lia). rewrite Z.min_l by lia.
    destruct (Z.eqb_spec 1 (w / 2)) as [X|X]; cbn [andb]; [|lia].
    assert (w = 3) as -> by (pose proof (Z.div_mod w 2 ltac:(lia)); pose proof (Z.mod_pos_bound w 2 ltac:(lia)); lia). cbn. lia.
Qed.
Lemma around_torus width height p q : 0 < width -> 0 < height ->
  In q (around true width height p) <-> next_to_torus width height p q.
Proof.
  intros W H. rewrite around_in. unfold next_to_torus. apply and_iff_compat_l. destruct p as [px py], q as [qx qy]. cbn [fst snd]. split.
  - intros I. apply in_flat_map in I. destruct I as (dx & X & I). apply in_map_iff in I. destruct I as (dy & E & Y). injection E as EX EY.
    assert (QX : 0 <= qx < width) by (subst qx; now apply Z.mod_pos_bound). assert (QY : 0 <= qy < height) by (subst qy; now apply Z.mod_pos_bound).
    split; [split; [exact QX|exact QY]|].
    destruct (proj1 (offsets_mod width px qx W QX)) as (ex & A & B); [exists dx; auto|].
    destruct (proj1 (offsets_mod height py qy H QY)) as (ey & C & D); [exists dy; auto|]. exists ex, ey. auto.
  - intros ([QX QY] & dx & dy & A & B & C & D). cbn [fst snd] in *.
    destruct (proj2 (offsets_mod width px qx W QX)) as (ex & X & EX); [exists dx; auto|].
    destruct (proj2 (offsets_mod height py qy H QY)) as (ey & Y & EY); [exists dy; auto|].
    apply in_flat_map. exists ex. split; [exact X|]. apply in_map_iff. exists ey. split; [|exact Y]. congruence.
Qed.
Lemma around_flat width height p q : In q (around false width height p) <-> next_to width height p q.
Proof.
  rewrite around_in. unfold next_to, inside. apply and_iff_compat_l. destruct p as [px py], q as [qx qy]. cbn [fst snd]. split.
  - intros I. apply in_flat_map in I. destruct I as (x & X & I). apply in_map_iff in I. destruct I as (y & E & Y). injection E as -> ->.
    apply zrange_in in X, Y. lia.
  - intros H. apply in_flat_map. exists qx. split; [apply zrange_in; lia|]. apply in_map_iff. exists qy. split; [reflexivity|]. apply zrange_in. lia.
Qed.
(** Cells that are alone. *)
Lemma around_alone p : inside 1 1 p -> around true 1 1 p = [].
Proof.
  intros [X Y]. destruct (around true 1 1 p) as [|q l] eqn:E; [reflexivity|]. exfalso.
  assert (I : In q (around true 1 1 p)) by (rewrite E; now left). apply around_torus in I; [|lia|lia]. destruct I as (N & [QX QY] & _).
  apply N. destruct p, q. cbn [fst snd] in *. f_equal; lia.
Qed.
Lemma around_some width height p : 0 < width -> 0 < height -> 1 < width * height -> inside width height p -> around true width height p <> [].
Proof.
  intros W H WH [X Y]. destruct p as [x y]. cbn [fst snd] in *.
  assert (G : exists q, next_to_torus width height (x, y) q).
  { destruct (Z_lt_le_dec 1 width) as [L|L].
    - exists ((x + 1) mod width, y). assert (B := Z.mod_pos_bound (x + 1) width W). split; [|split].
      + intros E. injection E as E. destruct (Z_lt_le_dec (x + 1) width) as [M|M].
        * rewrite Z.mod_small in E by lia. lia.
        * replace (x + 1) with (0 + 1 * width) in E by lia. rewrite Z_mod_plus_full, Z.mod_0_l in E by lia. lia.
      + split; cbn [fst snd]; lia.
      + exists 1, 0. split; [lia|]. split; [lia|]. cbn [fst snd]. split; [now apply mod_shift|]. replace (y - y - 0) with 0 by lia. apply Z.mod_0_l. lia.
    - exists (x, (y + 1) mod height). assert (B := Z.mod_pos_bound (y + 1) height H). assert (LH : 1 < height) by nia. split; [|split].
      + intros E. injection E as E. destruct (Z_lt_le_dec (y + 1) height) as [M|M].
        * rewrite Z.mod_small in E by lia. lia.
        * replace (y + 1) with (0 + 1 * height) in E by lia. rewrite Z_mod_plus_full, Z.mod_0_l in E by lia. lia.
      + split; cbn [fst snd]; lia.
      + exists 0, 1. split; [lia|]. split; [lia|]. cbn [fst snd]. split; [|now apply mod_shift]. replace (x - x - 0) with 0 by lia. apply Z.mod_0_l. lia. }
  destruct G as (q & G). apply around_torus in G; auto. intros E. rewrite E in G. exact G.
Qed.

Section Steps.
Context {R : Type}.
Variable pick : R -> nat -> R * nat.
Variable draw : R -> Z -> R * Z.
Variable shuffle : R -> list nat -> R * list nat.
Variable n : nat.
Variables width height : Z.
Notation acts := (activations pick n width height).
Notation mstep := (model_step pick shuffle n width height).
Notation mrun := (model_run pick shuffle n width height).

Lemma acts_ok l : forall w : world cell R, 0 < width -> 0 < height -> 1 < width * height -> NoDup l ->
  (forall a, inside width height (w_pos w a)) ->
  let '(w', raised) := acts l w in raised = false /\
  (forall a, inside width height (w_pos w' a)) /\
  (forall a, In a l -> next_to_torus width height (w_pos w a) (w_pos w' a)) /\ forall a, ~ In a l -> w_pos w' a = w_pos w a.
Proof.
  induction l as [|a l IH]; intros w W H WH N I; cbn [activations]; [split; [reflexivity|]; split; [exact I|]; split; [intros b []|reflexivity]|].
  inversion N; subst.
  pose proof (step_moves (around true width height) (seq 0 n) (fun _ => []) (fun _ => false) pick (fun l => l) a w) as M.
  destruct (money_step (around true width height) (seq 0 n) (fun _ => []) (fun _ => false) pick (fun l => l) a w) as [w1 raised].
  destruct M as (_ & M & O). destruct M as [-> M]; [now apply around_some|]. apply around_torus in M; auto.
  assert (I1 : forall b, inside width height (w_pos w1 b)).
  { intros b. destruct (Nat.eq_dec b a) as [->|D]; [apply M|]. now rewrite O. }
  specialize (IH w1 W H WH H3 I1). destruct (acts l w1) as [w' raised]. destruct IH as (A & B & C & D). split; [exact A|]. split; [exact B|]. split.
  - intros b [<-|J].
    + rewrite D by assumption. exact M.
    + specialize (C b J). rewrite O in C; [exact C|]. intros ->. contradiction.
  - intros b J. rewrite D by (intros X; apply J; now right). apply O. intros ->. apply J. now left.
Qed.
Lemma acts_alone l (w : world cell R) : (forall a, inside 1 1 (w_pos w a)) -> l <> [] -> activations pick n 1 1 l w = (w, true).
Proof.
  intros I NE. destruct l as [|a l]; [congruence|]. cbn [activations].
  pose proof (step_moves (around true 1 1) (seq 0 n) (fun _ => []) (fun _ => false) pick (fun l => l) a w) as M.
  destruct (money_step (around true 1 1) (seq 0 n) (fun _ => []) (fun _ => false) pick (fun l => l) a w) as [w1 raised]. destruct M as (M & _).
  destruct M as [-> ->]; [now apply around_alone|]. reflexivity.
Qed.
Lemma acts_money l : forall w : world cell R, (forall a, In a l -> In a (seq 0 n)) -> (forall a, 0 <= w_wealth w a) ->
  total (w_wealth (fst (acts l w))) (seq 0 n) = total (w_wealth w) (seq 0 n) /\ forall a, 0 <= w_wealth (fst (acts l w)) a.
Proof.
  induction l as [|a l IH]; intros w I P; cbn [activations fst]; [auto|].
  pose proof (step_ok (around true width height) (seq 0 n) (fun _ => []) (fun _ => false) pick (fun l => l) (fun l x (h : In x l) => h) a w (seq_NoDup _ _)
    (I a (or_introl eq_refl)) P) as S.
  destruct (money_step (around true width height) (seq 0 n) (fun _ => []) (fun _ => false) pick (fun l => l) a w) as [w1 raised]. cbn [fst] in S.
  destruct S as [S1 S2]. destruct raised; cbn [fst]; [auto|]. destruct (IH w1 (fun b J => I b (or_intror J)) S2) as [A B]. rewrite A. auto.
Qed.

Lemma total_sum (f : nat -> Z) l : total f l = fold_right Z.add 0 (map f l).
Proof. induction l as [|a l IH]; cbn; [reflexivity|]. now rewrite IH. Qed.

Definition sound (m : mmodel R) : Prop :=
  total (w_wealth (mm_world m)) (seq 0 n) = Z.of_nat n /\ forall a, 0 <= w_wealth (mm_world m) a.
Lemma sound_gini m : (0 < n)%nat -> sound m -> exists g, gini (map (w_wealth (mm_world m)) (seq 0 n)) = Some g /\
  (0 <= g <= 1 - 1 / inject_Z (Z.of_nat n))%Q.
Proof.
  intros N [T P]. destruct (gini_bounds (map (w_wealth (mm_world m)) (seq 0 n))) as (g & E & B).
  - apply Forall_forall. intros x I. apply in_map_iff in I. destruct I as (a & <- & _). apply P.
  - rewrite <- total_sum, T. lia.
  - exists g. rewrite map_length, seq_length in B. auto.
Qed.
Lemma step_sound m : reorders shuffle -> (0 < n)%nat -> sound m -> exists g,
  gini (map (w_wealth (mm_world m)) (seq 0 n)) = Some g /\ (0 <= g <= 1 - 1 / inject_Z (Z.of_nat n))%Q /\
  mm_gini (fst (mstep m)) = mm_gini m ++ [g] /\
  mm_wealth (fst (mstep m)) = mm_wealth m ++ [map (fun a => (a, w_wealth (mm_world m) a)) (seq 0 n)] /\ sound (fst (mstep m)) /\
  snd (mstep m) <> Some EZeroDivision /\ snd (mstep m) <> Some EValue.
Proof.
  intros SH N S. destruct (sound_gini m N S) as (g & E & B). exists g. split; [exact E|]. split; [exact B|]. unfold model_step. rewrite E.
  pose proof (SH (w_rng (mm_world m)) (seq 0 n)) as P. destruct (shuffle (w_rng (mm_world m)) (seq 0 n)) as [r1 order]. cbn [snd] in P.
  destruct S as [T Q].
  destruct (acts_money order (World (w_wealth (mm_world m)) (w_pos (mm_world m)) r1)) as [A C].
  { intros a I. apply (Permutation_in (l := order)); [now apply Permutation_sym|exact I]. }
  { exact Q. }
  destruct (acts order (World (w_wealth (mm_world m)) (w_pos (mm_world m)) r1)) as [w1 raised]. cbn [fst snd mm_gini mm_wealth mm_world w_wealth] in *.
  split; [reflexivity|]. split; [reflexivity|]. split; [split; cbn [mm_world]; [rewrite A; exact T|exact C]|]. destruct raised; split; discriminate.
Qed.

Lemma placed l : forall w : world cell R, in_range draw -> 0 < width -> 0 < height -> (forall a, inside width height (w_pos w a)) ->
  exists w', place_all draw width height l w = Some w' /\ w_wealth w' = w_wealth w /\ forall a, inside width height (w_pos w' a).
Proof.
  induction l as [|a l IH]; intros w D W H I; cbn [place_all]; [eauto|].
  replace (width <=? 0) with false by (symmetry; apply Z.leb_gt; lia). replace (height <=? 0) with false by (symmetry; apply Z.leb_gt; lia). cbn [orb].
  pose proof (D (w_rng w) width W) as DX. destruct (draw (w_rng w) width) as [r1 x]. pose proof (D r1 height H) as DY. destruct (draw r1 height) as [r2 y].
  cbn [snd] in *. destruct (IH (World (w_wealth w) (fun b => if Nat.eqb b a then (x, y) else w_pos w b) r2) D W H) as (w' & E & F & G).
  - intros b. cbn [w_pos]. destruct (Nat.eqb b a); [split; cbn [fst snd]; assumption|apply I].
  - exists w'. auto.
Qed.
Lemma made r : in_range draw -> 0 < width -> 0 < height -> exists m, new_model draw n width height r = Some m /\
  mm_gini m = [] /\ mm_wealth m = [] /\ (forall a, w_wealth (mm_world m) a = 1) /\ (forall a, inside width height (w_pos (mm_world m) a)) /\ sound m.
Proof.
  intros D W H. unfold new_model. destruct (placed (seq 0 n) (World (fun _ => 1) (fun _ => (0, 0)) r) D W H) as (w & -> & E & I).
  { intros a. split; cbn [w_pos fst snd]; lia. }
  eexists. split; [reflexivity|]. cbn [mm_gini mm_wealth mm_world]. rewrite E. cbn [w_wealth]. repeat (split; [reflexivity|]). split; [exact I|].
  split; cbn [mm_world]; rewrite E; cbn [w_wealth]; [|lia]. clear. generalize 0%nat as k. induction n as [|m IH]; intros k; [reflexivity|]. cbn [seq total]. rewrite IH. lia.
Qed.
Lemma step_moves_all m : reorders shuffle -> (0 < n)%nat -> sound m -> 0 < width -> 0 < height -> 1 < width * height ->
  (forall a, inside width height (w_pos (mm_world m) a)) ->
  snd (mstep m) = None /\ (forall a, inside width height (w_pos (mm_world (fst (mstep m))) a)) /\
  forall a, (a < n)%nat -> next_to_torus width height (w_pos (mm_world m) a) (w_pos (mm_world (fst (mstep m))) a).
Proof.
  intros SH N S W H WH I. destruct (sound_gini m N S) as (g & E & _). unfold model_step. rewrite E.
  pose proof (SH (w_rng (mm_world m)) (seq 0 n)) as P. destruct (shuffle (w_rng (mm_world m)) (seq 0 n)) as [r1 order]. cbn [snd] in P.
  pose proof (acts_ok order (World (w_wealth (mm_world m)) (w_pos (mm_world m)) r1) W H WH (Permutation_NoDup P (seq_NoDup _ _)) I) as A.
  destruct (acts order (World (w_wealth (mm_world m)) (w_pos (mm_world m)) r1)) as [w1 raised]. destruct A as (-> & A & B & _). cbn [fst snd mm_world w_pos] in *.
  split; [reflexivity|]. split; [exact A|]. intros a L. apply B. apply (Permutation_in (l := seq 0 n)); [exact P|]. apply in_seq. lia.
Qed.
End Steps.
