(** Proofs about distributions of agents. *)
From Coq Require Import List Bool Arith ZArith QArith Qround Qfield String Permutation Lia Lqa Setoid.
From Verif Require Import PyDict DistModel DistSpec.
Import ListNotations.

(** Thresholds. *)
Lemma tiles_end l : forall a b b', b == b' -> tiles a l b -> tiles a l b'.
Proof.
  induction l as [|[x y] l IH]; simpl; intros a b b' E T.
  - now rewrite T.
  - destruct T as [T1 T2]. split; auto. eapply IH; eauto.
Qed.
Lemma weighs_weight (d : dist Q) w : weighs 1 d w -> weight 1 d = w.
Proof. unfold weighs, weight. destruct (di_weight d); intros [H|[H1 H2]]; congruence. Qed.

(** The weights of the entries without "ids". *)
Fixpoint free (l : list (dist Q)) (ws : list Q) : list Q :=
  match l, ws with
  | d :: l', w :: ws' => if di_ids d then free l' ws' else w :: free l' ws'
  | _, _ => []
  end.
Lemma intervals_tile total l ws : ~ total == 0 -> Forall2 (weighs 1) l ws -> forall acc,
  tiles acc (somes (intervals 1 Qplus Qdiv total acc l)) (acc + sumQ (free l ws) / total)
  /\ Forall2 (fun w i => snd i - fst i == w / total) (free l ws) (somes (intervals 1 Qplus Qdiv total acc l)).
Proof.
  intros T F. induction F as [|d w l ws W F IH]; intros acc; simpl.
  - split; [|constructor]. field. auto.
  - rewrite (weighs_weight _ _ W). destruct (di_ids d); simpl.
    + apply IH.
    + destruct (IH (acc + w / total)) as [A B]. split.
      * split; [reflexivity|]. eapply tiles_end; [|exact A]. field. auto.
      * constructor; auto. simpl. field. auto.
Qed.
Lemma total_sum l : forall ws, Forall2 (weighs 1) l ws -> forall s,
  fold_left (fun s d => s + weight 1 d) l s == s + sumQ ws.
Proof.
  induction l as [|d l IH]; intros ws F s; inversion F as [|d' w l' ws' W F' E1 E2]; subst; simpl.
  - ring.
  - rewrite (IH _ F'), (weighs_weight _ _ W). ring.
Qed.
Lemma sumQ_pos ws : Forall (fun w => 0 < w) ws -> 0 <= sumQ ws /\ (ws <> [] -> 0 < sumQ ws).
Proof.
  induction 1 as [|w ws W F [IH _]]; simpl.
  - split; [lra|congruence].
  - split; [|intros _]; lra.
Qed.
Lemma free_sum l ws : Forall2 (weighs 1) l ws -> Forall (fun w => 0 < w) ws ->
  sumQ (free l ws) <= sumQ ws /\ (existsb di_ids l = true -> sumQ (free l ws) < sumQ ws)
  /\ (existsb di_ids l = false -> free l ws = ws).
Proof.
  intros F. induction F as [|d w l ws W F IH]; intros P; simpl.
  - split; [lra|]. split; [discriminate|auto].
  - inversion P as [|w' ws' P1 P2]; subst. destruct (IH P2) as (A & B & C).
    destruct (di_ids d); simpl.
    + split; [lra|]. split; [lra|discriminate].
    + split; [lra|]. split; [intros E; specialize (B E); lra|]. intros E. now rewrite (C E).
Qed.

Lemma thresholds_q l ws : l <> [] -> Forall2 (weighs 1) l ws -> Forall (fun w => 0 < w) ws ->
  exists ts b, thresholds 0 1 Qplus Qdiv (Some l) false = Some ts
    /\ List.length ts = List.length l
    /\ tiles 0 (somes ts) b
    /\ Forall2 (fun w i => snd i - fst i == w / sumQ ws) (free l ws) (somes ts)
    /\ b == sumQ (free l ws) / sumQ ws
    /\ (forall i d, nth_error l i = Some d -> (nth_error ts i = Some None <-> di_ids d = true)).
Proof.
  intros N F P.
  set (total := fold_left (fun s d => s + weight 1 d) l 0).
  assert (T : total == sumQ ws). { unfold total. rewrite (total_sum l ws F). ring. }
  assert (ws <> []) as N' by (intros ->; inversion F; subst; congruence).
  destruct (sumQ_pos ws P) as [_ S]. specialize (S N').
  assert (~ total == 0) as T0 by (rewrite T; lra).
  destruct (intervals_tile total l ws T0 F 0) as [A B].
  exists (intervals 1 Qplus Qdiv total 0 l), (sumQ (free l ws) / sumQ ws).
  split. { destruct l as [|d l']; [congruence|reflexivity]. }
  split. { clear. generalize 0. generalize total. clear total. intros t. induction l as [|d l IH]; simpl; auto. intros q.
    destruct (di_ids d); simpl; rewrite IH; auto. }
  split. { eapply tiles_end; [|exact A]. rewrite T. field. lra. }
  split. { clear -B T. revert B. generalize (free l ws) (somes (intervals 1 Qplus Qdiv total 0 l)).
    intros a b. induction 1; constructor; auto. now rewrite <- T. }
  split; [reflexivity|].
  clear. generalize 0. generalize total. clear total. intros t.
  induction l as [|d l IH]; intros q i d' E; destruct i; simpl in *; try discriminate.
  - injection E as <-. destruct (di_ids d); split; congruence.
  - destruct (di_ids d); simpl; apply IH; auto.
Qed.

Lemma all_some {X} (l : list (option X)) : (forall i, nth_error l i <> Some None) -> l = map Some (somes l).
Proof.
  induction l as [|[x|] l IH]; simpl; intros H; auto.
  - f_equal. apply IH. intros i. apply (H (S i)).
  - destruct (H O). reflexivity.
Qed.
Lemma thresholds_partition l ws : l <> [] -> Forall2 (weighs 1) l ws -> Forall (fun w => 0 < w) ws ->
  Forall (fun d => di_ids d = false) l ->
  exists ts, thresholds 0 1 Qplus Qdiv (Some l) false = Some (map Some ts)
    /\ tiles 0 ts 1 /\ Forall2 (fun w i => snd i - fst i == w / sumQ ws) ws ts.
Proof.
  intros N F P I. destruct (thresholds_q l ws N F P) as (ts & b & A & L & T & W & B & O).
  assert (existsb di_ids l = false) as I'.
  { clear -I. induction I as [|d l E I IH]; simpl; auto. now rewrite E, IH. }
  destruct (free_sum l ws F P) as (_ & _ & Fr). specialize (Fr I'). rewrite Fr in *.
  assert (ts = map Some (somes ts)) as E.
  { apply all_some. intros i Hi.
    assert (i < List.length l)%nat as Hl. { rewrite <- L. apply nth_error_Some. congruence. }
    destruct (nth_error l i) as [d|] eqn:Ed; [|apply nth_error_None in Ed; lia].
    apply (O i d Ed) in Hi. rewrite Forall_forall in I.
    apply nth_error_In in Ed. specialize (I _ Ed). congruence. }
  exists (somes ts). split; [now rewrite <- E|]. split; auto.
  eapply tiles_end; [|exact T]. rewrite B. field.
  assert (ws <> []) as N' by (intros ->; inversion F; subst; congruence).
  destruct (sumQ_pos ws P) as [_ S]. specialize (S N'). lra.
Qed.
Lemma tiles_find ts : forall a b u, tiles a ts b -> (forall i, In i ts -> fst i < snd i) -> a <= u -> u < b ->
  exists n i, nth_error ts n = Some i /\ within u i
    /\ forall m j, nth_error ts m = Some j -> within u j -> m = n.
Proof.
  assert (A : forall ts a b u, tiles a ts b -> (forall i, In i ts -> fst i < snd i) -> u < a ->
    forall m j, nth_error ts m = Some j -> ~ within u j).
  { induction ts0 as [|[x y] ts0 IH]; intros a b u T P U m j E; destruct m; simpl in *; try discriminate.
    - injection E as <-. destruct T as [T _]. intros [H _]. simpl in H. lra.
    - destruct T as [T1 T2]. specialize (P (x, y)) as Pxy. simpl in Pxy.
      specialize (Pxy (or_introl eq_refl)). apply (IH y b u) with (m := m); auto. lra. }
  induction ts as [|[x y] ts IH]; intros a b u T P U1 U2; simpl in T.
  - lra.
  - destruct T as [T1 T2]. destruct (Qlt_le_dec u y) as [L|L].
    + exists O, (x, y). split; [reflexivity|]. split.
      * unfold within. simpl. lra.
      * intros m j E W. destruct m; auto. simpl in E. exfalso.
        eapply (A ts y b u); eauto. intros i Hi. apply P. now right.
    + destruct (IH y b u) as (n & i & E & W & O); auto.
      { intros i Hi. apply P. now right. }
      exists (S n), i. split; auto. split; auto. intros m j Em Wm. destruct m.
      * simpl in Em. injection Em as <-. destruct Wm as [_ Wm]. simpl in Wm. lra.
      * f_equal. eapply O; eauto.
Qed.
Lemma thresholds_draw l ws u : l <> [] -> Forall2 (weighs 1) l ws -> Forall (fun w => 0 < w) ws ->
  Forall (fun d => di_ids d = false) l -> 0 <= u -> u < 1 ->
  exists ts n i, thresholds 0 1 Qplus Qdiv (Some l) false = Some (map Some ts)
    /\ nth_error ts n = Some i /\ within u i
    /\ forall m j, nth_error ts m = Some j -> within u j -> m = n.
Proof.
  intros N F P I U1 U2. destruct (thresholds_partition l ws N F P I) as (ts & A & T & W).
  destruct (tiles_find ts 0 1 u T) as (n & i & E); auto.
  - intros i Hi. assert (0 < sumQ ws) as S.
    { apply (sumQ_pos ws P). intros ->; inversion F; subst; congruence. }
    clear -W P Hi S. revert S W. generalize (sumQ ws). intros t S W.
    induction W as [|w j ws ts E W IH]; [contradiction|].
    inversion P as [|w' ws' P1 P2]; subst. destruct Hi as [<-|Hi]; auto.
    assert (0 < w / t). { apply Qlt_shift_div_l; auto. lra. } lra.
  - exists ts, n, i. split; auto.
Qed.
Lemma thresholds_ids l ws : Forall2 (weighs 1) l ws -> Forall (fun w => 0 < w) ws ->
  Exists (fun d => di_ids d = true) l ->
  exists ts b, thresholds 0 1 Qplus Qdiv (Some l) false = Some ts /\ tiles 0 (somes ts) b /\ b < 1.
Proof.
  intros F P I.
  assert (l <> []) as N by (intros ->; inversion I).
  destruct (thresholds_q l ws N F P) as (ts & b & A & L & T & W & B & O).
  exists ts, b. split; auto. split; auto.
  destruct (free_sum l ws F P) as (_ & Fr & _).
  assert (existsb di_ids l = true) as I'.
  { apply existsb_exists. apply Exists_exists in I. exact I. }
  specialize (Fr I'). assert (0 < sumQ ws) as S.
  { apply (sumQ_pos ws P). intros ->; inversion F; subst; congruence. }
  rewrite B. apply Qlt_shift_div_r; auto. lra.
Qed.

Lemma Forall2_length {X Y} (P : X -> Y -> Prop) l l' : Forall2 P l l' -> List.length l = List.length l'.
Proof. induction 1; simpl; auto. Qed.

(** Numbers of agents. *)
Section Distro.
Context {V C : Type}.
Implicit Types (distro : list (entry V C)) (df : defaults V C).

Lemma weighted_weights distro ws : weighted distro ws -> map the_weight distro = ws.
Proof. induction 1 as [|e w distro ws [E _] W IH]; simpl; auto. unfold the_weight at 1. now rewrite E, IH. Qed.
Lemma min_weight_spec l : forall w, (In (min_weight w l) (w :: l))
  /\ forall x, In x (w :: l) -> min_weight w l <= x.
Proof.
  unfold min_weight. induction l as [|y l IH]; intros w; simpl.
  - split; auto. intros x [->|[]]. lra.
  - destruct (Qle_bool w y) eqn:E.
    + apply Qle_bool_iff in E. destruct (IH w) as [A B]. split.
      * simpl in A. tauto.
      * intros x [->|[->|H]].
        -- apply B. now left.
        -- specialize (B w (or_introl eq_refl)). lra.
        -- apply B. now right.
    + assert (y < w) as L. { destruct (Qlt_le_dec y w) as [L|L]; auto. apply Qle_bool_iff in L. congruence. }
      destruct (IH y) as [A B]. split.
      * simpl in A. tauto.
      * intros x [->|[->|H]].
        -- specialize (B y (or_introl eq_refl)). lra.
        -- apply B. now left.
        -- apply B. now right.
Qed.
Lemma Qsum_sum l : forall s, fold_left Qplus l s == s + sumQ l.
Proof. induction l as [|x l IH]; intros s; simpl; [ring|]. rewrite IH. ring. Qed.

(** The normalised weights. *)
Lemma norms_spec distro ws : weighted distro ws -> distro <> [] -> exists m, smallest m ws
  /\ 0 < m /\ norms distro = map (fun x => x / m) ws.
Proof.
  intros W N. unfold norms. rewrite (weighted_weights _ _ W).
  destruct ws as [|w l]. { inversion W; subst. congruence. }
  destruct (min_weight_spec l w) as [A B].
  exists (min_weight w l). split; [split; auto|]. split; auto.
  assert (Forall (fun w => 0 < w) (w :: l)) as P.
  { clear -W. induction W as [|e x distro ws [_ P] W IH]; auto. }
  rewrite Forall_forall in P. auto.
Qed.
Lemma smallest_unique ws m m' : smallest m ws -> smallest m' ws -> m == m'.
Proof. intros [A B] [A' B']. apply Qle_antisym; auto. Qed.

Lemma share_bound l (c : Z) : (0 <= c)%Z -> Forall (fun x => 0 <= x) l ->
  inject_Z (Z.of_nat (fold_right plus O (map (fun x => Z.to_nat (Qfloor (x * inject_Z c))) l)))
    <= sumQ l * inject_Z c.
Proof.
  intros Hc. induction 1 as [|x l X F IH]; simpl.
  - ring_simplify. unfold inject_Z. lra.
  - rewrite Nat2Z.inj_add, inject_Z_plus.
    assert (0 <= x * inject_Z c) as X0.
    { apply Qmult_le_0_compat; auto. change 0 with (inject_Z 0). now rewrite <- Zle_Qle. }
    assert (inject_Z (Z.of_nat (Z.to_nat (Qfloor (x * inject_Z c)))) <= x * inject_Z c).
    { rewrite Z2Nat.id. apply Qfloor_le. apply Qfloor_resp_le in X0. exact X0. }
    rewrite Qmult_plus_distr_l. apply Qplus_le_compat; auto.
Qed.
Lemma repeat_indices_length n distro l : forall i,
  List.length (repeat_indices n distro i l) = fold_right plus O (map (share n distro) l).
Proof.
  induction l as [|x l IH]; intros i; simpl; auto. now rewrite app_length, repeat_length, IH.
Qed.
Lemma count_repeat i k : count_occ Nat.eq_dec (repeat i k) i = k.
Proof. induction k; simpl; auto. destruct (Nat.eq_dec i i); congruence. Qed.
Lemma repeat_indices_count n distro l : forall i j x, nth_error l j = Some x ->
  (share n distro x <= count_occ Nat.eq_dec (repeat_indices n distro i l) (i + j))%nat.
Proof.
  induction l as [|y l IH]; intros i j x E; destruct j; simpl in *; try discriminate.
  - injection E as ->. rewrite count_occ_app, Nat.add_0_r, count_repeat. lia.
  - rewrite count_occ_app. specialize (IH (S i) j x E).
    replace (i + S j)%nat with (S i + j)%nat by lia. lia.
Qed.
Lemma repeat_indices_in n distro l : forall i j, In j (repeat_indices n distro i l) ->
  (i <= j < i + List.length l)%nat.
Proof.
  induction l as [|y l IH]; intros i j; simpl; [tauto|]. rewrite in_app_iff. intros [H|H].
  - apply repeat_spec in H. subst. lia.
  - specialize (IH (S i) j H). lia.
Qed.

Lemma norms_facts n distro ws : weighted distro ws -> distro <> [] ->
  exists m, smallest m ws /\ 0 < m /\ norms distro = map (fun x => x / m) ws
  /\ chunk n distro = Qfloor (inject_Z (Z.of_nat n) * m / sumQ ws)
  /\ (0 <= chunk n distro)%Z /\ 0 < sumQ ws
  /\ sumQ (norms distro) * inject_Z (chunk n distro) <= inject_Z (Z.of_nat n).
Proof.
  intros W N. destruct (norms_spec distro ws W N) as (m & S & M & E).
  assert (Forall (fun w => 0 < w) ws) as P.
  { clear -W. induction W as [|e x distro ws [_ P] W IH]; auto. }
  assert (0 < sumQ ws) as SP.
  { apply (sumQ_pos ws P). intros ->; inversion W; subst; congruence. }
  assert (sumQ (norms distro) == sumQ ws / m) as SN.
  { rewrite E. clear -M. induction ws as [|w ws IH]; simpl. { field. lra. } rewrite IH. field. lra. }
  assert (inject_Z (Z.of_nat n) / Qsum (norms distro) == inject_Z (Z.of_nat n) * m / sumQ ws) as CE.
  { unfold Qsum. rewrite Qsum_sum, SN. field. split; lra. }
  assert (0 <= inject_Z (Z.of_nat n)) as Hn.
  { change 0 with (inject_Z 0). rewrite <- Zle_Qle. lia. }
  exists m. split; auto. split; auto. split; auto.
  assert (chunk n distro = Qfloor (inject_Z (Z.of_nat n) * m / sumQ ws)) as Ch.
  { unfold chunk. now rewrite CE. }
  split; auto. split; [|split; auto].
  - rewrite Ch. apply (Qfloor_resp_le 0). apply Qle_shift_div_l; auto.
    assert (0 <= inject_Z (Z.of_nat n) * m) by (apply Qmult_le_0_compat; lra). lra.
  - pose proof (Qfloor_le (inject_Z (Z.of_nat n) * m / sumQ ws)) as L. rewrite <- Ch in L.
    assert (0 < sumQ ws / m) as D. { apply Qlt_shift_div_l; auto. lra. }
    rewrite SN. rewrite Qmult_comm.
    setoid_replace (inject_Z (Z.of_nat n)) with ((inject_Z (Z.of_nat n) * m / sumQ ws) * (sumQ ws / m)).
    2:{ field. split; lra. }
    apply Qmult_le_compat_r; lra.
Qed.
Lemma indices_length n distro ws : weighted distro ws -> distro <> [] ->
  (List.length (indices n distro) <= n)%nat.
Proof.
  intros W N. destruct (norms_facts n distro ws W N) as (m & S & M & E & _ & C0 & SP & L).
  unfold indices. rewrite repeat_indices_length.
  assert (Forall (fun x => 0 <= x) (norms distro)) as P.
  { rewrite E. clear -W M. induction W as [|e x distro ws [_ P] W IH]; simpl; constructor; auto.
    apply Qle_shift_div_l; auto. lra. }
  pose proof (share_bound (norms distro) (chunk n distro) C0 P) as B.
  assert (inject_Z (Z.of_nat (fold_right plus O (map (share n distro) (norms distro)))) <= inject_Z (Z.of_nat n)) as Q.
  { eapply Qle_trans; [exact B|exact L]. }
  rewrite <- Zle_Qle in Q. lia.
Qed.
Lemma indices_count n distro ws i w : weighted distro ws -> distro <> [] -> nth_error ws i = Some w ->
  forall m, smallest m ws ->
  (Qfloor (w / m * inject_Z (Qfloor (inject_Z (Z.of_nat n) * m / sumQ ws)))
    <= Z.of_nat (count_occ Nat.eq_dec (indices n distro) i))%Z.
Proof.
  intros W N E m' S'. destruct (norms_facts n distro ws W N) as (m & S & M & En & Ch & C0 & SP & L).
  pose proof (smallest_unique ws m m' S S') as Em.
  assert (nth_error (norms distro) i = Some (w / m)) as Ei.
  { rewrite En. exact (map_nth_error (fun x => x / m) _ _ E). }
  pose proof (repeat_indices_count n distro (norms distro) 0 i (w / m) Ei) as B.
  change (share n distro (w / m) <= count_occ Nat.eq_dec (indices n distro) i)%nat in B. unfold share in B.
  assert (Qfloor (w / m' * inject_Z (Qfloor (inject_Z (Z.of_nat n) * m' / sumQ ws)))
     = Qfloor (w / m * inject_Z (chunk n distro))) as Ef.
  { rewrite Ch. assert (Qfloor (inject_Z (Z.of_nat n) * m' / sumQ ws) = Qfloor (inject_Z (Z.of_nat n) * m / sumQ ws)) as ->.
    { apply Qfloor_comp. apply Qdiv_comp; [|reflexivity]. apply Qmult_comp; [reflexivity|]. now apply Qeq_sym. }
    apply Qfloor_comp. apply Qmult_comp; [|reflexivity]. apply Qdiv_comp; [reflexivity|]. now apply Qeq_sym. }
  rewrite Ef. lia.
Qed.

Lemma describe_all_types df distro l : forall topology, (forall i, In i l -> (i < List.length distro)%nat) ->
  Forall2 (of_type df distro) l (describe_all df distro topology l).
Proof.
  induction l as [|i l IH]; intros topology I; simpl; [constructor|].
  destruct (nth_error distro i) as [e|] eqn:E.
  - destruct (describe df topology e) as [s t] eqn:D. constructor.
    + exists e. split; auto. unfold describe in D. injection D as <- <-. simpl. unfold or_default. destruct (en_class e); auto.
    + apply IH. intros j Hj. apply I. now right.
  - apply nth_error_None in E. specialize (I i (or_introl eq_refl)). lia.
Qed.
Lemma weighted_given distro ws : weighted distro ws ->
  forallb (fun e => match en_weight e with Some _ => true | None => false end) distro = true.
Proof. induction 1 as [|e w distro ws [E _] W IH]; simpl; auto. now rewrite E, IH. Qed.
Lemma weighted_no_zero distro ws : weighted distro ws ->
  existsb (fun e => Qeq_bool (the_weight e) 0) distro = false.
Proof.
  induction 1 as [|e w distro ws [E P] W IH]; simpl; auto. rewrite IH, orb_false_r.
  unfold the_weight. rewrite E. destruct (Qeq_bool w 0) eqn:Q; auto.
  apply Qeq_bool_iff in Q. lra.
Qed.
Lemma completed_spec n distro ws more : weighted distro ws -> distro <> [] ->
  may_choose distro more ->
  exists l, completed n distro more = Some l /\ List.length l = n
    /\ (forall i, In i l -> (i < List.length distro)%nat)
    /\ forall i, (count_occ Nat.eq_dec (indices n distro) i <= count_occ Nat.eq_dec l i)%nat.
Proof.
  intros W N M. destruct (M (n - List.length (indices n distro))%nat) as [M1 M2]. pose proof (indices_length n distro ws W N) as L.
  assert (forall i, In i (indices n distro) -> (i < List.length distro)%nat) as I.
  { intros i H. apply repeat_indices_in in H.
    destruct (norms_spec distro ws W N) as (m & _ & _ & E). rewrite E, map_length in H.
    assert (List.length distro = List.length ws) as K by (eapply Forall2_length; exact W). lia. }
  unfold completed. rewrite (weighted_given _ _ W).
  destruct (List.length (indices n distro) <? n)%nat eqn:K.
  - exists (indices n distro ++ more (n - List.length (indices n distro))%nat). split; auto. split; [rewrite app_length; apply Nat.ltb_lt in K; lia|].
    split.
    + intros i H. apply in_app_iff in H. destruct H; auto.
    + intros i. rewrite count_occ_app. lia.
  - apply Nat.ltb_ge in K. exists (indices n distro). split; auto. split; [lia|]. split; auto.
Qed.
Lemma from_distro_numbers distro ws n df topology more shuffled :
  weighted distro ws -> distro <> [] ->
  may_choose distro more ->
  (forall l, Permutation (shuffled l) l) ->
  exists idxs l, from_distro distro (Some n) df topology more shuffled = Agents l
    /\ List.length l = n /\ Forall2 (of_type df distro) idxs l
    /\ forall i w m, nth_error ws i = Some w -> smallest m ws ->
       (Qfloor (w / m * inject_Z (Qfloor (inject_Z (Z.of_nat n) * m / sumQ ws)))
         <= Z.of_nat (count_occ Nat.eq_dec idxs i))%Z.
Proof.
  intros W N M S. destruct (completed_spec n distro ws more W N M) as (l & E & L & I & Co).
  exists (shuffled l), (describe_all df distro topology (shuffled l)).
  assert (Forall2 (of_type df distro) (shuffled l) (describe_all df distro topology (shuffled l))) as F.
  { apply describe_all_types. intros i H. apply I. eapply Permutation_in; [apply S|exact H]. }
  split. { unfold from_distro. rewrite (weighted_no_zero _ _ W), E. simpl. destruct distro; congruence. }
  split. { rewrite <- (Forall2_length _ _ _ F). rewrite (Permutation_length (S l)). exact L. }
  split; auto. intros i w m Ei Sm.
  pose proof (indices_count n distro ws i w W N Ei m Sm) as B.
  specialize (Co i). assert (count_occ Nat.eq_dec (shuffled l) i = count_occ Nat.eq_dec l i) as Cs.
  { apply (Permutation_count_occ Nat.eq_dec). apply S. }
  lia.
Qed.
(** Whole multiples of the smallest weight get their full share. *)
Lemma whole_share (w m : Q) (z c : Z) : w / m == inject_Z z -> Qfloor (w / m * inject_Z c) = (z * c)%Z.
Proof. intros E. rewrite E, <- inject_Z_mult. apply Qfloor_Z. Qed.

Lemma no_weights (e1 e2 : entry V C) k df topology more shuffled :
  en_weight e1 = None -> en_weight e2 = None ->
  from_distro [e1; e2] (Some (2 * k + 1)%nat) df topology more shuffled = Raises TypeError.
Proof.
  intros E1 E2. unfold from_distro. cbn [existsb forallb].
  unfold the_weight. rewrite E1, E2. cbn [Qeq_bool Qle_bool andb orb]. simpl (Qeq_bool 1 0). cbv iota.
  assert (N : norms [e1; e2] = [1 / 1; 1 / 1]).
  { unfold norms, the_weight. simpl. rewrite E1, E2. reflexivity. }
  assert (Ch : chunk (2 * k + 1) [e1; e2] = Z.of_nat k).
  { unfold chunk. rewrite N. unfold Qsum. simpl fold_left.
    rewrite (Qfloor_comp _ (inject_Z (Z.of_nat k) + (1 # 2))).
    - unfold Qfloor, Qplus, inject_Z. cbn -[Z.mul Z.div Z.add Z.of_nat].
      symmetry. apply Z.div_unique with (r := 1%Z); lia.
    - rewrite Nat2Z.inj_add, Nat2Z.inj_mul, inject_Z_plus, inject_Z_mult. simpl.
      change (inject_Z 2) with 2. change (inject_Z 1) with 1. field. }
  unfold completed, indices. rewrite N. cbn [repeat_indices].
  unfold share. rewrite Ch.
  assert (Qfloor (1 / 1 * inject_Z (Z.of_nat k)) = Z.of_nat k) as Q.
  { rewrite (Qfloor_comp _ (inject_Z (Z.of_nat k))). apply Qfloor_Z. field. }
  rewrite Q, Nat2Z.id, !app_length, !repeat_length. cbn [List.length].
  assert ((k + (k + 0) <? 2 * k + 1)%nat = true) as L by (apply Nat.ltb_lt; lia).
  rewrite L. simpl. rewrite E1. reflexivity.
Qed.

(** States. *)
Lemma describe_all_states df distro l : dwf (df_state df) -> forall topology s,
  In s (describe_all df distro topology l) -> forall k v, dget k (df_state df) = Some v ->
  dget k (sp_state s) = Some v.
Proof.
  intros D. induction l as [|i l IH]; intros topology s H k v E; simpl in H; [contradiction|].
  destruct (nth_error distro i) as [e|]; [|contradiction].
  simpl in H. destruct H as [<-|H].
  - simpl. rewrite dget_update_wf by auto. now rewrite E.
  - eapply IH; eauto.
Qed.
Lemma describe_all_states_own df distro l : dwf (df_state df) -> forall topology s,
  In s (describe_all df distro topology l) -> exists e, In e distro
  /\ forall k, (dget k (en_state e) = None \/ dget k (df_state df) = None) ->
     dget k (sp_state s) = overrides k (en_state e) (df_state df).
Proof.
  intros D. induction l as [|i l IH]; intros topology s H; simpl in H; [contradiction|].
  destruct (nth_error distro i) as [e|] eqn:Ei; [|contradiction].
  simpl in H. destruct H as [<-|H].
  - exists e. split; [eapply nth_error_In; eauto|]. intros k K. simpl.
    rewrite dget_update_wf by auto. unfold overrides.
    destruct (dget k (df_state df)), (dget k (en_state e)); auto; destruct K; congruence.
  - eapply IH; eauto.
Qed.
(** The network. *)
Lemma describe_all_topology df distro l : forall topology,
  (df_topology df = true \/ (forall e, In e distro -> en_topology e <> None)
    \/ (forall e, In e distro -> en_topology e = None)) ->
  (forall i, In i l -> (i < List.length distro)%nat) ->
  Forall2 (fun i s => exists e, nth_error distro i = Some e
    /\ placed s (in_network (en_topology e) topology df)) l (describe_all df distro topology l).
Proof.
  assert (G : forall l topology topology',
    (df_topology df = true \/ (forall e, In e distro -> en_topology e <> None)
      \/ ((forall e, In e distro -> en_topology e = None)
          /\ topology || df_topology df = topology' || df_topology df)) ->
    (forall i, In i l -> (i < List.length distro)%nat) ->
    Forall2 (fun i s => exists e, nth_error distro i = Some e
      /\ placed s (in_network (en_topology e) topology df)) l (describe_all df distro topology' l)).
  { induction l0 as [|i l0 IH]; intros t t' H I; simpl; [constructor|].
    destruct (nth_error distro i) as [e|] eqn:E.
    - pose proof (nth_error_In _ _ E) as Hin. simpl. constructor.
      + exists e. split; auto. unfold placed, in_network. simpl.
        destruct (en_topology e) eqn:Et; auto.
        destruct H as [H|[H|[H1 H2]]].
        * rewrite H, !orb_true_r. reflexivity.
        * destruct (H e); auto.
        * now rewrite H2.
      + apply IH; [|intros j Hj; apply I; now right].
        destruct H as [H|[H|[H1 H2]]]; auto. right. right. split; auto.
        rewrite (H1 e Hin), <- H2. destruct t, (df_topology df); auto.
    - apply nth_error_None in E. specialize (I i (or_introl eq_refl)). lia. }
  intros topology H I. apply G; auto. destruct H as [H|[H|H]]; auto.
Qed.

(** Fixed agents. *)
Lemma from_fixed_loop_spec df topology lst : forall agents a b,
  from_fixed_loop df topology lst agents a b =
  (agents ++ map (describe_fixed df topology) lst,
   (a + List.length (filter (fun f => negb (fx_hidden f)) lst))%nat,
   (b + List.length (filter (fun f => in_network (fx_topology f) topology df) lst))%nat).
Proof.
  induction lst as [|f lst IH]; intros agents a b; simpl.
  - now rewrite app_nil_r, !Nat.add_0_r.
  - rewrite IH, <- app_assoc. simpl. unfold networked, describe_fixed at 2. simpl.
    fold (in_network (fx_topology f) topology df).
    destruct (fx_hidden f), (in_network (fx_topology f) topology df); simpl; repeat f_equal; lia.
Qed.
End Distro.

Lemma zero_weight {V C} (distro : list (entry V C)) e n df topology more shuffled :
  In e distro -> (exists w, en_weight e = Some w /\ w == 0) ->
  (forall e' w, In e' distro -> en_weight e' = Some w -> 0 <= w) ->
  from_distro distro (Some n) df topology more shuffled = Raises ZeroDivisionError.
Proof.
  intros I (w & E & Z) P. unfold from_distro.
  destruct distro as [|e0 distro]; [destruct I|].
  replace (existsb _ (e0 :: distro)) with true.
  2:{ symmetry. apply existsb_exists. exists e. split; auto. unfold the_weight. rewrite E.
      now apply Qeq_bool_iff. }
  replace (forallb _ (e0 :: distro)) with true; [reflexivity|].
  symmetry. apply forallb_forall. intros e' I'. apply Qle_bool_iff. unfold the_weight.
  destruct (en_weight e') eqn:E'; [eauto|discriminate].
Qed.
