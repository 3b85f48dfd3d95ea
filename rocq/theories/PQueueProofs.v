(** Proofs about [PQueueActivation]. *)
From Coq Require Import ZArith List Bool Arith Lia Permutation Sorted.
From Verif Require Import Num TimedModel TimedSpec TimedProofs PQueueModel PQueueSpec.
Import ListNotations.

Section Arith.
Context {AR : Arith}.

(** ** The heap *)

Definition le_when (x y : entry) : Prop := n_leb (e_when x) (e_when y) = true.
Definition times_h (h : list entry) : Prop := Forall (fun e => is_time (e_when e) = true) h.

Lemma heappush_perm h e : Permutation (heappush h e) (e :: h).
Proof.
  induction h as [|x h IH]; simpl; auto.
  destruct (key_ltb e x); auto.
  rewrite IH. apply perm_swap.
Qed.

Lemma heappush_length h e : length (heappush h e) = S (length h).
Proof. rewrite (Permutation_length (heappush_perm h e)). reflexivity. Qed.

Lemma key_ltb_le x y : is_time (e_when x) = true -> is_time (e_when y) = true ->
  key_ltb x y = true -> le_when x y.
Proof.
  unfold key_ltb, le_when, e_when. intros T1 T2.
  destruct (n_eqb (fst (fst x)) (fst (fst y))) eqn:E.
  - apply n_eqb_eq in E. rewrite E. intros _. apply n_leb_refl; auto.
  - apply n_ltb_leb.
Qed.

Lemma key_ltb_ge x y : is_time (e_when x) = true -> is_time (e_when y) = true ->
  key_ltb x y = false -> le_when y x.
Proof.
  unfold key_ltb, le_when, e_when. intros T1 T2.
  destruct (n_eqb (fst (fst x)) (fst (fst y))) eqn:E.
  - apply n_eqb_eq in E. rewrite E. intros _. apply n_leb_refl; auto.
  - intros H. apply n_total; auto.
Qed.

Lemma le_when_trans x y z : le_when x y -> le_when y z -> le_when x z.
Proof. unfold le_when. apply n_leb_trans. Qed.

Lemma heappush_sorted h e : times_h (e :: h) -> StronglySorted le_when h ->
  StronglySorted le_when (heappush h e).
Proof.
  intros T S. inversion T as [|? ? Te Th]; subst. clear T. revert Th.
  induction S as [|x h S IH F]; simpl; intros Th.
  - repeat constructor.
  - inversion Th as [|? ? Tx Th']; subst.
    destruct (key_ltb e x) eqn:K.
    + constructor; [constructor; auto|].
      pose proof (key_ltb_le _ _ Te Tx K) as L. constructor; auto.
      rewrite Forall_forall in *. intros y I. eapply le_when_trans; eauto.
    + constructor; auto. pose proof (key_ltb_ge _ _ Te Tx K) as L.
      rewrite Forall_forall in *. intros y I.
      apply (Permutation_in _ (heappush_perm h e)) in I. destruct I as [<-|I]; auto.
Qed.

(** ** The clock never goes back, whatever the agents return *)

Section Any.
Context {W : Type} (u : puser W).

Lemma pq_schedule_time s w a when r s' w' x :
  pq_schedule u s w a when r = (s', w', x) ->
  p_time s' = p_time s /\ p_di s' = p_di s /\ p_shuffle s' = p_shuffle s /\
  p_steps s' = p_steps s /\ p_reg s' = p_reg s.
Proof.
  unfold pq_schedule. destruct (if p_shuffle s then p_draw u w else _) as [w1 tie].
  destruct r; [destruct (p_heap s)|]; intros E; injection E as <- <- <-; auto.
Qed.

Lemma pq_add_time s w a when s' w' x :
  pq_add u s w a when = (s', w', x) ->
  p_time s' = p_time s /\ p_di s' = p_di s /\ p_shuffle s' = p_shuffle s.
Proof.
  unfold pq_add. destruct (pq_schedule _ _ _ _ _ _) as [[s1 w1] x1] eqn:E.
  apply pq_schedule_time in E. destruct x1; intros E1; injection E1 as <- <- <-; [tauto|].
  unfold preg_add. destruct (existsb _ _); simpl; tauto.
Qed.

Lemma pq_run_ops_time ops : forall s w s' w' tr x,
  pq_run_ops u s w ops = (s', w', tr, x) ->
  p_time s' = p_time s /\ p_di s' = p_di s /\ p_shuffle s' = p_shuffle s.
Proof.
  induction ops as [|[a when|a] ops IH]; simpl; intros s w s' w' tr x E.
  - injection E as <- <- <- <-. auto.
  - destruct (pq_add u s w a when) as [[s1 w1] x1] eqn:EA. apply pq_add_time in EA.
    destruct x1; [injection E as <- <- <- <-; auto|].
    destruct (pq_run_ops u s1 w1 ops) as [[[s2 w2] tr2] x2] eqn:EO.
    apply IH in EO. injection E as <- <- <- <-. intuition congruence.
  - apply IH in E. exact E.
Qed.

Lemma pq_loop_time fuel : forall now s w,
  match pq_loop u fuel now s w with
  | PDone s' _ _ next => p_time s' = p_time s /\ p_di s' = p_di s /\
      p_shuffle s' = p_shuffle s /\ (next = PInf \/ n_ltb now next = true)
  | PRaised s' _ _ => p_time s' = p_time s /\ p_di s' = p_di s /\ p_shuffle s' = p_shuffle s
  | PFuel => True
  end.
Proof.
  induction fuel as [|fuel IH]; cbn [pq_loop]; intros now s w; auto.
  destruct (p_heap s) as [|e h] eqn:EH; [auto|].
  destruct (n_ltb now (e_when e)) eqn:L; [auto|].
  destruct (p_step u s (e_agent e) w) as [[w1 ops] o].
  destruct (pq_run_ops u s w1 ops) as [[[s1 w2] tr1] x] eqn:EO.
  apply pq_run_ops_time in EO. destruct EO as (T1&D1&S1).
  assert (match match p_heap s1 with
                | [] => PRaised s1 w2 (tr1 ++ [EvAct now (e_agent e) (if x then Exc else o)])
                | _ :: h0 => pres_pre (tr1 ++ [EvAct now (e_agent e) (if x then Exc else o)])
                               (pq_loop u fuel now (pset_heap s1 h0) w2)
                end with
  | PDone s' _ _ next => p_time s' = p_time s /\ p_di s' = p_di s /\
      p_shuffle s' = p_shuffle s /\ (next = PInf \/ n_ltb now next = true)
  | PRaised s' _ _ => p_time s' = p_time s /\ p_di s' = p_di s /\ p_shuffle s' = p_shuffle s
  | PFuel => True
  end) as POP.
  { destruct (p_heap s1) as [|? h1]; [auto|].
    specialize (IH now (pset_heap s1 h1) w2).
    destruct (pq_loop u fuel now (pset_heap s1 h1) w2); simpl in *; intuition congruence. }
  cbv zeta.
  destruct (if x then Exc else o) as [r| |]; auto.
  destruct (n_eqb (n_add (or_num r (p_di s1)) now) PInf); auto.
  destruct (pq_schedule u s1 w2 (e_agent e) _ true) as [[s2 w3] x2] eqn:ES.
  apply pq_schedule_time in ES. destruct x2; [intuition congruence|].
  specialize (IH now s2 w3).
  destruct (pq_loop u fuel now s2 w3); simpl in *; intuition congruence.
Qed.

Lemma pq_cmd_clock fuel c s w s' w' tr :
  pq_cmd u fuel s w c = Some (s', w', tr) -> is_time (p_time s) = true ->
  is_time (p_time s') = true /\ n_leb (p_time s) (p_time s') = true.
Proof.
  intros E T. assert (n_leb (p_time s) (p_time s) = true) as R by (apply n_leb_refl; auto).
  destruct c as [|a when|a|f]; cbn [pq_cmd] in E.
  - unfold pq_step in E. destruct (n_eqb (p_time s) PInf) eqn:EI.
    + injection E as <- <- <-. auto.
    + pose proof (pq_loop_time fuel (p_time s) s w) as K.
      destruct (pq_loop u fuel (p_time s) s w) as [s1 w1 tr1 next|s1 w1 tr1|]; [| |discriminate].
      * injection E as <- <- <-. destruct K as (K1&K2&K3&[->|K4]); simpl.
        -- split; auto. destruct (p_time s); auto; discriminate.
        -- pose proof (n_ltb_leb _ _ K4) as K5. split; auto.
           apply (n_leb_is_time (p_time s)); auto.
      * injection E as <- <- <-. destruct K as (K1&_). rewrite K1. auto.
  - destruct (pq_add u s w a when) as [[s1 w1] x] eqn:EA. apply pq_add_time in EA.
    injection E as <- <- <-. destruct EA as (->&_). auto.
  - injection E as <- <- <-. auto.
  - injection E as <- <- <-. auto.
Qed.

Lemma pq_hist_clock fuel h : forall s w s' w' tr,
  pq_hist u fuel h s w = Some (s', w', tr) -> is_time (p_time s) = true ->
  is_time (p_time s') = true /\ n_leb (p_time s) (p_time s') = true.
Proof.
  induction h as [|c h IH]; cbn [pq_hist]; intros s w s' w' tr E T.
  - injection E as <- <- <-. auto using n_leb_refl.
  - destruct (pq_cmd u fuel s w c) as [[[s1 w1] tr1]|] eqn:EC; [|discriminate].
    destruct (pq_hist u fuel h s1 w1) as [[[s2 w2] tr2]|] eqn:EH; [|discriminate].
    injection E as <- <- <-.
    destruct (pq_cmd_clock _ _ _ _ _ _ _ EC T) as [T1 L1].
    destruct (IH _ _ _ _ _ EH T1) as [T2 L2]. split; auto. eapply n_leb_trans; eauto.
Qed.

Lemma pq_hist_app fuel h1 h2 s w : pq_hist u fuel (h1 ++ h2) s w =
  match pq_hist u fuel h1 s w with
  | None => None
  | Some (s1, w1, tr1) =>
      match pq_hist u fuel h2 s1 w1 with
      | None => None
      | Some (s2, w2, tr2) => Some (s2, w2, tr1 ++ tr2)
      end
  end.
Proof.
  revert s w. induction h1 as [|c h1 IH]; simpl; intros s w.
  - destruct (pq_hist u fuel h2 s w) as [[[? ?] ?]|]; auto.
  - destruct (pq_cmd u fuel s w c) as [[[s1 w1] tr1]|]; auto.
    rewrite IH. destruct (pq_hist u fuel h1 s1 w1) as [[[s2 w2] tr2]|]; auto.
    destruct (pq_hist u fuel h2 s2 w2) as [[[s3 w3] tr3]|]; auto. now rewrite app_assoc.
Qed.
End Any.

Lemma pq_clock_monotone W (u : puser W) fuel sh di h1 h2 w s1 w1 tr1 s2 w2 tr2 :
  pq_hist u fuel h1 (pq_init sh di) w = Some (s1, w1, tr1) ->
  pq_hist u fuel (h1 ++ h2) (pq_init sh di) w = Some (s2, w2, tr2) ->
  n_leb (p_time s1) (p_time s2) = true.
Proof.
  intros E1 E2. rewrite pq_hist_app, E1 in E2.
  destruct (pq_hist u fuel h2 s1 w1) as [[[s3 w3] tr3]|] eqn:E3; [|discriminate].
  injection E2 as <- <- <-.
  destruct (pq_hist_clock u fuel h1 _ _ _ _ _ E1 eq_refl) as [T1 _].
  apply (pq_hist_clock u fuel h2 _ _ _ _ _ E3 T1).
Qed.

(** ** A fixed population *)

Definition proj (e : entry) : num * aid := (e_when e, e_agent e).

Definition pinv (s : pq) (ag : list (num * aid)) : Prop :=
  nonneg (p_time s) = true /\ nonneg (p_di s) = true /\
  Forall (fun e => n_leb (p_time s) (e_when e) = true) (p_heap s) /\
  StronglySorted le_when (p_heap s) /\
  Permutation (map proj (p_heap s)) ag.

Lemma pinv_times s ag : pinv s ag -> times_h (p_heap s).
Proof.
  intros (T&_&F&_). unfold times_h. rewrite Forall_forall in *. intros e I.
  apply (n_leb_is_time (p_time s)); auto using nonneg_is_time.
Qed.

Lemma remove1_perm t a l ag : is_time t = true -> Permutation ((t, a) :: l) ag ->
  Permutation l (remove1 (t, a) ag).
Proof.
  intros T. revert l. induction ag as [|[t' b] ag IH]; intros l P.
  - apply Permutation_sym, Permutation_nil in P. discriminate.
  - simpl. destruct (due_eqb (t, a) (t', b)) eqn:E.
    + unfold due_eqb in E. simpl in E. apply andb_true_iff in E. destruct E as [E1 E2].
      apply n_eqb_eq in E1. apply Nat.eqb_eq in E2. subst.
      eapply Permutation_cons_inv; eauto.
    + assert (In (t, a) ((t', b) :: ag)) as I
        by (eapply Permutation_in; [exact P|left; reflexivity]).
      destruct I as [I|I].
      { injection I as -> ->. unfold due_eqb in E. simpl in E.
        rewrite n_eqb_refl, Nat.eqb_refl in E; auto. discriminate. }
      assert (In (t', b) ((t, a) :: l)) as I2
        by (eapply Permutation_in; [symmetry; exact P|left; reflexivity]).
      destruct I2 as [I2|I2].
      { injection I2 as -> ->. unfold due_eqb in E. simpl in E.
        rewrite n_eqb_refl, Nat.eqb_refl in E; auto. discriminate. }
      apply in_split in I2. destruct I2 as (l1&l2&->).
      assert (Permutation ((t, a) :: l1 ++ l2) ag) as P'.
      { apply (Permutation_cons_inv (a := (t', b))). rewrite <- P.
        rewrite perm_swap. apply perm_skip. apply Permutation_middle. }
      rewrite <- (IH _ P'). symmetry. apply Permutation_middle.
Qed.

Lemma pinv_rem s ag a : pinv s ag -> pinv (preg_rem s a) ag.
Proof. auto. Qed.

(** Popping the head and possibly pushing it later. *)
Lemma pinv_act s ag e h o : pinv s ag -> p_heap s = e :: h -> e_when e = p_time s ->
  let ag' := remove1 (p_time s, e_agent e) ag ++
             opt_due (e_agent e) (next_due (p_di s) (p_time s) o) in
  good_delay o ->
  In (p_time s, e_agent e) ag /\
  match next_due (p_di s) (p_time s) o with
  | None => pinv (pset_heap s h) ag'
  | Some t => forall tie, pinv (pset_heap s (heappush h (t, tie, e_agent e))) ag'
  end.
Proof.
  intros H EH EW ag' G. pose proof (pinv_times _ _ H) as TH.
  destruct H as (T&D&F&S&P). rewrite EH in *.
  assert (is_time (p_time s) = true) as Tt by (apply nonneg_is_time; auto).
  inversion F as [|? ? F1 F2]; subst. inversion S as [|? ? S1 S2]; subst.
  inversion TH as [|? ? TH1 TH2]; subst.
  simpl in P. unfold proj at 1 in P. rewrite EW in P. split.
  - eapply Permutation_in; [exact P|]. left; auto.
  - apply remove1_perm in P; auto. subst ag'.
    destruct (next_due (p_di s) (p_time s) o) as [t|] eqn:ND.
    + intros tie.
      assert (n_leb (p_time s) t = true) as L.
      { destruct o as [r| |]; try discriminate.
        rewrite next_due_when in ND. cbv zeta in ND.
        destruct (n_eqb _ PInf); [discriminate|]. injection ND as <-.
        rewrite n_add_comm. apply n_add_leb; auto. apply or_num_nonneg; auto. }
      repeat split; simpl; auto.
      * rewrite Forall_forall in *. intros x I.
        apply (Permutation_in _ (heappush_perm _ _)) in I. destruct I as [<-|I]; auto.
      * apply heappush_sorted; auto. constructor; auto.
        apply (n_leb_is_time (p_time s)); auto.
      * rewrite (Permutation_map proj (heappush_perm _ _)). simpl. unfold proj at 1.
        simpl. change (e_when (t, tie, e_agent e)) with t.
        change (e_agent (t, tie, e_agent e)) with (e_agent e).
        rewrite P. apply Permutation_cons_append.
    + repeat split; simpl; auto. rewrite app_nil_r. exact P.
Qed.

Section Fixed.
Context {W : Type} (u : puser W) (Hf : p_forward_only u) (Hn : p_adds_nobody u).

Lemma p_forward_good s a w w1 ops o : p_step u s a w = (w1, ops, o) -> good_delay o.
Proof. intros E. specialize (Hf s a w). rewrite E in Hf. destruct o as [[d|]| |]; auto. Qed.

Lemma pq_ops_none ops : forall s w,
  forallb (fun op => match op with SAdd _ _ => false | SRem _ => true end) ops = true ->
  exists s1, pq_run_ops u s w ops = (s1, w, [], false) /\
    p_heap s1 = p_heap s /\ p_time s1 = p_time s /\ p_di s1 = p_di s /\
    p_shuffle s1 = p_shuffle s /\ p_steps s1 = p_steps s /\ p_running s1 = p_running s.
Proof.
  induction ops as [|[a when|a] ops IH]; simpl; intros s w E; try discriminate.
  - exists s. auto 10.
  - destruct (IH (preg_rem s a) w E) as (s1&E1&K). exists s1. auto.
Qed.

Lemma pinv_same s s1 ag : p_heap s1 = p_heap s -> p_time s1 = p_time s -> p_di s1 = p_di s ->
  pinv s ag -> pinv s1 ag.
Proof. intros E1 E2 E3 H. unfold pinv. rewrite E1, E2, E3. exact H. Qed.

(** One iteration of the loop, for a fixed population. *)
Lemma pq_loop_S fuel s w e h ag : pinv s ag -> p_heap s = e :: h ->
  n_ltb (p_time s) (e_when e) = false ->
  e_when e = p_time s /\
  exists o w1 s1, In (p_time s, e_agent e) ag /\ good_delay o /\
    let tr1 := [EvAct (p_time s) (e_agent e) o] in
    snd (p_step u s (e_agent e) w) = o /\
    p_heap s1 = (e :: h) /\ p_time s1 = p_time s /\ p_di s1 = p_di s /\
    p_shuffle s1 = p_shuffle s /\ p_steps s1 = p_steps s /\
    pq_loop u (S fuel) (p_time s) s w =
      match o with
      | Exc => PRaised s1 w1 tr1
      | _ =>
        match next_due (p_di s) (p_time s) o with
        | None => pres_pre tr1 (pq_loop u fuel (p_time s) (pset_heap s1 h) w1)
        | Some t =>
            let '(w2, tie) := if p_shuffle s then p_draw u w1 else (w1, Z.of_nat (e_agent e)) in
            pres_pre tr1 (pq_loop u fuel (p_time s)
                            (pset_heap s1 (heappush h (t, tie, e_agent e))) w2)
        end
      end /\
      w1 = fst (fst (p_step u s (e_agent e) w)).
Proof.
  intros H EH L. pose proof (pinv_times _ _ H) as TH. pose proof H as (T&D&F&S&P).
  rewrite EH in *. inversion F as [|? ? F1 F2]; subst.
  inversion TH as [|? ? TH1 TH2]; subst.
  assert (e_when e = p_time s) as EW.
  { apply n_leb_antisym; auto. apply n_total; auto using nonneg_is_time. }
  split; auto. cbn [pq_loop]. rewrite EH, L.
  destruct (p_step u s (e_agent e) w) as [[w1 ops] o] eqn:EU.
  pose proof (p_forward_good _ _ _ _ _ _ EU) as G.
  assert (forallb (fun op => match op with SAdd _ _ => false | SRem _ => true end) ops = true) as NO
    by (specialize (Hn s (e_agent e) w); rewrite EU in Hn; exact Hn).
  destruct (pq_ops_none ops s w1 NO) as (s1&EO&H1&T1&D1&S1&N1&R1).
  exists o, w1, s1.
  split. { eapply Permutation_in; [exact P|]. left. unfold proj. now rewrite EW. }
  split; auto. cbv zeta. rewrite EO. cbv zeta. simpl app.
  split; auto. split; [congruence|]. do 4 (split; [auto|]). split; auto.
  rewrite H1, EH, D1.
  destruct o as [r| |]; auto.
  rewrite next_due_when. cbv zeta.
  destruct (n_eqb (n_add (or_num r (p_di s)) (p_time s)) PInf) eqn:EI; auto.
  unfold pq_schedule. rewrite S1.
  destruct (if p_shuffle s then p_draw u w1 else (w1, Z.of_nat (e_agent e))) as [w2 tie].
  rewrite H1, EH. reflexivity.
Qed.

Lemma pq_loop_inv fuel : forall s w ag, pinv s ag ->
  match pq_loop u fuel (p_time s) s w with
  | PDone s' w' tr next =>
      pinv s' (agenda (p_di s) ag tr) /\ p_time s' = p_time s /\ p_di s' = p_di s /\
      punctual (p_di s) ag tr /\ no_exc tr /\
      (p_heap s' = [] /\ next = PInf \/
       exists e h, p_heap s' = e :: h /\ next = e_when e /\ n_ltb (p_time s) next = true)
  | PRaised s' w' tr =>
      ~ no_exc tr /\ p_time s' = p_time s /\ p_di s' = p_di s
  | PFuel => True
  end.
Proof.
  induction fuel as [|fuel IH]; intros s w ag H; [exact I|].
  destruct (p_heap s) as [|e h] eqn:EH.
  - cbn [pq_loop]. rewrite EH. simpl. auto 10. split; auto. repeat split; auto.
  - destruct (n_ltb (p_time s) (e_when e)) eqn:L.
    + cbn [pq_loop]. rewrite EH, L. simpl. repeat split; auto; try apply H. right. eauto.
    + destruct (pq_loop_S fuel s w e h ag H EH L) as (EW&o&w1&s1&I&G&SO&H1&T1&D1&SH1&N1&E&_).
      assert (pinv s1 ag) as Hs1 by (apply (pinv_same s); auto; congruence).
      rewrite <- T1 in EW.
      destruct (pinv_act s1 ag e h o Hs1 H1 EW G) as [_ K].
      rewrite T1, D1 in K. rewrite E. clear E.
      assert (forall s2 w2, p_time s2 = p_time s -> p_di s2 = p_di s -> o <> Exc ->
        pinv s2 (agenda (p_di s) ag [EvAct (p_time s) (e_agent e) o]) ->
        match pres_pre [EvAct (p_time s) (e_agent e) o] (pq_loop u fuel (p_time s) s2 w2) with
        | PDone s' w' tr next =>
            pinv s' (agenda (p_di s) ag tr) /\ p_time s' = p_time s /\ p_di s' = p_di s /\
            punctual (p_di s) ag tr /\ no_exc tr /\
            (p_heap s' = [] /\ next = PInf \/
             exists e h, p_heap s' = e :: h /\ next = e_when e /\ n_ltb (p_time s) next = true)
        | PRaised s' w' tr =>
            ~ no_exc tr /\ p_time s' = p_time s /\ p_di s' = p_di s
        | PFuel => True
        end) as KK.
      { intros s2 w2 T2 D2 NX H2. specialize (IH s2 w2 _ H2). rewrite T2, D2 in IH.
        destruct (pq_loop u fuel (p_time s) s2 w2); simpl in *; auto.
        - assert (no_exc [EvAct (p_time s) (e_agent e) o]) as N1'
            by (destruct o; try reflexivity; congruence).
          change (EvAct (p_time s) (e_agent e) o :: tr) with
            ([EvAct (p_time s) (e_agent e) o] ++ tr). rewrite no_exc_app. tauto.
        - destruct IH as (I1&I2&I3). repeat split; auto.
          intros NE. apply I1. unfold no_exc in *. simpl in NE.
          apply andb_true_iff in NE. tauto. }
      destruct o as [r| |].
      * destruct (next_due (p_di s) (p_time s) (Ret r)) as [t|] eqn:ND.
        -- destruct (if p_shuffle s then _ else _) as [w2 tie].
           apply KK; auto; try discriminate. cbn [agenda]. rewrite ND. apply K.
        -- apply KK; auto; try discriminate. cbn [agenda]. rewrite ND. apply K.
      * simpl in *. apply KK; auto. discriminate.
      * split; auto. intros NE. discriminate NE.
Qed.

Lemma pq_step_inv fuel s w s' w' tr x ag : pinv s ag ->
  pq_step u fuel s w = Some (s', w', tr, x) -> no_exc tr ->
  x = false /\ pinv s' (agenda (p_di s) ag tr) /\ p_di s' = p_di s /\ punctual (p_di s) ag tr /\
  (n_eqb (p_time s) PInf = false ->
   p_heap s' = [] /\ p_time s' = PInf \/
   exists e h, p_heap s' = e :: h /\ p_time s' = e_when e).
Proof.
  intros H E NE. unfold pq_step in E.
  destruct (n_eqb (p_time s) PInf) eqn:EI.
  - injection E as <- <- <- <-. simpl. repeat split; auto; try apply H. discriminate.
  - pose proof (pq_loop_inv fuel s w ag H) as K.
    destruct (pq_loop u fuel (p_time s) s w) as [s1 w1 tr1 next|s1 w1 tr1|]; [| |discriminate].
    + injection E as <- <- <- <-. destruct K as (K1&K2&K3&K4&K5&K6). split; auto.
      destruct K1 as (T&D&F&S&P). rewrite K2 in *.
      split; [|split; [auto|split; [auto|]]].
      * destruct K6 as [(K6&->)|(e&h&K6&->&L)].
        -- split; [reflexivity|]. simpl. split; auto. split; auto. rewrite K6. constructor.
        -- rewrite K6 in *. split; simpl.
           { unfold nonneg. eapply n_leb_trans; [exact T|]. apply n_ltb_leb; auto. }
           split; auto. split; auto.
           inversion S as [|? ? S1 S2]; subst. constructor; auto.
           apply n_leb_refl. apply (n_leb_is_time (p_time s)); auto using n_ltb_leb, nonneg_is_time.
      * intros _. simpl. destruct K6 as [(K6&->)|(e&h&K6&->&L)]; auto. right. eauto.
    + injection E as <- <- <- <-. tauto.
Qed.

Lemma pq_cmd_inv fuel c s w s' w' tr ag : pinv s ag ->
  match c with CAdd _ _ => false | _ => true end = true ->
  pq_cmd u fuel s w c = Some (s', w', tr) -> no_exc tr ->
  pinv s' (agenda (p_di s) ag tr) /\ p_di s' = p_di s /\ punctual (p_di s) ag tr.
Proof.
  intros H NA E NE. destruct c as [|a when|a|f]; cbn [pq_cmd] in E; try discriminate.
  - destruct (pq_step u fuel s w) as [[[[s1 w1] tr1] x]|] eqn:ES; [|discriminate].
    injection E as <- <- <-.
    destruct (pq_step_inv _ _ _ _ _ _ _ _ H ES NE) as (_&K1&K2&K3&_). auto.
  - injection E as <- <- <-. simpl. repeat split; auto; apply H.
  - injection E as <- <- <-. simpl. repeat split; auto; apply H.
Qed.

Lemma pq_hist_inv fuel h : forall s w s' w' tr ag, pinv s ag -> adds_nobody h ->
  pq_hist u fuel h s w = Some (s', w', tr) -> no_exc tr ->
  pinv s' (agenda (p_di s) ag tr) /\ p_di s' = p_di s /\ punctual (p_di s) ag tr.
Proof.
  induction h as [|c h IH]; cbn [pq_hist]; intros s w s' w' tr ag H NA E NE.
  - injection E as <- <- <-. simpl. auto.
  - unfold adds_nobody in NA. simpl in NA. apply andb_true_iff in NA. destruct NA as [NA1 NA2].
    destruct (pq_cmd u fuel s w c) as [[[s1 w1] tr1]|] eqn:EC; [|discriminate].
    destruct (pq_hist u fuel h s1 w1) as [[[s2 w2] tr2]|] eqn:EH; [|discriminate].
    injection E as <- <- <-. apply no_exc_app in NE. destruct NE as [NE1 NE2].
    destruct (pq_cmd_inv _ _ _ _ _ _ _ _ H NA1 EC NE1) as (H1&D1&P1).
    destruct (IH _ _ _ _ _ _ H1 NA2 EH NE2) as (H2&D2&P2).
    rewrite D1 in *. rewrite agenda_app, punctual_app. auto.
Qed.
End Fixed.

(** Adding the population at time 0. *)
Lemma pq_add_zero W (u : puser W) s w a : p_time s = Fin 0 ->
  exists tie w', pq_add u s w a None =
    (preg_add (pset_heap s (heappush (p_heap s) (Fin 0, tie, a))) a, w', false) /\
    (w' = w \/ w' = fst (p_draw u w)).
Proof.
  intros T. unfold pq_add, pq_schedule. rewrite T. simpl.
  destruct (p_shuffle s).
  - destruct (p_draw u w) as [w1 tie]. exists tie, w1. auto.
  - exists (Z.of_nat a), w. auto.
Qed.

Lemma add_all_inv W (u : puser W) fuel l : forall s w ag, pinv s ag -> p_time s = Fin 0 ->
  exists s' w', pq_hist u fuel (add_all l) s w = Some (s', w', map (EvAdd (Fin 0)) l) /\
    pinv s' (ag ++ map (pair (Fin 0)) l) /\ p_time s' = Fin 0 /\ p_di s' = p_di s /\
    p_shuffle s' = p_shuffle s /\ p_steps s' = p_steps s /\
    (forall R : W -> W -> Prop, (forall w, R w w) -> (forall a b c, R a b -> R b c -> R a c) ->
      (forall w, R (fst (p_draw u w)) w) -> R w' w) /\
    length (p_heap s') = length (p_heap s) + length l.
Proof.
  induction l as [|a l IH]; intros s w ag H T.
  - exists s, w. cbn. rewrite app_nil_r. repeat split; auto; apply H.
  - cbn [add_all map pq_hist pq_cmd].
    destruct (pq_add_zero W u s w a T) as (tie&w1&E&EW). rewrite E.
    set (s1 := preg_add (pset_heap s (heappush (p_heap s) (Fin 0, tie, a))) a).
    assert (p_time s1 = Fin 0 /\ p_di s1 = p_di s /\ p_shuffle s1 = p_shuffle s /\
            p_steps s1 = p_steps s /\ p_heap s1 = heappush (p_heap s) (Fin 0, tie, a))
      as (T1&D1&S1&N1&H1).
    { subst s1. unfold preg_add. destruct (existsb _ _); simpl; auto. }
    assert (pinv s1 (ag ++ [(Fin 0, a)])) as I1.
    { pose proof (pinv_times _ _ H) as TH. destruct H as (HT&HD&HF&HS&HP).
      unfold pinv. rewrite T1, D1, H1. rewrite T in *. repeat split; auto.
      - rewrite Forall_forall in *. intros x I.
        apply (Permutation_in _ (heappush_perm _ _)) in I. destruct I as [<-|I]; auto.
      - apply heappush_sorted; auto. constructor; auto.
      - rewrite (Permutation_map proj (heappush_perm _ _)). simpl.
        rewrite HP. apply Permutation_cons_append. }
    destruct (IH s1 w1 _ I1 T1) as (s'&w'&E'&I'&T'&D'&S'&N'&R'&L').
    unfold add_all in E'. rewrite E'. exists s', w'. rewrite T. split; [reflexivity|].
    rewrite <- app_assoc in I'. simpl in I'. repeat split; auto; try congruence; try apply I'.
    + intros R R1 R2 R3. apply (R2 _ w1); [apply R'; auto|].
      destruct EW as [->| ->]; auto.
    + rewrite L', H1, heappush_length. simpl. lia.
Qed.

Lemma pinv_init sh di : nonneg di = true -> pinv (pq_init sh di) [].
Proof. intros D. repeat split; auto; constructor. Qed.

Lemma agenda_adds di ag l : agenda di ag (map (EvAdd (Fin 0)) l) = ag ++ map (pair (Fin 0)) l.
Proof.
  revert ag. induction l as [|a l IH]; simpl; intros ag; [now rewrite app_nil_r|].
  rewrite IH, <- app_assoc. reflexivity.
Qed.

Lemma punctual_adds di ag l : punctual di ag (map (EvAdd (Fin 0)) l).
Proof. revert ag. induction l as [|a l IH]; simpl; auto. Qed.

Lemma pq_fixed W (u : puser W) fuel sh di l h w s' w' tr :
  p_forward_only u -> p_adds_nobody u -> nonneg di = true -> adds_nobody h ->
  pq_hist u fuel (add_all l ++ h) (pq_init sh di) w = Some (s', w', tr) -> no_exc tr ->
  pinv s' (agenda di [] tr) /\ punctual di [] tr.
Proof.
  intros F N D NA E NE. rewrite pq_hist_app in E.
  destruct (add_all_inv W u fuel l (pq_init sh di) w [] (pinv_init _ _ D) eq_refl)
    as (s1&w1&E1&I1&T1&D1&_). rewrite E1 in E.
  destruct (pq_hist u fuel h s1 w1) as [[[s2 w2] tr2]|] eqn:EH; [|discriminate].
  injection E as <- <- <-. apply no_exc_app in NE. destruct NE as [NE1 NE2].
  simpl in D1.
  destruct (pq_hist_inv u F N fuel h _ _ _ _ _ _ I1 NA EH NE2) as (K1&K2&K3).
  rewrite D1 in *. rewrite agenda_app, punctual_app, agenda_adds. auto using punctual_adds.
Qed.

Lemma pinv_not_late s ag : pinv s ag -> forall t a, In (t, a) ag -> n_leb (p_time s) t = true.
Proof.
  intros (T&D&F&S&P) t a I. apply (Permutation_in _ (Permutation_sym P)) in I.
  apply in_map_iff in I. destruct I as (e&E&I). injection E as <- <-.
  rewrite Forall_forall in F. auto.
Qed.

Lemma pq_agenda W (u : puser W) fuel sh di l h w s' w' tr :
  p_forward_only u -> p_adds_nobody u -> nonneg di = true -> adds_nobody h ->
  pq_hist u fuel (add_all l ++ h) (pq_init sh di) w = Some (s', w', tr) -> no_exc tr ->
  punctual di [] tr /\
  forall t a, In (t, a) (agenda di [] tr) -> n_leb (p_time s') t = true.
Proof.
  intros F N D NA E NE. destruct (pq_fixed _ _ _ _ _ _ _ _ _ _ _ F N D NA E NE) as [I P].
  split; auto. apply pinv_not_late; auto.
Qed.

(** Times of the events. *)
Section Evok.
Context {W : Type} (u : puser W) (Hf : p_forward_only u) (Hn : p_adds_nobody u).

Lemma pq_loop_evok fuel : forall s w ag, pinv s ag ->
  match pq_loop u fuel (p_time s) s w with
  | PDone _ _ tr _ => Forall ev_ok tr /\ forallb is_act tr = true
  | PRaised _ _ tr => Forall ev_ok tr /\ forallb is_act tr = true
  | PFuel => True
  end.
Proof.
  induction fuel as [|fuel IH]; intros s w ag H; [exact I|].
  destruct (p_heap s) as [|e h] eqn:EH.
  - cbn [pq_loop]. rewrite EH. auto.
  - destruct (n_ltb (p_time s) (e_when e)) eqn:L.
    + cbn [pq_loop]. rewrite EH, L. auto.
    + destruct (pq_loop_S u Hf Hn fuel s w e h ag H EH L)
        as (EW&o&w1&s1&I&G&SO&H1&T1&D1&SH1&N1&E&_).
      assert (pinv s1 ag) as Hs1 by (apply (pinv_same s); auto; congruence).
      rewrite <- T1 in EW.
      destruct (pinv_act s1 ag e h o Hs1 H1 EW G) as [_ K].
      rewrite T1, D1 in K. rewrite E. clear E.
      assert (ev_ok (EvAct (p_time s) (e_agent e) o)) as V.
      { simpl. split; auto. apply nonneg_is_time, H. }
      assert (forall s2 w2 ag2, p_time s2 = p_time s -> pinv s2 ag2 ->
        match pres_pre [EvAct (p_time s) (e_agent e) o] (pq_loop u fuel (p_time s) s2 w2) with
        | PDone _ _ tr _ => Forall ev_ok tr /\ forallb is_act tr = true
        | PRaised _ _ tr => Forall ev_ok tr /\ forallb is_act tr = true
        | PFuel => True
        end) as KK.
      { intros s2 w2 ag2 T2 H2. specialize (IH s2 w2 ag2 H2). rewrite T2 in IH.
        destruct (pq_loop u fuel (p_time s) s2 w2); simpl; auto;
        destruct IH; split; auto. }
      destruct o as [r| |].
      * destruct (next_due (p_di s) (p_time s) (Ret r)) as [t|] eqn:ND.
        -- destruct (if p_shuffle s then _ else _) as [w2 tie].
           eapply KK; [|apply K]. auto.
        -- eapply KK; [|apply K]. auto.
      * eapply KK; [|apply K]. auto.
      * auto.
Qed.

Lemma pq_hist_evok fuel h : forall s w s' w' tr ag, pinv s ag -> adds_nobody h ->
  pq_hist u fuel h s w = Some (s', w', tr) -> no_exc tr ->
  Forall ev_ok tr /\ forallb is_act tr = true.
Proof.
  induction h as [|c h IH]; cbn [pq_hist]; intros s w s' w' tr ag H NA E NE.
  - injection E as <- <- <-. auto.
  - unfold adds_nobody in NA. simpl in NA. apply andb_true_iff in NA. destruct NA as [NA1 NA2].
    destruct (pq_cmd u fuel s w c) as [[[s1 w1] tr1]|] eqn:EC; [|discriminate].
    destruct (pq_hist u fuel h s1 w1) as [[[s2 w2] tr2]|] eqn:EH; [|discriminate].
    injection E as <- <- <-. apply no_exc_app in NE. destruct NE as [NE1 NE2].
    destruct (pq_cmd_inv u Hf Hn _ _ _ _ _ _ _ _ H NA1 EC NE1) as (H1&D1&P1).
    destruct (IH _ _ _ _ _ _ H1 NA2 EH NE2) as (V2&A2).
    assert (Forall ev_ok tr1 /\ forallb is_act tr1 = true) as [V1 A1].
    { destruct c as [|a when|a|f]; cbn [pq_cmd] in EC; try discriminate.
      - unfold pq_step in EC. destruct (n_eqb (p_time s) PInf).
        + injection EC as <- <- <-. auto.
        + pose proof (pq_loop_evok fuel s w _ H) as K.
          destruct (pq_loop u fuel (p_time s) s w); try discriminate;
          injection EC as <- <- <-; auto.
      - injection EC as <- <- <-. auto.
      - injection EC as <- <- <-. auto. }
    split; [apply Forall_app; auto|]. rewrite forallb_app, A1, A2. auto.
Qed.
End Evok.

Lemma adds_of_acts a tr : forallb is_act tr = true -> adds_of a tr = 0.
Proof.
  unfold adds_of. induction tr as [|e tr IH]; simpl; auto.
  destruct e; simpl; [discriminate|]. auto.
Qed.

Lemma adds_of_map a l : NoDup l -> In a l -> adds_of a (map (EvAdd (Fin 0)) l) = 1.
Proof.
  unfold adds_of. induction 1 as [|b l NI ND IH]; simpl; [tauto|]. intros [->|I].
  - rewrite Nat.eqb_refl. simpl. f_equal.
    clear - NI. induction l as [|c l IH]; simpl; auto.
    destruct (Nat.eqb_spec a c); simpl.
    + subst. exfalso. apply NI. left; auto.
    + apply IH. intros I. apply NI. right; auto.
  - destruct (Nat.eqb_spec a b); [subst; contradiction|]. auto.
Qed.

Lemma pq_timetable W (u : puser W) fuel sh di l h w s' w' tr a :
  p_forward_only u -> p_adds_nobody u -> nonneg di = true -> adds_nobody h ->
  NoDup l -> In a l ->
  pq_hist u fuel (add_all l ++ h) (pq_init sh di) w = Some (s', w', tr) -> no_exc tr ->
  exists rest pend,
    filter (about a) tr = EvAdd (Fin 0) a :: rest /\
    timetable di a (Fin 0) rest pend /\
    match pend with Some t => n_leb (p_time s') t = true | None => True end.
Proof.
  intros F N D NA ND I E NE.
  destruct (pq_fixed _ _ _ _ _ _ _ _ _ _ _ F N D NA E NE) as [HI P].
  rewrite pq_hist_app in E.
  destruct (add_all_inv W u fuel l (pq_init sh di) w [] (pinv_init _ _ D) eq_refl)
    as (s1&w1&E1&I1&T1&D1&_). rewrite E1 in E.
  destruct (pq_hist u fuel h s1 w1) as [[[s2 w2] tr2]|] eqn:EH; [|discriminate].
  injection E as <- <- <-. pose proof NE as NE0. apply no_exc_app in NE. destruct NE as [NE1 NE2].
  destruct (pq_hist_evok u F N fuel h _ _ _ _ _ _ I1 NA EH NE2) as [V A].
  set (tr := map (EvAdd (Fin 0)) l ++ tr2) in *.
  assert (adds_of a tr = 1) as AO.
  { unfold adds_of, tr. rewrite filter_app, app_length.
    pose proof (adds_of_acts a _ A) as Z. unfold adds_of in Z. rewrite Z.
    pose proof (adds_of_map a l ND I) as Y. unfold adds_of in Y. rewrite Y. auto. }
  assert (Forall ev_ok tr) as VT.
  { apply Forall_app. split; auto. rewrite Forall_forall. intros e IE.
    apply in_map_iff in IE. destruct IE as (b&<-&_). reflexivity. }
  rewrite Forall_forall in VT.
  destruct (timetable_added di a tr []) as (t0&rest&pend&F1&TT&DD); auto.
  - constructor.
  - intros t b IE. exact (VT _ IE).
  - intros t b o t' IE NDU. eapply evok_next_due; eauto.
  - assert (t0 = Fin 0) as ->.
    { assert (In (EvAdd t0 a) tr) as IE.
      { assert (In (EvAdd t0 a) (filter (about a) tr)) as IF by (rewrite F1; left; auto).
        apply filter_In in IF. tauto. }
      unfold tr in IE. apply in_app_or in IE. destruct IE as [IE|IE].
      - apply in_map_iff in IE. destruct IE as (b&EB&_). congruence.
      - rewrite forallb_forall in A. specialize (A _ IE). discriminate. }
    exists rest, pend. split; [auto|split; [auto|]].
    destruct pend as [t|]; auto.
    apply (pinv_not_late _ _ HI t a).
    assert (In t (due_of a (agenda di [] tr))) as IT by (rewrite DD; left; auto).
    unfold due_of in IT. apply in_map_iff in IT. destruct IT as [[t1 a1] [ET IT]].
    apply filter_In in IT. destruct IT as [IT E2]. simpl in *.
    apply Nat.eqb_eq in E2. subst. exact IT.
Qed.
End Arith.
