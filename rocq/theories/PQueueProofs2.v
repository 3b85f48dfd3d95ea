(** Termination, additions and failures of [PQueueActivation]; agreement of both
    schedulers. *)
From Coq Require Import ZArith List Bool Arith Lia Permutation Sorted.
From Verif Require Import Num TimedModel TimedSpec TimedProofs PQueueModel PQueueSpec
  PQueueProofs.
Import ListNotations.

Section Arith.
Context {AR : Arith}.

(** ** Termination *)

Definition late (now : num) (h : list entry) : nat :=
  length (filter (fun e => negb (n_ltb now (e_when e))) h).

Lemma late_push now h e : n_ltb now (e_when e) = true -> late now (heappush h e) = late now h.
Proof.
  intros L. unfold late. induction h as [|x h IH]; simpl.
  - rewrite L. reflexivity.
  - destruct (key_ltb e x); simpl.
    + rewrite L. simpl. reflexivity.
    + destruct (negb (n_ltb now (e_when x))); simpl; congruence.
Qed.

Lemma late_le now h : late now h <= length h.
Proof.
  unfold late. induction h as [|x h IH]; simpl; auto.
  destruct (negb _); simpl; lia.
Qed.

Lemma later_ltb {HP : Precise AR} now d : is_time now = true -> n_eqb now PInf = false ->
  n_ltb (Fin 0) d = true -> n_ltb now (n_add d now) = true.
Proof. intros. rewrite n_add_comm. apply precise_later; auto. Qed.

Lemma or_num_pos r di : n_ltb (Fin 0) di = true -> good_delay (Ret r) ->
  n_ltb (Fin 0) (or_num r di) = true.
Proof.
  intros D. destruct r as [v|]; simpl; auto. unfold n_truthy.
  destruct (n_eqb v (Fin 0)) eqn:E; simpl; auto. intros G.
  destruct v; simpl in *; try discriminate; auto.
  unfold nonneg, n_leb in G. simpl in G. apply orb_true_iff in G.
  destruct G as [G|G]; auto. rewrite Z.eqb_sym in G. congruence.
Qed.

Section Term.
Context {HP : Precise AR} {W : Type} (u : puser W) (Hf : p_forward_only u) (Hn : p_adds_nobody u).

Lemma pq_loop_terminates fuel : forall s w,
  is_time (p_time s) = true -> n_eqb (p_time s) PInf = false ->
  n_ltb (Fin 0) (p_di s) = true -> late (p_time s) (p_heap s) < fuel ->
  pq_loop u fuel (p_time s) s w <> PFuel.
Proof.
  induction fuel as [|fuel IH]; intros s w T NI D L; [lia|].
  cbn [pq_loop]. destruct (p_heap s) as [|e h] eqn:EH; [discriminate|].
  destruct (n_ltb (p_time s) (e_when e)) eqn:LT; [discriminate|].
  unfold late in L. cbn [filter] in L. rewrite LT in L. cbn in L.
  assert (late (p_time s) h < fuel) as L' by (unfold late; lia). clear L.
  destruct (p_step u s (e_agent e) w) as [[w1 ops] o] eqn:EU.
  pose proof (p_forward_good u Hf _ _ _ _ _ _ EU) as G.
  assert (forallb (fun op => match op with SAdd _ _ => false | SRem _ => true end) ops = true) as NO
    by (specialize (Hn s (e_agent e) w); rewrite EU in Hn; exact Hn).
  destruct (pq_ops_none u ops s w1 NO) as (s1&EO&H1&T1&D1&S1&N1&R1).
  rewrite EO. cbv zeta. rewrite H1, EH.
  assert (forall s2 w2 tr, p_time s2 = p_time s -> p_di s2 = p_di s ->
    late (p_time s) (p_heap s2) < fuel ->
    pres_pre tr (pq_loop u fuel (p_time s) s2 w2) <> PFuel) as K.
  { intros s2 w2 tr T2 D2 L2. specialize (IH s2 w2). rewrite T2, D2 in IH.
    specialize (IH T NI D L2). destruct (pq_loop u fuel (p_time s) s2 w2); simpl; congruence. }
  destruct o as [r| |].
  - destruct (n_eqb (n_add (or_num r (p_di s1)) (p_time s)) PInf) eqn:EI.
    + apply K; auto.
    + unfold pq_schedule. rewrite S1, H1, EH.
      destruct (if p_shuffle s then p_draw u w1 else (w1, Z.of_nat (e_agent e))) as [w2 tie].
      apply K; simpl; auto. rewrite late_push; auto.
      unfold e_when. cbn [fst]. rewrite D1.
      apply later_ltb; auto. apply or_num_pos; auto.
  - apply K; auto.
  - discriminate.
Qed.

Lemma pq_step_terminates fuel s w : is_time (p_time s) = true ->
  n_ltb (Fin 0) (p_di s) = true -> length (p_heap s) < fuel ->
  pq_step u fuel s w <> None.
Proof.
  intros T D L. unfold pq_step. destruct (n_eqb (p_time s) PInf) eqn:EI; [discriminate|].
  pose proof (pq_loop_terminates fuel s w T EI D) as K.
  pose proof (late_le (p_time s) (p_heap s)).
  destruct (pq_loop u fuel (p_time s) s w); try discriminate.
  exfalso. apply K; auto. lia.
Qed.
End Term.

(** ** Additions *)

Lemma preg_add_heap s a : p_heap (preg_add s a) = p_heap s.
Proof. unfold preg_add. destruct (existsb _ _); reflexivity. Qed.

(** What an addition does to the heap, exactly. *)
Lemma pq_add_heap W (u : puser W) s w a when s' w' x :
  pq_add u s w a when = (s', w', x) ->
  exists tie,
  let new := (p_time s, tie, a) in
  if n_truthy (match when with None => p_time s | Some t => t end) then
    match p_heap s with
    | [] => x = true /\ s' = s
    | _ :: rest => x = false /\ Permutation (p_heap s') (new :: rest)
    end
  else x = false /\ Permutation (p_heap s') (new :: p_heap s).
Proof.
  unfold pq_add, pq_schedule.
  destruct (if p_shuffle s then p_draw u w else (w, Z.of_nat a)) as [w1 tie] eqn:ED.
  exists tie. cbv zeta.
  destruct (n_truthy _).
  - destruct (p_heap s) as [|e h] eqn:EH.
    + injection H as <- <- <-. auto.
    + injection H as <- <- <-. split; auto. rewrite preg_add_heap. apply heappush_perm.
  - injection H as <- <- <-. split; auto. rewrite preg_add_heap. apply heappush_perm.
Qed.

Lemma filter_perm {A} (f : A -> bool) l l' : Permutation l l' ->
  Permutation (filter f l) (filter f l').
Proof.
  induction 1; simpl; auto.
  - destruct (f x); auto.
  - destruct (f x), (f y); auto. apply perm_swap.
  - eauto using Permutation_trans.
Qed.

Lemma pending_perm a h h' : Permutation h h' -> Permutation (pending a h) (pending a h').
Proof. intros P. apply Permutation_map, filter_perm, P. Qed.

(** At time zero (and without a truthy [when]) nobody else's activation is touched. *)
Lemma pq_add_zero_keeps W (u : puser W) s w a s' w' x b :
  p_time s = Fin 0 -> pq_add u s w a None = (s', w', x) -> a <> b ->
  x = false /\ Permutation (pending b (p_heap s')) (pending b (p_heap s)).
Proof.
  intros T E NE. destruct (pq_add_heap _ _ _ _ _ _ _ _ _ E) as (tie&K).
  rewrite T in K. cbn in K. destruct K as [K1 K2]. split; auto.
  rewrite (pending_perm b _ _ K2). unfold pending. cbn [filter].
  unfold e_agent at 1. cbn [snd]. destruct (Nat.eqb_spec b a); [congruence|]. reflexivity.
Qed.

(** ** Failures *)

(** A failed step leaves every appointment of the population in place. *)
Section Crash.
Context {W : Type} (u : puser W) (Hf : p_forward_only u) (Hn : p_adds_nobody u).

Lemma pq_loop_crash fuel : forall s w ag, pinv s ag ->
  match pq_loop u fuel (p_time s) s w with
  | PRaised s' w' tr =>
      pinv s' (agenda (p_di s) ag (successes tr)) /\ p_time s' = p_time s /\ p_di s' = p_di s /\
      punctual (p_di s) ag (successes tr)
  | _ => True
  end.
Proof.
  induction fuel as [|fuel IH]; intros s w ag H; [exact I|].
  destruct (p_heap s) as [|e h] eqn:EH.
  - cbn [pq_loop]. rewrite EH. auto.
  - destruct (n_ltb (p_time s) (e_when e)) eqn:L.
    + cbn [pq_loop]. rewrite EH, L. auto.
    + destruct (pq_loop_S u Hf Hn fuel s w e h ag H EH L)
        as (EW&o&w1&s1&I&G&SO&H1&T1&D1&SH1&N1&E&_).
      assert (pinv s1 ag) as Hs1 by (apply (pinv_same s); auto; congruence).
      rewrite <- T1 in EW.
      destruct (pinv_act s1 ag e h o Hs1 H1 EW G) as [_ K].
      rewrite T1, D1 in K. rewrite E. clear E.
      assert (forall s2 w2, p_time s2 = p_time s -> p_di s2 = p_di s -> o <> Exc ->
        pinv s2 (agenda (p_di s) ag [EvAct (p_time s) (e_agent e) o]) ->
        match pres_pre [EvAct (p_time s) (e_agent e) o] (pq_loop u fuel (p_time s) s2 w2) with
        | PRaised s' w' tr =>
            pinv s' (agenda (p_di s) ag (successes tr)) /\ p_time s' = p_time s /\
            p_di s' = p_di s /\ punctual (p_di s) ag (successes tr)
        | _ => True
        end) as KK.
      { intros s2 w2 T2 D2 NX H2. specialize (IH s2 w2 _ H2). rewrite T2, D2 in IH.
        destruct (pq_loop u fuel (p_time s) s2 w2); cbn [pres_pre app]; auto.
        assert (successes (EvAct (p_time s) (e_agent e) o :: tr) =
                EvAct (p_time s) (e_agent e) o :: successes tr) as ES
          by (destruct o; try reflexivity; congruence).
        rewrite ES. cbn [agenda punctual]. cbn [agenda] in IH. tauto. }
      destruct o as [r| |].
      * destruct (next_due (p_di s) (p_time s) (Ret r)) as [t|] eqn:ND.
        -- destruct (if p_shuffle s then _ else _) as [w2 tie].
           apply KK; auto; try discriminate. cbn [agenda]. rewrite ND. apply K.
        -- apply KK; auto; try discriminate. cbn [agenda]. rewrite ND. apply K.
      * simpl in *. apply KK; auto. discriminate.
      * simpl. auto.
Qed.

Lemma pq_loop_done_successes fuel s w ag s' w' tr next : pinv s ag ->
  pq_loop u fuel (p_time s) s w = PDone s' w' tr next -> successes tr = tr.
Proof.
  intros H E. pose proof (pq_loop_inv u Hf Hn fuel s w ag H) as K. rewrite E in K.
  destruct K as (_&_&_&_&K&_). unfold no_exc in K. unfold successes.
  clear -K. induction tr as [|e tr IH]; simpl; auto. simpl in K.
  apply andb_true_iff in K. destruct K as [K1 K2]. rewrite K1, IH; auto.
Qed.

Lemma pq_hist_crash_inv fuel h : forall s w s' w' tr ag, pinv s ag -> adds_nobody h ->
  pq_hist u fuel h s w = Some (s', w', tr) ->
  pinv s' (agenda (p_di s) ag (successes tr)) /\ p_di s' = p_di s /\
  punctual (p_di s) ag (successes tr).
Proof.
  induction h as [|c h IH]; cbn [pq_hist]; intros s w s' w' tr ag H NA E.
  - injection E as <- <- <-. simpl. auto.
  - unfold adds_nobody in NA. simpl in NA. apply andb_true_iff in NA. destruct NA as [NA1 NA2].
    destruct (pq_cmd u fuel s w c) as [[[s1 w1] tr1]|] eqn:EC; [|discriminate].
    destruct (pq_hist u fuel h s1 w1) as [[[s2 w2] tr2]|] eqn:EH; [|discriminate].
    injection E as <- <- <-.
    assert (pinv s1 (agenda (p_di s) ag (successes tr1)) /\ p_di s1 = p_di s /\
            punctual (p_di s) ag (successes tr1)) as (H1&D1&P1).
    { destruct c as [|a when|a|f]; cbn [pq_cmd] in EC; try discriminate.
      - destruct (pq_step u fuel s w) as [[[[s3 w3] tr3] x]|] eqn:ES; [|discriminate].
        injection EC as <- <- <-. pose proof ES as ES0. unfold pq_step in ES.
        destruct (n_eqb (p_time s) PInf) eqn:EI.
        + injection ES as <- <- <- <-. simpl. auto.
        + pose proof (pq_loop_crash fuel s w ag H) as K.
          destruct (pq_loop u fuel (p_time s) s w) eqn:EL; try discriminate.
          * injection ES as <- <- <- <-.
            rewrite (pq_loop_done_successes _ _ _ _ _ _ _ _ H EL).
            pose proof (pq_loop_inv u Hf Hn fuel s w ag H) as K2. rewrite EL in K2.
            destruct K2 as (_&_&_&_&NE&_).
            destruct (pq_step_inv u Hf Hn _ _ _ _ _ _ _ _ H ES0 NE) as (_&Q1&Q2&Q3&_). auto.
          * injection ES as <- <- <- <-. tauto.
      - injection EC as <- <- <-. simpl. auto.
      - injection EC as <- <- <-. simpl. auto. }
    destruct (IH _ _ _ _ _ _ H1 NA2 EH) as (H2&D2&P2).
    assert (successes (tr1 ++ tr2) = successes tr1 ++ successes tr2) as ES
      by apply filter_app.
    rewrite ES, agenda_app, punctual_app. rewrite D1 in *. auto.
Qed.
End Crash.

Lemma pq_crash_agenda W (u : puser W) fuel sh di l h w s' w' tr :
  p_forward_only u -> p_adds_nobody u -> nonneg di = true -> adds_nobody h ->
  pq_hist u fuel (add_all l ++ h) (pq_init sh di) w = Some (s', w', tr) ->
  punctual di [] (successes tr) /\
  forall t a, In (t, a) (agenda di [] (successes tr)) ->
    n_leb (p_time s') t = true /\ In t (pending a (p_heap s')).
Proof.
  intros F N D NA E. rewrite pq_hist_app in E.
  destruct (add_all_inv W u fuel l (pq_init sh di) w [] (pinv_init _ _ D) eq_refl)
    as (s1&w1&E1&I1&T1&D1&_). rewrite E1 in E.
  destruct (pq_hist u fuel h s1 w1) as [[[s2 w2] tr2]|] eqn:EH; [|discriminate].
  injection E as <- <- <-. simpl in D1.
  destruct (pq_hist_crash_inv u F N fuel h _ _ _ _ _ _ I1 NA EH) as (K1&K2&K3).
  rewrite D1 in *.
  assert (successes (map (EvAdd (Fin 0)) l ++ tr2) = map (EvAdd (Fin 0)) l ++ successes tr2) as ES.
  { unfold successes. rewrite filter_app. f_equal.
    clear. induction l; simpl; congruence. }
  rewrite ES, agenda_app, punctual_app, agenda_adds. split; [auto using punctual_adds|].
  intros t a I. split; [eapply pinv_not_late; eauto|].
  destruct K1 as (_&_&_&_&P).
  apply (Permutation_in _ (Permutation_sym P)) in I. apply in_map_iff in I.
  destruct I as (e&E&I). injection E as <- <-.
  unfold pending. apply in_map. apply filter_In. split; auto. apply Nat.eqb_refl.
Qed.

(** Exhaustion. *)
Lemma pq_exhausted W (u : puser W) fuel s w : p_time s = PInf ->
  forall n, pq_hist u fuel (repeat CStep n) s w = Some (s, w, []).
Proof.
  intros T. assert (pq_step u fuel s w = Some (s, w, [], false)) as E
    by (unfold pq_step; rewrite T; reflexivity).
  induction n as [|n IH]; cbn [repeat pq_hist pq_cmd]; auto. rewrite E, IH. reflexivity.
Qed.

Lemma pq_exhausted_hist W (u : puser W) fuel sh di l h w s' w' tr :
  p_forward_only u -> p_adds_nobody u -> nonneg di = true -> adds_nobody h ->
  pq_hist u fuel (add_all l ++ h) (pq_init sh di) w = Some (s', w', tr) -> no_exc tr ->
  agenda di [] tr = [] ->
  forall s2 w2 tr2 x, pq_step u fuel s' w' = Some (s2, w2, tr2, x) ->
  p_time s2 = PInf /\ tr2 = [] /\
  forall n, pq_hist u fuel (repeat CStep n) s2 w2 = Some (s2, w2, []).
Proof.
  intros F N D NA E NE AG s2 w2 tr2 x ES.
  destruct (pq_fixed _ _ _ _ _ _ _ _ _ _ _ F N D NA E NE) as [(I1&I2&I3&I4&I5) P].
  rewrite AG in I5. apply Permutation_sym, Permutation_nil in I5. apply map_eq_nil in I5.
  assert (p_time s2 = PInf /\ tr2 = []) as [T T2].
  { unfold pq_step in ES. destruct (n_eqb (p_time s') PInf) eqn:EI.
    - injection ES as <- <- <- <-. apply n_eqb_eq in EI. auto.
    - destruct fuel; [discriminate|]. cbn [pq_loop] in ES. rewrite I5 in ES.
      injection ES as <- <- <- <-. auto. }
  split; auto. split; auto. apply pq_exhausted; auto.
Qed.
End Arith.
