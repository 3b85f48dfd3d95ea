(** Agents that all come back after the same delay, or never: the steps of both schedulers are rounds. *)
From Coq Require Import ZArith List Bool Arith Lia Permutation.
From Verif Require Import Num TimedModel PQueueModel.
Import ListNotations.
Local Open Scope nat_scope.

Definition stays (o : outcome) : bool :=
  match o with Ret (Some PInf) => false | Ret _ => true | _ => false end.
Definition round (now : num) (l : list (aid * outcome)) : list ev := map (fun p => EvAct now (fst p) (snd p)) l.
Definition stayers (l : list (aid * outcome)) : list aid := map fst (filter (fun p => stays (snd p)) l).
Definition regular (di d : num) (o : outcome) : Prop :=
  match o with Ret r => or_num r di = d \/ r = Some PInf | Dead => True | Exc => False end.
Definition single (t : num) (l : list aid) : list (num * list aid) := match l with [] => [] | _ => [(t, l)] end.

Lemma stayers_app l m : stayers (l ++ m) = (stayers l ++ stayers m)%list.
Proof. unfold stayers. now rewrite filter_app, map_app. Qed.
Lemma add_inf {AR : Arith} now : nonneg now = true -> n_add PInf now = PInf.
Proof. intros H. pose proof (n_add_leb PInf now eq_refl H) as L. destruct (n_add PInf now); try discriminate L. reflexivity. Qed.

Section Timed.
Context {AR : Arith} {W : Type}.
Variable u : user W.
(** An invariant of the observations and the world. *)
Variable J : list ev -> W -> Prop.
Variables di d : num.
Hypothesis HS : forall h s a w w' ops o, J h w -> u_step u s a w = (w', ops, o) ->
  (forall t, J (h ++ [EvAct t a o]) w') /\ ops = [] /\ regular di d o.
Hypothesis HF : forall h l w w' l', J h w -> u_shuffle u l w = (w', l') -> J h w' /\ Permutation l l'.

Lemma bucket_round now when l : nonneg now = true -> n_add d now = when -> n_truthy when = true -> n_eqb when when = true ->
  n_eqb when PInf = false ->
  forall h s w done s' w' tr x, J h w -> s_di s = di -> s_queue s = single when done ->
  run_bucket u now l s w = (s', w', tr, x) ->
  exists m, tr = round now m /\ map fst m = l /\ x = false /\ J (h ++ tr) w' /\ s' = set_queue s (single when (done ++ stayers m)).
Proof.
  intros NN A T R NP. induction l as [|a l IH]; cbn [run_bucket]; intros h s w done s' w' tr x HP D Q E.
  - injection E as <- <- <- <-. exists []. cbn. rewrite !app_nil_r, <- Q. repeat split; auto. now destruct s.
  - destruct (u_step u s a w) as [[w1 ops] o] eqn:E1. destruct (HS _ _ _ _ _ _ _ HP E1) as (HP1 & -> & HR). specialize (HP1 now).
    cbn [run_ops app] in E. destruct o as [r| |]; cbn in HR.
    + rewrite D in E. destruct HR as [HR|HR].
      * destruct (match r with Some PInf => true | _ => false end) eqn:EI.
        -- destruct r as [[| | |]|]; try discriminate EI. cbn in HR. subst d. exfalso.
           rewrite (add_inf now NN) in A. rewrite <- A in NP. discriminate NP.
        -- rewrite HR, A, NP in E. cbn [negb] in E.
           destruct (run_bucket u now l _ w1) as [[[s3 w3] tr3] x3] eqn:E3. injection E as <- <- <- <-.
           assert (Q2 : s_queue (timed_schedule s a (Some when)) = single when (done ++ [a])).
           { unfold timed_schedule. cbn [set_queue s_queue or_num]. rewrite T, Q. destruct done as [|c done]; [reflexivity|].
             cbn [single insert_bucket fst snd]. rewrite R. reflexivity. }
           destruct (IH (h ++ [EvAct now a (Ret r)])%list (timed_schedule s a (Some when)) w1 (done ++ [a])%list _ _ _ _ HP1 D Q2 E3) as (m & -> & M & -> & M1 & ->).
           exists ((a, Ret r) :: m). cbn [round map fst snd app]. rewrite M. repeat split; auto; [now rewrite <- app_assoc in M1|].
           unfold stayers at 2. cbn [filter snd].
           assert (ST : stays (Ret r) = true) by (destruct r as [[| | |]|]; auto; discriminate EI). rewrite ST. cbn [map fst].
           change (map fst (filter (fun p => stays (snd p)) m)) with (stayers m). rewrite <- app_assoc. reflexivity.
      * subst r. cbn [or_num n_truthy n_eqb negb] in E. rewrite (add_inf now NN) in E. cbn [n_eqb negb] in E.
        destruct (run_bucket u now l s w1) as [[[s3 w3] tr3] x3] eqn:E3. injection E as <- <- <- <-.
        destruct (IH _ s w1 done _ _ _ _ HP1 D Q E3) as (m & -> & M & -> & M1 & ->). rewrite <- app_assoc in M1.
        exists ((a, Ret (Some PInf)) :: m). cbn. rewrite M. auto.
    + destruct (run_bucket u now l s w1) as [[[s3 w3] tr3] x3] eqn:E3. injection E as <- <- <- <-.
      destruct (IH _ s w1 done _ _ _ _ HP1 D Q E3) as (m & -> & M & -> & M1 & ->). rewrite <- app_assoc in M1.
      exists ((a, Dead) :: m). cbn. rewrite M. auto.
    + destruct HR.
Qed.

(** One step, from the instant at which all are waiting. *)
Lemma step_round h s w s' w' tr x l : nonneg (s_time s) = true -> let when := n_add d (s_time s) in
  n_truthy when = true -> n_eqb when when = true -> n_eqb when PInf = false ->
  J h w -> s_di s = di -> l <> [] -> s_queue s = [(s_time s, l)] -> timed_step u s w = (s', w', tr, x) ->
  exists m, tr = round (s_time s) m /\ Permutation l (map fst m) /\ x = false /\ J (h ++ tr) w' /\
    s' = Sched (match stayers m with [] => PInf | _ => when end) (S (s_steps s)) (single when (stayers m)) (s_reg s) (s_shuffle s) (s_di s).
Proof.
  intros NN when T R NP HP D L Q E. unfold timed_step in E. rewrite Q in E. cbn iota beta in E. rewrite n_ltb_irrefl in E.
  assert (S0 : exists w0 l0, (if s_shuffle s then u_shuffle u l w else (w, l)) = (w0, l0) /\ J h w0 /\ Permutation l l0).
  { destruct (s_shuffle s); [|exists w, l; auto]. destruct (u_shuffle u l w) as [w0 l0] eqn:ES. exists w0, l0. split; auto. eapply HF; eauto. }
  destruct S0 as (w0 & l0 & S0 & HP0 & PL). rewrite S0 in E.
  destruct (run_bucket u (s_time s) l0 (set_queue s []) w0) as [[[s1 w1] tr1] x1] eqn:E1.
  destruct (bucket_round (s_time s) when l0 NN eq_refl T R NP h (set_queue s []) w0 [] _ _ _ _ HP0 D eq_refl E1) as (m & -> & M & -> & M1 & ->).
  exists m. rewrite M. injection E as <- <- <- <-. repeat split; auto.
  destruct s. cbn in *. unfold single. destruct (stayers m); reflexivity.
Qed.
End Timed.

Section PQueue.
Context {AR : Arith} {W : Type}.
Variable u : puser W.
(** An invariant of the observations and the world. *)
Variable J : list ev -> W -> Prop.
Variables di d : num.
Hypothesis HS : forall h s a w w' ops o, J h w -> p_step u s a w = (w', ops, o) ->
  (forall t, J (h ++ [EvAct t a o]) w') /\ ops = [] /\ regular di d o.
Hypothesis HD : forall h w w' z, J h w -> p_draw u w = (w', z) -> J h w'.

Definition all_at (t : num) (h : list entry) : Prop := Forall (fun e => e_when e = t) h.
Lemma push_later now when A e : n_ltb now when = true -> all_at now A -> e_when e = when ->
  forall B, heappush (A ++ B) e = (A ++ heappush B e)%list.
Proof.
  intros L HA HE B. induction A as [|x A IH]; [reflexivity|]. cbn [app heappush]. inversion HA; subst. unfold key_ltb.
  change (fst (fst e)) with (e_when e). change (fst (fst x)) with (e_when x).
  rewrite (n_ltb_neq' _ _ L). rewrite n_ltb_asym by exact L. now rewrite IH.
Qed.
Lemma push_perm h e : Permutation (heappush h e) (e :: h).
Proof.
  induction h as [|x h IH]; cbn [heappush]; [reflexivity|]. destruct (key_ltb e x); [reflexivity|]. rewrite IH. apply perm_swap.
Qed.
Lemma push_all t h e : all_at t h -> e_when e = t -> all_at t (heappush h e).
Proof. intros H E. unfold all_at. rewrite push_perm. constructor; auto. Qed.

Lemma pset_same s h : p_heap s = h -> pset_heap s h = s.
Proof. intros <-. now destruct s. Qed.
Lemma loop_round now when : nonneg now = true -> n_add d now = when -> n_ltb now when = true -> n_eqb when PInf = false ->
  forall A B fuel h s w, J h w -> p_di s = di -> all_at now A -> all_at when B -> p_heap s = (A ++ B)%list -> List.length A < fuel ->
  exists m w' B', pq_loop u fuel now s w = PDone (pset_heap s B') w' (round now m) (match B' with [] => PInf | _ => when end) /\
    map fst m = map e_agent A /\ J (h ++ round now m) w' /\ all_at when B' /\ Permutation (map e_agent B') (map e_agent B ++ stayers m).
Proof.
  intros NN HA L NP. induction A as [|e A IH]; intros B fuel h s w HP D FA FB Q F; cbn [List.length] in F; (destruct fuel as [|fuel]; [lia|]); cbn [pq_loop]; rewrite Q.
  - cbn [app]. destruct B as [|b B].
    + exists [], w, []. rewrite (pset_same s []) by exact Q. cbn. rewrite app_nil_r. repeat split; auto.
    + inversion FB as [|? ? EB _]. rewrite EB, L. exists [], w, (b :: B). rewrite (pset_same s (b :: B)) by exact Q. cbn. rewrite !app_nil_r. repeat split; auto.
  - cbn [app]. apply Forall_cons_iff in FA as [E1 FA']. subst now. subst when. rewrite n_ltb_irrefl. set (a := e_agent e).
    destruct (p_step u s a w) as [[w1 ops] o] eqn:E2. destruct (HS _ _ _ _ _ _ _ HP E2) as (HP1 & -> & HR). specialize (HP1 (e_when e)). cbn [pq_run_ops app].
    assert (POP : stays o = false -> exists m w' B',
              match p_heap s with [] => PRaised s w1 [EvAct (e_when e) a o] | _ :: h => pres_pre [EvAct (e_when e) a o] (pq_loop u fuel (e_when e) (pset_heap s h) w1) end =
              PDone (pset_heap s B') w' (round (e_when e) m) (match B' with [] => PInf | _ => n_add d (e_when e) end) /\
              map fst m = a :: map e_agent A /\ J (h ++ round (e_when e) m) w' /\ all_at (n_add d (e_when e)) B' /\ Permutation (map e_agent B') (map e_agent B ++ stayers m)).
    { intros O. rewrite Q. cbn [app].
      destruct (IH B fuel _ (pset_heap s (A ++ B)) w1 HP1 D FA' FB eq_refl) as (m & w' & B' & E & M & PW & AB & PM); [lia|].
      rewrite E. exists ((a, o) :: m), w', B'. rewrite <- app_assoc in PW. cbn. rewrite M. repeat split; auto.
      unfold stayers. cbn [filter snd]. rewrite O. exact PM. }
    destruct o as [r| |]; cbn in HR.
    + rewrite D. destruct (match r with Some PInf => true | _ => false end) eqn:EI.
      { destruct r as [[| | |]|]; try discriminate EI. cbn [or_num n_truthy n_eqb negb]. rewrite (add_inf _ NN). cbn [n_eqb].
        apply (POP eq_refl). }
      destruct HR as [HR|HR]; [|subst r; discriminate EI]. rewrite HR, NP. unfold pq_schedule.
      set (dr := if p_shuffle s then p_draw u w1 else (w1, Z.of_nat a)).
      assert (HP2 : J (h ++ [EvAct (e_when e) a (Ret r)]) (fst dr)).
      { subst dr. destruct (p_shuffle s); auto. destruct (p_draw u w1) eqn:ED. eapply HD; eauto. }
      destruct dr as [w2 z]. cbn [fst] in HP2. rewrite Q. cbn [app]. rewrite (push_later (e_when e) (n_add d (e_when e))) by auto.
      destruct (IH (heappush B (n_add d (e_when e), z, a)) fuel _ (pset_heap s (A ++ heappush B (n_add d (e_when e), z, a))) w2 HP2 D FA') as (m & w' & B' & E & M & PW & AB & PM); auto.
      { apply push_all; auto. } { lia. }
      rewrite E. exists ((a, Ret r) :: m), w', B'. rewrite <- app_assoc in PW. cbn [pres_pre round map fst snd app]. rewrite M. repeat split; auto.
      rewrite PM. change ((a, Ret r) :: m) with ([(a, Ret r)] ++ m)%list. rewrite stayers_app. unfold stayers at 2. cbn [filter snd].
      assert (ST : stays (Ret r) = true) by (destruct r as [[| | |]|]; auto; discriminate EI). rewrite ST. cbn [map fst].
      rewrite (Permutation_map e_agent (push_perm B (n_add d (e_when e), z, a))). cbn. rewrite <- Permutation_middle. reflexivity.
    + apply (POP eq_refl).
    + destruct HR.
Qed.
Lemma pq_round fuel h s w : nonneg (p_time s) = true -> let when := n_add d (p_time s) in n_ltb (p_time s) when = true -> n_eqb when PInf = false ->
  J h w -> p_di s = di -> all_at (p_time s) (p_heap s) -> List.length (p_heap s) < fuel ->
  exists m w' hp, pq_step u fuel s w = Some (PQ (match hp with [] => PInf | _ => when end) (S (p_steps s)) hp (p_reg s) (p_shuffle s) (p_di s)
      (match hp with [] => false | _ => p_running s end), w', round (p_time s) m, false) /\
    map fst m = map e_agent (p_heap s) /\ J (h ++ round (p_time s) m) w' /\ all_at when hp /\ Permutation (map e_agent hp) (stayers m).
Proof.
  intros NN when L NP HP D FA F. unfold pq_step.
  replace (n_eqb (p_time s) PInf) with false by (symmetry; destruct (p_time s); try reflexivity; discriminate L).
  destruct (loop_round (p_time s) when NN eq_refl L NP (p_heap s) [] fuel h s w HP D FA) as (m & w' & B' & E & M & PW & AB & PM); auto.
  { constructor. } { now rewrite app_nil_r. }
  exists m, w', B'. rewrite E. cbn. repeat split; auto. destruct B'; [reflexivity|]. now rewrite NP.
Qed.
End PQueue.

(** The agents with which both begin. *)
Lemma reg_fresh l a : NoDup (l ++ [a]) -> existsb (Nat.eqb a) l = false.
Proof.
  intros N. apply not_true_iff_false. intros E. apply existsb_exists in E as (y & I & E). apply Nat.eqb_eq in E. subst y.
  apply NoDup_remove_2 in N. apply N. now rewrite app_nil_r.
Qed.
Lemma nodup_left {X} (l m : list X) : NoDup (l ++ m) -> NoDup l.
Proof.
  induction l as [|x l IH]; cbn; intros N; [constructor|]. apply NoDup_cons_iff in N as [N1 N2]. constructor; auto.
  intros I. apply N1, in_or_app. auto.
Qed.
Lemma start_single {AR : Arith} {W} (u : user W) sh di w l : NoDup l ->
  run_hist u (map (fun a => CAdd a None) l) (timed_init sh di) w = (Sched (Fin 0) 0 (single (Fin 0) l) l sh di, w, map (EvAdd (Fin 0)) l).
Proof.
  intros N. assert (G : forall m, NoDup (m ++ l) -> run_hist u (map (fun a => CAdd a None) l) (Sched (Fin 0) 0 (single (Fin 0) m) m sh di) w =
    (Sched (Fin 0) 0 (single (Fin 0) (m ++ l)) (m ++ l) sh di, w, map (EvAdd (Fin 0)) l)); [|now apply (G [])].
  clear N. induction l as [|a l IH]; intros m N; cbn [map run_hist run_cmd run_op]; [now rewrite app_nil_r|].
  assert (A : timed_add (Sched (Fin 0) 0 (single (Fin 0) m) m sh di) a None = Sched (Fin 0) 0 (single (Fin 0) (m ++ [a])) (m ++ [a]) sh di).
  { unfold timed_add, reg_add, timed_schedule. cbn [set_queue s_queue s_reg s_time or_num]. rewrite (reg_fresh m a).
    - destruct m; reflexivity.
    - change (a :: l) with ([a] ++ l)%list in N. rewrite app_assoc in N. now apply nodup_left in N. }
  rewrite A, IH by (now rewrite <- app_assoc). rewrite <- app_assoc. reflexivity.
Qed.
Lemma pq_start {AR : Arith} {W} (u : puser W) (P : W -> Prop) fuel sh di w l : NoDup l -> P w -> (forall w w' z, P w -> p_draw u w = (w', z) -> P w') ->
  exists w' h, pq_hist u fuel (map (fun a => CAdd a None) l) (pq_init sh di) w =
    Some (PQ (Fin 0) 0 h l sh di true, w', map (EvAdd (Fin 0)) l) /\ all_at (Fin 0) h /\ Permutation (map e_agent h) l /\ P w'.
Proof.
  intros N HP HD. assert (G : forall m w h, P w -> NoDup (m ++ l) -> all_at (Fin 0) h -> Permutation (map e_agent h) m ->
    exists w' h', pq_hist u fuel (map (fun a => CAdd a None) l) (PQ (Fin 0) 0 h m sh di true) w =
    Some (PQ (Fin 0) 0 h' (m ++ l) sh di true, w', map (EvAdd (Fin 0)) l) /\ all_at (Fin 0) h' /\ Permutation (map e_agent h') (m ++ l) /\ P w').
  2:{ apply (G [] w []); auto. constructor. }
  clear w HP N. induction l as [|a l IH]; intros m w h HP N A PM; cbn [map pq_hist pq_cmd].
  - exists w, h. rewrite app_nil_r. auto.
  - unfold pq_add, pq_schedule. cbn [p_time p_shuffle p_heap]. change (n_truthy (Fin 0)) with false. cbn iota.
    set (dr := if sh then p_draw u w else (w, Z.of_nat a)).
    assert (HP1 : P (fst dr)). { subst dr. destruct sh; auto. destruct (p_draw u w) eqn:ED. eapply HD; eauto. }
    destruct dr as [w1 z]. cbn [fst] in HP1. unfold preg_add. cbn [pset_heap p_reg pset_reg p_time p_steps p_heap p_shuffle p_di p_running].
    rewrite (reg_fresh m a).
    2:{ change (a :: l) with ([a] ++ l)%list in N. rewrite app_assoc in N. now apply nodup_left in N. }
    destruct (IH (m ++ [a])%list w1 (heappush h (Fin 0, z, a)) HP1) as (w' & h' & E & A' & PM' & HP').
    { now rewrite <- app_assoc. } { now apply push_all. }
    { rewrite (Permutation_map e_agent (push_perm _ _)). cbn. rewrite PM. apply Permutation_cons_append. }
    unfold pset_reg, pset_heap. cbn [p_time p_steps p_heap p_reg p_shuffle p_di p_running]. rewrite E.
    exists w', h'. rewrite <- app_assoc in *. auto.
Qed.
