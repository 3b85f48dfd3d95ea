(** Proofs for TurnPqProps.v: liveness and rate of activations with the priority queue. *)
From Coq Require Import ZArith List Bool Arith Lia Permutation.
From Verif Require Import Num TimedModel TimedSpec TimedProofs PQueueModel PQueueSpec PQueueProofs PQueueProofs2 TurnSpec TurnProofs TurnPqSpec.
Import ListNotations.

(** What leaves the agenda has acted. *)
Lemma remove1_other (x y : num * aid) ag : In x ag -> y <> x -> In x (remove1 y ag).
Proof.
  intros I N. induction ag as [|z ag IH]; cbn; [exact I|].
  destruct (due_eqb y z) eqn:E.
  - destruct I as [->|I]; [|exact I]. exfalso. apply N. destruct x as [t a], y as [t' b]. unfold due_eqb in E. cbn in E.
    apply andb_true_iff in E as [E F]. apply n_eqb_eq in E. apply Nat.eqb_eq in F. congruence.
  - destruct I as [->|I]; [left; reflexivity|right; auto].
Qed.
Lemma agenda_gone {AR : Arith} di z a tr : forall ag, In (Fin z, a) ag -> ~ In (Fin z, a) (agenda di ag tr) ->
  In (Fin z, a) (acts tr).
Proof.
  induction tr as [|e tr IH]; intros ag I N; cbn in *; [contradiction|].
  destruct e as [t' b|t' b o].
  - cbn. apply (IH _ (in_or_app _ _ _ (or_introl I)) N).
  - assert (X : (t', b) = (Fin z, a) \/ (t', b) <> (Fin z, a)).
    { destruct t' as [z'| | |]; try (right; discriminate). destruct (Z.eq_dec z' z) as [->|]; [|right; congruence].
      destruct (Nat.eq_dec b a) as [->|]; [left; reflexivity|right; congruence]. }
    destruct X as [X|X]; [left; exact X|right].
    apply (IH _ (in_or_app _ _ _ (or_introl (remove1_other _ _ _ I X))) N).
Qed.

Section P.
Context {AR : Arith} {W : Type} (u : puser W).

(** ** What the trace shows *)
Definition ev_fine (now : num) (e : ev) : Prop :=
  ev_time e = now /\ forall t a o, e = EvAct t a o -> o = Exc \/ exists s w, o = snd (p_step u s a w).

Lemma pq_run_ops_fine ops : forall s w s' w' tr x, pq_run_ops u s w ops = (s', w', tr, x) -> Forall (ev_fine (p_time s)) tr.
Proof.
  induction ops as [|[b when|b] ops IH]; cbn; intros s w s' w' tr x E.
  - injection E as <- <- <- <-. constructor.
  - destruct (pq_add u s w b when) as [[s1 w1] x1] eqn:EA. destruct (pq_add_time _ _ _ _ _ _ _ _ EA) as (T & _).
    destruct x1; [injection E as <- <- <- <-; constructor|].
    destruct (pq_run_ops u s1 w1 ops) as [[[s2 w2] tr2] x2] eqn:E2. injection E as <- <- <- <-.
    constructor; [split; [reflexivity|discriminate]|]. rewrite <- T. eapply IH; eauto.
  - rewrite <- (eq_refl : p_time (preg_rem s b) = p_time s). eapply IH; eauto.
Qed.

Definition res_trace (r : @pres W) : list ev :=
  match r with PDone _ _ tr _ => tr | PRaised _ _ tr => tr | PFuel => [] end.
Lemma pre_fine now tr r : Forall (ev_fine now) tr -> Forall (ev_fine now) (res_trace r) -> Forall (ev_fine now) (res_trace (pres_pre tr r)).
Proof. intros A B. destruct r; cbn in *; auto; apply Forall_app; auto. Qed.

Lemma pq_loop_fine fuel : forall s w, Forall (ev_fine (p_time s)) (res_trace (pq_loop u fuel (p_time s) s w)).
Proof.
  induction fuel as [|fuel IH]; intros s w; cbn [pq_loop]; [constructor|].
  destruct (p_heap s) as [|e h0]; [constructor|]. destruct (n_ltb (p_time s) (e_when e)); [constructor|].
  destruct (p_step u s (e_agent e) w) as [[w1 ops] o] eqn:US.
  destruct (pq_run_ops u s w1 ops) as [[[s1 w2] tr1] x] eqn:RO.
  destruct (pq_run_ops_time _ _ _ _ _ _ _ _ RO) as (T1 & _).
  pose proof (pq_run_ops_fine _ _ _ _ _ _ _ RO) as F1. cbv zeta.
  set (o' := if x then Exc else o).
  assert (F : Forall (ev_fine (p_time s)) (tr1 ++ [EvAct (p_time s) (e_agent e) o'])).
  { apply Forall_app. split; [exact F1|]. constructor; [|constructor]. split; [reflexivity|].
    intros t a o2 X. injection X as _ <- <-. unfold o'. destruct x; [left; reflexivity|right]. exists s, w. rewrite US. reflexivity. }
  assert (P : Forall (ev_fine (p_time s)) (res_trace (match p_heap s1 with
                | [] => PRaised s1 w2 (tr1 ++ [EvAct (p_time s) (e_agent e) o'])
                | _ :: h => pres_pre (tr1 ++ [EvAct (p_time s) (e_agent e) o']) (pq_loop u fuel (p_time s) (pset_heap s1 h) w2)
                end))).
  { destruct (p_heap s1) as [|e1 h1]; [exact F|]. apply pre_fine; [exact F|].
    specialize (IH (pset_heap s1 h1) w2). cbn [p_time pset_heap] in IH. rewrite T1 in IH. exact IH. }
  destruct o' as [r| |] eqn:EO; [|exact P|exact F].
  destruct (n_eqb _ PInf); [exact P|].
  destruct (pq_schedule u s1 w2 (e_agent e) _ true) as [[s2 w3] x2] eqn:SC.
  destruct x2; [exact F|]. apply pre_fine; [exact F|].
  destruct (pq_schedule_time _ _ _ _ _ _ _ _ _ SC) as (T2 & _).
  specialize (IH s2 w3). rewrite T2, T1 in IH. exact IH.
Qed.

Lemma pq_cmd_fine fuel c s w s' w' tr : pq_cmd u fuel s w c = Some (s', w', tr) -> Forall (ev_fine (p_time s)) tr.
Proof.
  intros E. destruct c; cbn in E.
  - unfold pq_step in E. destruct (n_eqb (p_time s) PInf); [injection E as <- <- <-; constructor|].
    pose proof (pq_loop_fine fuel s w) as F.
    destruct (pq_loop u fuel (p_time s) s w); try discriminate; injection E as <- <- <-; exact F.
  - destruct (pq_add u s w a when) as [[s1 w1] x]. injection E as <- <- <-. destruct x; constructor; [|constructor].
    split; [reflexivity|discriminate].
  - injection E as <- <- <-. constructor.
  - injection E as <- <- <-. constructor.
Qed.

Lemma pq_hist_fine fuel h : forall s w s' w' tr, pq_hist u fuel h s w = Some (s', w', tr) -> is_time (p_time s) = true ->
  Forall (fun e => n_leb (ev_time e) (p_time s') = true /\
                   forall t a o, e = EvAct t a o -> o = Exc \/ exists s w, o = snd (p_step u s a w)) tr.
Proof.
  induction h as [|c h IH]; cbn [pq_hist]; intros s w s' w' tr E T.
  - injection E as <- <- <-. constructor.
  - destruct (pq_cmd u fuel s w c) as [[[s1 w1] tr1]|] eqn:E1; [|discriminate].
    destruct (pq_hist u fuel h s1 w1) as [[[s2 w2] tr2]|] eqn:E2; [|discriminate]. injection E as <- <- <-.
    destruct (pq_cmd_clock _ _ _ _ _ _ _ _ E1 T) as [T1 L1]. destruct (pq_hist_clock _ _ _ _ _ _ _ _ E2 T1) as [T2 L2].
    apply Forall_app. split; [|eapply IH; eauto].
    eapply Forall_impl; [|eapply pq_cmd_fine; eauto]. intros e [A B]. split; [|exact B]. rewrite A. eapply n_leb_trans; eauto.
Qed.

(** ** Progress *)
Context {HP : Precise AR} (Hf : p_forward_only u) (Hn : p_adds_nobody u) (Hc : p_never_fails u).

Lemma pq_loop_calm fuel : forall s w,
  match pq_loop u fuel (p_time s) s w with
  | PDone s' _ _ _ => length (p_heap s') <= length (p_heap s)
  | PRaised _ _ _ => False
  | PFuel => True
  end.
Proof.
  induction fuel as [|fuel IH]; intros s w; cbn [pq_loop]; [exact I|].
  destruct (p_heap s) as [|e h0] eqn:EH; [rewrite EH; auto|]. destruct (n_ltb (p_time s) (e_when e)); [rewrite EH; auto|].
  pose proof (Hc s (e_agent e) w) as C. pose proof (Hn s (e_agent e) w) as N.
  destruct (p_step u s (e_agent e) w) as [[w1 ops] o] eqn:US. cbn [snd] in C.
  destruct (pq_ops_none u ops s w1 N) as (s1 & RO & H1 & T1 & _). rewrite RO. cbn [app]. cbv zeta iota.
  assert (P : match (match p_heap s1 with
                | [] => PRaised s1 w1 [EvAct (p_time s) (e_agent e) o]
                | _ :: h => pres_pre [EvAct (p_time s) (e_agent e) o] (pq_loop u fuel (p_time s) (pset_heap s1 h) w1)
                end) with
              | PDone s' _ _ _ => length (p_heap s') <= length (e :: h0) | PRaised _ _ _ => False | PFuel => True end).
  { rewrite H1, EH. specialize (IH (pset_heap s1 h0) w1). cbn [p_time pset_heap p_heap] in IH. rewrite T1 in IH.
    destruct (pq_loop u fuel (p_time s) (pset_heap s1 h0) w1); cbn [pres_pre]; auto. cbn. lia. }
  destruct o as [r| |]; [|exact P|congruence].
  destruct (n_eqb _ PInf); [exact P|].
  unfold pq_schedule. destruct (if p_shuffle s1 then p_draw u w1 else (w1, Z.of_nat (e_agent e))) as [w3 tie].
  rewrite H1, EH.
  match goal with |- context [pres_pre _ (pq_loop u fuel (p_time s) ?s2 w3)] => specialize (IH s2 w3) end.
  cbn [p_time pset_heap p_heap] in IH. rewrite T1, heappush_length in IH.
  match goal with |- context [pres_pre _ ?r] => destruct r end; cbn [pres_pre]; auto.
Qed.

Lemma pq_step_fine fuel s w ag : pinv s ag -> n_ltb (Fin 0) (p_di s) = true -> length (p_heap s) < fuel ->
  exists s' w' tr, pq_step u fuel s w = Some (s', w', tr, false) /\ no_exc tr /\ pinv s' (agenda (p_di s) ag tr) /\
    p_di s' = p_di s /\ length (p_heap s') <= length (p_heap s) /\
    (p_time s' = PInf \/ forall z, p_time s = Fin z -> exists z', p_time s' = Fin z' /\ (z < z')%Z).
Proof.
  intros IV D L. pose proof (pq_step_terminates u Hf Hn fuel s w) as TM.
  assert (T : is_time (p_time s) = true) by (apply nonneg_is_time, IV). specialize (TM T D L).
  destruct (pq_step u fuel s w) as [[[[s' w'] tr] x]|] eqn:E; [|congruence]. exists s', w', tr.
  assert (K : x = false /\ no_exc tr /\ length (p_heap s') <= length (p_heap s) /\
              (p_time s' = PInf \/ forall z, p_time s = Fin z -> exists z', p_time s' = Fin z' /\ (z < z')%Z)).
  { unfold pq_step in E. destruct (n_eqb (p_time s) PInf) eqn:EI.
    - injection E as <- <- <- <-. repeat split; auto. left. now apply n_eqb_eq in EI.
    - pose proof (pq_loop_calm fuel s w) as C. pose proof (pq_loop_inv u Hf Hn fuel s w ag IV) as V. pose proof (pq_loop_time u fuel (p_time s) s w) as TT.
      destruct (pq_loop u fuel (p_time s) s w) as [s1 w1 tr1 nx|s1 w1 tr1|]; [|contradiction|discriminate].
      injection E as <- <- <- <-. cbn [p_heap p_time]. split; [reflexivity|]. split; [apply V|]. split; [exact C|].
      destruct TT as (_ & _ & _ & [TT|TT]); [left; exact TT|].
      destruct nx as [z'| | |]; [right|left; reflexivity|..].
      + intros z SZ. rewrite SZ in TT. exists z'. split; [reflexivity|]. cbn in TT. apply Z.ltb_lt in TT. exact TT.
      + destruct (p_time s); discriminate.
      + destruct (p_time s); discriminate. }
  destruct K as (-> & NE & K). destruct (pq_step_inv u Hf Hn _ _ _ _ _ _ _ _ IV E NE) as (_ & V & DD & _). tauto.
Qed.

Lemma pq_steps fuel n : forall s w ag z, pinv s ag -> n_ltb (Fin 0) (p_di s) = true -> length (p_heap s) < fuel -> p_time s = Fin z \/ p_time s = PInf ->
  exists s' w' tr, pq_hist u fuel (repeat CStep n) s w = Some (s', w', tr) /\ no_exc tr /\ pinv s' (agenda (p_di s) ag tr) /\
    (p_time s' = PInf \/ exists z', p_time s' = Fin z' /\ (z + Z.of_nat n <= z')%Z).
Proof.
  induction n as [|n IH]; intros s w ag z IV D L SZ.
  - exists s, w, []. split; [reflexivity|]. split; [reflexivity|]. split; [exact IV|]. destruct SZ as [SZ|SZ]; [right; exists z; split; [exact SZ|lia]|auto].
  - destruct (pq_step_fine fuel s w ag IV D L) as (s1 & w1 & tr1 & E1 & NE1 & IV1 & DD & LL & TI).
    assert (X : p_time s1 = PInf \/ exists z1, p_time s1 = Fin z1 /\ (z < z1)%Z).
    { destruct TI as [TI|TI]; [auto|]. destruct SZ as [SZ|SZ]; [right; exact (TI z SZ)|].
      left. unfold pq_step in E1. rewrite SZ in E1. cbn in E1. injection E1 as <- _ _. exact SZ. }
    assert (X' : exists z1, (p_time s1 = Fin z1 \/ p_time s1 = PInf) /\ (z < z1)%Z).
    { destruct X as [X|(z1 & X & Y)]; [exists (z + 1)%Z; split; [auto|lia]|eauto]. }
    destruct X' as (z1 & X1 & LT).
    destruct (IH s1 w1 _ z1 IV1 ltac:(rewrite DD; exact D) ltac:(lia) X1) as (s2 & w2 & tr2 & E2 & NE2 & IV2 & T2).
    exists s2, w2, (tr1 ++ tr2). cbn [repeat pq_hist pq_cmd]. rewrite E1, E2. split; [reflexivity|].
    split; [apply no_exc_app; auto|].
    rewrite agenda_app. rewrite DD in IV2. split; [exact IV2|]. destruct T2 as [T2|(z' & T2 & B)]; [auto|right; exists z'; split; [exact T2|lia]].
Qed.

(** No failure at all in a history without additions. *)
Lemma pq_hist_calm fuel h : forall s w s' w' tr ag, pinv s ag -> n_ltb (Fin 0) (p_di s) = true -> adds_nobody h -> length (p_heap s) < fuel ->
  pq_hist u fuel h s w = Some (s', w', tr) -> no_exc tr /\ length (p_heap s') <= length (p_heap s).
Proof.
  induction h as [|c h IH]; cbn [pq_hist]; intros s w s' w' tr ag IV D A L E.
  - injection E as <- <- <-. split; [reflexivity|auto].
  - unfold adds_nobody in A. cbn in A. apply andb_true_iff in A as [A1 A2].
    destruct (pq_cmd u fuel s w c) as [[[s1 w1] tr1]|] eqn:E1; [|discriminate].
    destruct (pq_hist u fuel h s1 w1) as [[[s2 w2] tr2]|] eqn:E2; [|discriminate]. injection E as <- <- <-.
    assert (K : no_exc tr1 /\ length (p_heap s1) <= length (p_heap s)).
    { destruct c; cbn in E1; try discriminate.
      - destruct (pq_step_fine fuel s w ag IV D L) as (s3 & w3 & tr3 & E3 & NE3 & _ & _ & LL & _). rewrite E3 in E1.
        injection E1 as <- <- <-. auto.
      - injection E1 as <- <- <-. split; [reflexivity|cbn; lia].
      - injection E1 as <- <- <-. split; [reflexivity|lia]. }
    destruct K as [NE1 L1]. destruct (pq_cmd_inv u Hf Hn _ _ _ _ _ _ _ _ IV A1 E1 NE1) as (IV1 & D1 & _).
    destruct (IH s1 w1 s2 w2 tr2 _ IV1 ltac:(rewrite D1; exact D) A2 ltac:(lia) E2) as [NE2 L2].
    split; [apply no_exc_app; auto|lia].
Qed.
End P.

Lemma no_exc_adds l : no_exc (map (EvAdd (Fin 0)) l).
Proof. unfold no_exc. induction l; auto. Qed.

Lemma pq_everyone (AR : Arith) (HP : Precise AR) W (u : puser W) fuel sh di l h w s w1 tr t a :
  p_forward_only u -> p_adds_nobody u -> p_never_fails u -> n_ltb (Fin 0) di = true -> adds_nobody h -> length l < fuel ->
  pq_hist u fuel (add_all l ++ h) (pq_init sh di) w = Some (s, w1, tr) -> In (Fin t, a) (agenda di [] tr) ->
  exists now n s2 w2 tr2, p_time s = Fin now /\ (Z.of_nat n <= t - now + 1)%Z /\
    pq_hist u fuel (repeat CStep n) s w1 = Some (s2, w2, tr2) /\ In (Fin t, a) (acts tr2).
Proof.
  intros F N C D A L E I.
  assert (ND : nonneg di = true) by (unfold nonneg, n_leb; rewrite D; reflexivity).
  rewrite pq_hist_app in E.
  destruct (add_all_inv W u fuel l (pq_init sh di) w [] (pinv_init sh di ND) eq_refl) as (s0 & w0 & E0 & IV0 & T0 & D0 & _).
  rewrite E0 in E. destruct (pq_hist u fuel h s0 w0) as [[[s1 w1'] tr1]|] eqn:E1; [|discriminate]. injection E as <- <- <-.
  assert (DI0 : n_ltb (Fin 0) (p_di s0) = true) by (rewrite D0; exact D).
  assert (L0 : length (p_heap s0) < fuel).
  { destruct IV0 as (_ & _ & _ & _ & P). apply Permutation_length in P. rewrite !map_length in P. cbn in P. rewrite map_length in P. lia. }
  destruct (pq_hist_calm u F N C fuel h _ _ _ _ _ _ IV0 DI0 A L0 E1) as [NE1 L1].
  destruct (pq_hist_inv u F N _ _ _ _ _ _ _ _ IV0 A E1 NE1) as (IV1 & D1 & _).
  rewrite agenda_app, agenda_adds in I. cbn [app] in *. rewrite D0 in *. cbn [p_di pq_init] in *.
  pose proof (pinv_not_late _ _ IV1 _ _ I) as NL.
  assert (exists now, p_time s1 = Fin now /\ (now <= t)%Z) as (now & TN & LE).
  { assert (T1 : nonneg (p_time s1) = true) by apply IV1. destruct (p_time s1) as [z| | |]; try discriminate. exists z. split; [reflexivity|].
    unfold n_leb in NL. cbn in NL. apply orb_true_iff in NL as [X|X]; [apply Z.ltb_lt in X|apply Z.eqb_eq in X]; lia. }
  destruct (pq_steps u F N C fuel (Z.to_nat (t - now + 1)) s1 w1' _ now IV1 ltac:(rewrite D1; exact D) ltac:(lia) ltac:(auto))
    as (s2 & w2 & tr2 & E2 & NE2 & IV2 & T2).
  exists now, (Z.to_nat (t - now + 1)), s2, w2, tr2. split; [exact TN|]. split; [lia|]. split; [exact E2|].
  rewrite D1 in IV2. eapply agenda_gone; [exact I|]. intros X. pose proof (pinv_not_late _ _ IV2 _ _ X) as Y.
  destruct T2 as [T2|(z' & T2 & B)]; rewrite T2 in Y; [discriminate|].
  unfold n_leb in Y. cbn in Y. apply orb_true_iff in Y as [Y|Y]; [apply Z.ltb_lt in Y|apply Z.eqb_eq in Y]; lia.
Qed.

(** ** Rate *)
Definition as_timed {W} (u : puser W) : user (pq * W) :=
  User (pq * W) (fun _ a x => let '(w', ops, o) := p_step u (fst x) a (snd x) in ((fst x, w'), ops, o)) (fun l x => (x, l)).
Lemma as_timed_out {W} (u : puser W) s a x : snd (u_step (as_timed u) s a x) = snd (p_step u (fst x) a (snd x)).
Proof. cbn. destruct (p_step u (fst x) a (snd x)) as [[? ?] ?]. reflexivity. Qed.

Lemma pq_steady_rate W (u : puser W) fuel sh di l h w s w1 tr a d :
  p_forward_only u -> p_adds_nobody u -> nonneg di = true -> adds_nobody h -> NoDup l -> In a l -> p_keeps_pace u di a d ->
  pq_hist (AR := exact) u fuel (add_all l ++ h) (pq_init sh di) w = Some (s, w1, tr) -> no_exc tr ->
  exists n, acts_of a tr = map (fun k => Fin (Z.of_nat k * d)) (seq 0 n) /\
    n_leb (p_time s) (Fin (Z.of_nat n * d)) = true /\
    (0 < n -> n_leb (Fin ((Z.of_nat n - 1) * d)) (p_time s) = true).
Proof.
  intros F N D A ND I [DP P] E NE.
  destruct (pq_timetable (AR := exact) W u fuel sh di l h w s w1 tr a F N D A ND I E NE) as (rest & pend & FA & TT & PE).
  assert (SUB : forall e, In e rest -> In e tr).
  { intros e J. assert (In e (filter (about a) tr)) as X by (rewrite FA; right; exact J). apply filter_In in X. apply X. }
  pose proof (pq_hist_fine (AR := exact) u fuel _ _ _ _ _ _ E eq_refl) as FI. rewrite Forall_forall in FI.
  assert (KP : keeps_pace (as_timed u) di a d).
  { split; [exact DP|]. intros s0 x. rewrite as_timed_out. apply P. }
  destruct (timetable_pace (as_timed u) di a d KP _ _ _ TT 0%Z eq_refl) as (n & AC & Q).
  { intros t o J. destruct (FI _ (SUB _ J)) as [_ G]. destruct (G _ _ _ eq_refl) as [->|(s0 & w0 & ->)].
    - exfalso. unfold no_exc in NE. rewrite forallb_forall in NE. specialize (NE _ (SUB _ J)). discriminate.
    - exists (timed_init false di), (s0, w0). rewrite as_timed_out. reflexivity. }
  exists n. assert (AA : acts_of a tr = acts_of a rest) by (rewrite <- acts_of_about, FA; reflexivity).
  rewrite AA. cbn [Z.add] in AC. split; [exact AC|]. rewrite Q in PE. split; [exact PE|].
  intros N0. assert (IN : In (Fin (Z.of_nat (n - 1) * d)) (acts_of a rest)).
  { rewrite AC. apply in_map_iff. exists (n - 1). split; [reflexivity|]. apply in_seq. lia. }
  apply acts_of_in in IN as (o & IN). apply SUB in IN. destruct (FI _ IN) as [B _]. cbn [ev_time] in B.
  replace (Z.of_nat n - 1)%Z with (Z.of_nat (n - 1)) by lia. exact B.
Qed.
