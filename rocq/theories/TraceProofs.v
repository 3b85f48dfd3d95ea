(** The scheduler seen from the trace of one run: conditions on what happened in the run instead of
    conditions on all that user code might do. *)
From Coq Require Import ZArith List Bool Arith Permutation Lia.
From Verif Require Import Num TimedModel TimedSpec TimedProofs.
Import ListNotations.

(** In this run nobody asked to be woken in the past. *)
Definition forward_ev (e : ev) : Prop :=
  match e with EvAct _ _ (Ret (Some d)) => nonneg d = true | _ => True end.
Definition forward_trace (tr : list ev) : Prop := Forall forward_ev tr.

Section Trace.
Context {AR : Arith}.
Context {W : Type}.

(** User code whose requests for the past are turned into deaths. *)
Definition forwarded (o : outcome) : outcome :=
  match o with Ret (Some d) => if nonneg d then o else Dead | _ => o end.
Definition forward_user (u : user W) : user W :=
  User W (fun s a w => let '(w', ops, o) := u_step u s a w in (w', ops, forwarded o)) (u_shuffle u).

Lemma forward_user_forward u : forward_only (forward_user u).
Proof.
  intros s a w. cbn. destruct (u_step u s a w) as [[w' ops] o]. destruct o as [[d|]| |]; cbn; auto.
  destruct (nonneg d) eqn:E; cbn; auto.
Qed.

Lemma forwarded_id t a o : forward_ev (EvAct t a o) -> forwarded o = o.
Proof. destruct o as [[d|]| |]; cbn; auto. intros ->. reflexivity. Qed.
Lemma forwarded_live o : forwarded o <> Dead -> forwarded o = o.
Proof. destruct o as [[d|]| |]; cbn; auto. destruct (nonneg d); auto. intros H. now contradict H. Qed.

(** The two do the same where [same] holds of what happened; [ok] tells it from the trace. *)
Section Same.
Variables (u v : user W) (ok : ev -> Prop).
Hypothesis Hs : forall l w, u_shuffle u l w = u_shuffle v l w.
Hypothesis Hv : forall s a w w' ops o, u_step u s a w = (w', ops, o) ->
  (forall t, ok (EvAct t a o)) -> u_step v s a w = (w', ops, o).
Hypothesis Hok : forall t t' a o, ok (EvAct t a o) -> ok (EvAct t' a o).

Lemma bucket_ok now b : forall s w s' w' tr x, run_bucket u now b s w = (s', w', tr, x) -> Forall ok tr ->
  run_bucket v now b s w = (s', w', tr, x).
Proof.
  induction b as [|a b IH]; cbn [run_bucket]; intros s w s' w' tr x E F; auto.
  destruct (u_step u s a w) as [[w1 ops] o] eqn:U. destruct (run_ops s ops) as [s1 tr1] eqn:O.
  assert (X : ok (EvAct now a o) -> u_step v s a w = (w1, ops, o)) by (intros K; apply Hv; eauto).
  destruct o as [d| |].
  - destruct (run_bucket u now b _ w1) as [[[s3 w3] tr3] x3] eqn:B. injection E as <- <- <- <-.
    apply Forall_app in F. destruct F as [F1 F2]. apply Forall_app in F1. destruct F1 as [_ F1]. inversion F1; subst.
    rewrite X, O by auto. now rewrite (IH _ _ _ _ _ _ B F2).
  - destruct (run_bucket u now b _ w1) as [[[s3 w3] tr3] x3] eqn:B. injection E as <- <- <- <-.
    apply Forall_app in F. destruct F as [F1 F2]. apply Forall_app in F1. destruct F1 as [_ F1]. inversion F1; subst.
    rewrite X, O by auto. now rewrite (IH _ _ _ _ _ _ B F2).
  - injection E as <- <- <- <-. apply Forall_app in F. destruct F as [_ F1]. inversion F1; subst.
    now rewrite X, O by auto.
Qed.
Lemma tstep_ok s w s' w' tr x : timed_step u s w = (s', w', tr, x) -> Forall ok tr -> timed_step v s w = (s', w', tr, x).
Proof.
  unfold timed_step. destruct (s_queue s) as [|[t b] q]; auto. destruct (n_ltb _ t); auto. rewrite <- Hs.
  destruct (if s_shuffle s then u_shuffle u b w else (w, b)) as [w0 b0].
  destruct (run_bucket u (s_time s) b0 _ w0) as [[[s1 w1] tr1] x1] eqn:B. intros E F.
  assert (F1 : Forall ok tr1) by (destruct x1; injection E as <- <- <- <-; auto).
  now rewrite (bucket_ok _ _ _ _ _ _ _ _ B F1).
Qed.
Lemma hist_ok h : forall s w s' w' tr, run_hist u h s w = (s', w', tr) -> Forall ok tr -> run_hist v h s w = (s', w', tr).
Proof.
  induction h as [|c h IH]; cbn [run_hist]; intros s w s' w' tr E F; auto.
  destruct (run_cmd u s w c) as [[s1 w1] tr1] eqn:C. destruct (run_hist u h s1 w1) as [[s2 w2] tr2] eqn:R.
  injection E as <- <- <-. apply Forall_app in F. destruct F as [F1 F2].
  assert (X : run_cmd v s w c = (s1, w1, tr1)).
  { destruct c; cbn [run_cmd] in *; auto.
    destruct (timed_step u s w) as [[[s3 w3] tr3] x3] eqn:T. injection C as <- <- <-.
    now rewrite (tstep_ok _ _ _ _ _ _ T F1). }
  now rewrite X, (IH _ _ _ _ _ R F2).
Qed.
End Same.

(** A run in which nobody asked to be woken in the past is a run of the changed code, and a run of
    the changed code in which nobody is dead is a run of the code. *)
Lemma forward_same u h s w s' w' tr : run_hist u h s w = (s', w', tr) -> forward_trace tr ->
  run_hist (forward_user u) h s w = (s', w', tr).
Proof.
  intros E F. apply (hist_ok u (forward_user u) forward_ev) with (3 := fun t t' a o H => H); auto.
  intros s0 a w0 w1 ops o U K. cbn. rewrite U. now rewrite (forwarded_id (Fin 0) a o (K _)).
Qed.
Definition not_dead (e : ev) : Prop := match e with EvAct _ _ Dead => False | _ => True end.
Lemma same_forward u h s w s' w' tr : run_hist (forward_user u) h s w = (s', w', tr) -> Forall not_dead tr ->
  run_hist u h s w = (s', w', tr).
Proof.
  intros E F. apply (hist_ok (forward_user u) u not_dead) with (3 := fun t t' a o H => H); auto.
  intros s0 a w0 w1 ops o U K. cbn in U. destruct (u_step u s0 a w0) as [[w2 ops2] o2]. injection U as <- <- <-.
  rewrite forwarded_live; auto. intros X. specialize (K (Fin 0)). now rewrite X in K.
Qed.

(** C03 for such a run. *)
Lemma trace_wakeup (u : user W) sh di h w s' w' tr a :
  (sh = true -> fair_shuffle u) -> nonneg di = true ->
  run_hist u h (timed_init sh di) w = (s', w', tr) -> no_exc tr -> forward_trace tr -> adds_of a tr = 1 ->
  exists t0 rest pend,
    filter (about a) tr = EvAdd t0 a :: rest /\ timetable di a t0 rest pend /\
    match pend with Some t => n_leb (s_time s') t = true | None => True end.
Proof.
  intros FS D E NE F A. apply forward_same in E; auto.
  exact (exact_wakeup W (forward_user u) sh di h w s' w' tr a (forward_user_forward u) FS D E NE A).
Qed.

(** C01 to C04 and C06 for such a run. *)
Lemma forward_step_same u s w s' w' tr x : timed_step u s w = (s', w', tr, x) -> forward_trace tr ->
  timed_step (forward_user u) s w = (s', w', tr, x).
Proof.
  intros E F. apply (tstep_ok u (forward_user u) forward_ev) with (3 := fun t t' a o H => H); auto.
  intros s0 a w0 w1 ops o U K. cbn. rewrite U. now rewrite (forwarded_id (Fin 0) a o (K _)).
Qed.
Lemma forward_fair u : fair_shuffle u -> fair_shuffle (forward_user u).
Proof. intros H l w. apply H. Qed.
Lemma trace_clock (u : user W) sh di (h1 h2 : list cmd) w s1 w1 tr1 s2 w2 tr2 :
  nonneg di = true -> run_hist u h1 (timed_init sh di) w = (s1, w1, tr1) -> run_hist u h2 s1 w1 = (s2, w2, tr2) ->
  forward_trace (tr1 ++ tr2) -> n_leb (s_time s1) (s_time s2) = true.
Proof.
  intros D E1 E2 F. apply Forall_app in F. destruct F as [F1 F2]. apply forward_same in E1; auto. apply forward_same in E2; auto.
  pose proof (clock_monotone W (forward_user u) sh di h1 h2 w (forward_user_forward u) D) as C.
  rewrite run_hist_app in C. rewrite E1, E2 in C. exact C.
Qed.
Lemma trace_back (u : user W) sh di (h1 h2 : list cmd) w s1 w1 tr1 s2 w2 tr2 :
  nonneg di = true -> run_hist u h1 (timed_init sh di) w = (s1, w1, tr1) -> run_hist u h2 s1 w1 = (s2, w2, tr2) ->
  n_leb (s_time s1) (s_time s2) = false ->
  exists t a d, In (EvAct t a (Ret (Some d))) (tr1 ++ tr2) /\ nonneg d = false.
Proof.
  intros D E1 E2 L.
  assert (K : forall tr, forward_trace tr \/ exists t a d, In (EvAct t a (Ret (Some d))) tr /\ nonneg d = false).
  { clear. induction tr as [|e tr IH]; [left; apply Forall_nil|].
    destruct IH as [F|(t & a & d & I & N)]; [|right; exists t, a, d; split; auto; now right].
    destruct e as [t a|t a [[d|]| |]]; try (left; apply Forall_cons; [exact Logic.I|exact F]).
    destruct (nonneg d) eqn:N; [left; apply Forall_cons; [exact N|exact F]|]. right. exists t, a, d. split; auto. now left. }
  destruct (K (tr1 ++ tr2)) as [F|H]; auto. rewrite (trace_clock u sh di h1 h2 w _ _ _ _ _ _ D E1 E2 F) in L. discriminate.
Qed.
Lemma trace_punctual (u : user W) sh di h w s' w' tr :
  (sh = true -> fair_shuffle u) -> nonneg di = true ->
  run_hist u h (timed_init sh di) w = (s', w', tr) -> no_exc tr -> forward_trace tr ->
  punctual di [] tr /\ forall t a, In (t, a) (agenda di [] tr) -> n_leb (s_time s') t = true.
Proof.
  intros FS D E NE F. apply forward_same in E; auto.
  exact (agenda_punctual W (forward_user u) sh di h w s' w' tr (forward_user_forward u) FS D E NE).
Qed.
Lemma trace_step (u : user W) sh di h w s w1 tr s' w2 tr2 x :
  (sh = true -> fair_shuffle u) -> nonneg di = true ->
  run_hist u h (timed_init sh di) w = (s, w1, tr) -> no_exc tr -> forward_trace tr ->
  timed_step u s w1 = (s', w2, tr2, x) -> no_exc tr2 -> forward_trace tr2 ->
  let ag := agenda di [] tr in
  (ag = [] /\ s' = s /\ w2 = w1 /\ tr2 = []) \/
  (due_at (s_time s) ag = [] /\ earliest ag (s_time s') /\
   n_ltb (s_time s) (s_time s') = true /\
   s_steps s' = s_steps s /\ w2 = w1 /\ tr2 = []) \/
  (due_at (s_time s) ag <> [] /\
   (exists order, acts tr2 = map (pair (s_time s)) order /\
      if sh then Permutation (due_at (s_time s) ag) order
      else order = due_at (s_time s) ag) /\
   s_steps s' = S (s_steps s) /\
   (agenda di ag tr2 = [] /\ s_time s' = PInf \/
    earliest (agenda di ag tr2) (s_time s'))).
Proof.
  intros FS D E NE F T NE2 F2. apply forward_same in E; auto. apply forward_step_same in T; auto.
  exact (step_effect_hist W (forward_user u) sh di h w s w1 tr s' w2 tr2 x (forward_user_forward u) FS D E NE T NE2).
Qed.
Lemma trace_exhausted (u : user W) sh di h w s w1 tr :
  (sh = true -> fair_shuffle u) -> nonneg di = true ->
  run_hist u h (timed_init sh di) w = (s, w1, tr) -> no_exc tr -> forward_trace tr ->
  acts tr <> [] -> agenda di [] tr = [] ->
  s_time s = PInf /\ forall n, run_hist u (repeat CStep n) s w1 = (s, w1, []).
Proof.
  intros FS D E NE F A G. apply forward_same in E; auto.
  destruct (run_hist_inv (forward_user u) (forward_user_forward u) h (timed_init sh di) w s w1 tr [] FS E (inv_init _ _ D) NE) as (H & _).
  simpl in H. rewrite G in H. assert (s_queue s = []) as Q by (apply (inv_empty _ _ H); auto).
  split; [eapply exhausted_hist; eauto|]. intros n. apply steps_empty; auto.
Qed.

(** What an agent has done so far is a list of instants and outcomes. *)
Definition acts_of (a : aid) (tr : list ev) : list (num * outcome) :=
  flat_map (fun e => match e with EvAct t b o => if Nat.eqb b a then [(t, o)] else [] | EvAdd _ _ => [] end) tr.
Lemma acts_of_app a l1 l2 : acts_of a (l1 ++ l2) = acts_of a l1 ++ acts_of a l2.
Proof. apply flat_map_app. Qed.
Lemma acts_of_about a tr : acts_of a tr = acts_of a (filter (about a) tr).
Proof.
  induction tr as [|e tr IH]; auto. cbn [filter acts_of flat_map]. fold (acts_of a tr). rewrite IH.
  destruct e as [t b|t b o]; cbn [about]; rewrite (Nat.eqb_sym a b).
  - destruct (Nat.eqb b a); reflexivity.
  - destruct (Nat.eqb b a) eqn:N; cbn [acts_of flat_map]; rewrite ?N; reflexivity.
Qed.
Lemma acts_of_ops a s ops : acts_of a (snd (run_ops s ops)) = [].
Proof.
  revert s. induction ops as [|op ops IH]; intros s; auto. cbn [run_ops].
  destruct (run_op s op) as [s1 e1] eqn:O. specialize (IH s1). destruct (run_ops s1 ops) as [s2 e2].
  cbn [snd] in *. rewrite acts_of_app, IH. destruct op; cbn in O; injection O as <- <-; reflexivity.
Qed.
Lemma ops_time s ops : s_time (fst (run_ops s ops)) = s_time s /\ s_di (fst (run_ops s ops)) = s_di s.
Proof.
  revert s. induction ops as [|op ops IH]; intros s; auto. cbn [run_ops].
  destruct (run_op s op) as [s1 e1] eqn:O. specialize (IH s1). destruct (run_ops s1 ops) as [s2 e2].
  cbn [fst] in *. destruct IH as [-> ->]. destruct op; cbn in O; injection O as <- _; [|auto].
  unfold timed_add, reg_add. destruct (existsb _ _); auto.
Qed.

(** A statement about what [a] has done and the world, along a history. *)
Section Track.
Variables (u : user W) (a : aid) (I : list (num * outcome) -> W -> Prop).
Hypothesis H1 : forall l s b w w' ops o, u_step u s b w = (w', ops, o) -> I l w ->
  I (if Nat.eqb b a then l ++ [(s_time s, o)] else l) w'.
Hypothesis H2 : forall l b w, I l w -> I l (fst (u_shuffle u b w)).

Lemma bucket_track now b : forall l s w s' w' tr x, s_time s = now -> run_bucket u now b s w = (s', w', tr, x) ->
  I l w -> I (l ++ acts_of a tr) w' /\ s_time s' = now.
Proof.
  induction b as [|c b IH]; cbn [run_bucket]; intros l s w s' w' tr x T E J.
  { injection E as <- <- <- <-. cbn. rewrite app_nil_r. auto. }
  destruct (u_step u s c w) as [[w1 ops] o] eqn:U. apply (H1 l) in U; auto.
  pose proof (acts_of_ops a s ops) as AO. pose proof (ops_time s ops) as [TO _].
  destruct (run_ops s ops) as [s1 tr1] eqn:O. cbn [fst snd] in AO, TO.
  assert (K : I (l ++ acts_of a (tr1 ++ [EvAct now c o])) w1).
  { rewrite acts_of_app, AO. cbn. rewrite T in U. destruct (Nat.eqb c a); cbn; rewrite ?app_nil_r; auto. }
  assert (T1 : s_time s1 = now) by congruence.
  destruct o as [d| |].
  - destruct (run_bucket u now b _ w1) as [[[s3 w3] tr3] x3] eqn:B. injection E as <- <- <- <-.
    rewrite acts_of_app, app_assoc. eapply IH; [|exact B|exact K].
    destruct (negb _); auto.
  - destruct (run_bucket u now b _ w1) as [[[s3 w3] tr3] x3] eqn:B. injection E as <- <- <- <-.
    rewrite acts_of_app, app_assoc. eapply IH; [|exact B|exact K]. auto.
  - injection E as <- <- <- <-. auto.
Qed.
Lemma tstep_track l s w s' w' tr x : timed_step u s w = (s', w', tr, x) -> I l w -> I (l ++ acts_of a tr) w'.
Proof.
  unfold timed_step. destruct (s_queue s) as [|[t b] q].
  { intros E J. injection E as <- <- <- <-. now rewrite app_nil_r. }
  destruct (n_ltb _ t). { intros E J. injection E as <- <- <- <-. now rewrite app_nil_r. }
  intros E J.
  assert (K : I l (fst (if s_shuffle s then u_shuffle u b w else (w, b)))) by (destruct (s_shuffle s); auto).
  destruct (if s_shuffle s then u_shuffle u b w else (w, b)) as [w0 b0]. cbn [fst] in K.
  destruct (run_bucket u (s_time s) b0 _ w0) as [[[s1 w1] tr1] x1] eqn:B.
  destruct (bucket_track (s_time s) b0 l (set_queue s q) w0 s1 w1 tr1 x1 eq_refl B K) as [R _].
  destruct x1; injection E as <- <- <- <-; auto.
Qed.
Lemma hist_track h : (forall f, ~ In (CWorld f) h) -> forall l s w s' w' tr, run_hist u h s w = (s', w', tr) -> I l w ->
  I (l ++ acts_of a tr) w'.
Proof.
  induction h as [|c h IH]; cbn [run_hist]; intros Ho l s w s' w' tr E J.
  { injection E as <- <- <-. now rewrite app_nil_r. }
  destruct (run_cmd u s w c) as [[s1 w1] tr1] eqn:C. destruct (run_hist u h s1 w1) as [[s2 w2] tr2] eqn:R.
  injection E as <- <- <-. rewrite acts_of_app, app_assoc.
  eapply IH; [intros f Hf; apply (Ho f); now right|exact R|].
  destruct c; cbn [run_cmd] in C.
  - destruct (timed_step u s w) as [[[s3 w3] tr3] x3] eqn:T. injection C as <- <- <-. eapply tstep_track; eauto.
  - injection C as <- <- <-. cbn. now rewrite app_nil_r.
  - injection C as <- <- <-. cbn. now rewrite app_nil_r.
  - destruct (Ho f). now left.
Qed.
End Track.
End Trace.

(** Runs at finite instants, with exact arithmetic. *)
Section Finite.
Context {W : Type}.
#[local] Existing Instance exact.
Definition finite (x : num) : Prop := exists z, x = Fin z.
Definition finite_ev (e : ev) : Prop := match e with EvAct t _ _ => finite t | EvAdd t _ => finite t end.
Definition no_adds (ops : list sop) : Prop := Forall (fun op => match op with SAdd _ _ => False | SRem _ => True end) ops.
(** A delay is finite or infinite, and not negative. *)
Definition good_delay (o : outcome) : Prop :=
  match o with Ret (Some d) => d = PInf \/ exists z, d = Fin z /\ (0 <= z)%Z | Exc => False | _ => True end.

Section Run.
Variables (u : user W) (I : W -> Prop) (di : Z) (good : aid -> outcome -> Prop).
Hypothesis H1 : forall s b w w' ops o, finite (s_time s) -> u_step u s b w = (w', ops, o) -> I w ->
  I w' /\ no_adds ops /\ good b o.
Hypothesis H2 : forall b w, I w -> I (fst (u_shuffle u b w)).
(** A delay is finite or infinite. *)
Hypothesis H3 : forall b o, good b o -> o <> Exc /\ forall d, o = Ret (Some d) -> d = PInf \/ finite d.

Definition fq (s : sched) : Prop := Forall (fun p => finite (fst p)) (s_queue s) /\ s_di s = Fin di.
Definition good_ev (e : ev) : Prop := match e with EvAct t b o => finite t /\ good b o | EvAdd _ _ => True end.
Definition good_act (e : ev) : Prop := match e with EvAct t b o => finite t /\ good b o | EvAdd _ _ => False end.

Lemma insert_finite q t a : Forall (fun p => finite (fst p)) q -> finite t ->
  Forall (fun p : num * list aid => finite (fst p)) (insert_bucket q t a).
Proof.
  intros F T. induction q as [|[t' b] q IH]; cbn [insert_bucket fst snd]; [repeat constructor; auto|].
  inversion F; subst. destruct (n_eqb t' t); [constructor; auto|]. destruct (n_ltb t t'); repeat constructor; auto.
Qed.
Lemma ops_queue s ops : no_adds ops -> s_queue (fst (run_ops s ops)) = s_queue s /\ snd (run_ops s ops) = [].
Proof.
  revert s. induction ops as [|op ops IH]; intros s N; auto. inversion N as [|? ? N1 N2]; subst. cbn [run_ops].
  destruct op; [contradiction|]. cbn [run_op]. specialize (IH (reg_rem s a) N2).
  destruct (run_ops (reg_rem s a) ops) as [s2 e2]. cbn [fst snd] in *. destruct IH as [-> ->]. auto.
Qed.

Lemma bucket_finite now b : finite now -> forall s w s' w' tr x, s_time s = now -> fq s -> run_bucket u now b s w = (s', w', tr, x) ->
  I w -> I w' /\ s_time s' = now /\ fq s' /\ Forall good_act tr /\ x = false.
Proof.
  intros FN. induction b as [|c b IH]; cbn [run_bucket]; intros s w s' w' tr x T Q E J.
  { injection E as <- <- <- <-. auto. }
  destruct (u_step u s c w) as [[w1 ops] o] eqn:U. apply H1 in U; auto; [|now rewrite T]. destruct U as (J1 & NA & G).
  pose proof (ops_queue s ops NA) as [QO EO]. pose proof (ops_time s ops) as [TO DO].
  destruct (run_ops s ops) as [s1 tr1] eqn:O. cbn [fst snd] in *. subst tr1.
  destruct Q as [Q1 Q2]. destruct (H3 c o G) as [NE GD].
  assert (Q' : fq s1) by (split; congruence). assert (T1 : s_time s1 = now) by congruence.
  destruct o as [d| |]; [| |now contradict NE].
  - destruct (run_bucket u now b _ w1) as [[[s3 w3] tr3] x3] eqn:B. injection E as <- <- <- <-.
    apply IH in B; auto.
    + destruct B as (B1 & B2 & B3 & B4 & ->). split; auto. split; auto. split; auto. split; auto.
      cbn. constructor; cbn; auto.
    + destruct (negb _); auto.
    + destruct (negb (n_eqb (n_add (or_num d (s_di s1)) now) PInf)) eqn:N; auto.
      unfold timed_schedule. split; [|exact (proj2 Q')]. cbn [s_queue set_queue].
      apply insert_finite; [exact (proj1 Q')|].
      destruct FN as [n ->]. rewrite (proj2 Q') in *.
      assert (X : or_num d (Fin di) = PInf \/ finite (or_num d (Fin di))).
      { destruct d as [d|]; cbn; [|right; eexists; reflexivity]. destruct (GD d eq_refl) as [->|[z ->]]; cbn.
        - auto. - right. destruct (n_truthy (Fin z)); eexists; reflexivity. }
      destruct X as [X|[z X]].
      * rewrite X in N. cbn in N. discriminate.
      * rewrite X. cbn [or_num n_add exact x_add]. destruct (n_truthy (Fin (z + n))); [eexists; reflexivity|].
        rewrite T1. eexists; reflexivity.
  - destruct (run_bucket u now b _ w1) as [[[s3 w3] tr3] x3] eqn:B. injection E as <- <- <- <-.
    apply IH in B; auto. destruct B as (B1 & B2 & B3 & B4 & ->). split; auto. split; auto. split; auto. split; auto.
    cbn. constructor; cbn; auto.
Qed.

(** The clock is finite, or there is nothing to do. *)
Definition fs (s : sched) : Prop := fq s /\ (s_queue s = [] \/ finite (s_time s)).
Lemma tstep_finite s w s' w' tr x : timed_step u s w = (s', w', tr, x) -> fs s -> I w ->
  I w' /\ fs s' /\ Forall good_act tr /\ x = false.
Proof.
  unfold timed_step. intros E [Q T] J. destruct (s_queue s) as [|[t b] q] eqn:SQ.
  { injection E as <- <- <- <-. split; auto. split; [|auto]. split; auto. }
  destruct T as [T|T]; [discriminate|].
  destruct Q as [Q1 Q2]. rewrite SQ in Q1. inversion Q1 as [|? ? Q3 Q4]; subst. cbn [fst] in Q3.
  destruct (n_ltb _ t).
  { injection E as <- <- <- <-. split; auto. split; [|auto]. split; [split|]; cbn; auto. now rewrite SQ. }
  assert (K : I (fst (if s_shuffle s then u_shuffle u b w else (w, b)))) by (destruct (s_shuffle s); auto).
  destruct (if s_shuffle s then u_shuffle u b w else (w, b)) as [w0 b0]. cbn [fst] in K.
  destruct (run_bucket u (s_time s) b0 _ w0) as [[[s1 w1] tr1] x1] eqn:B.
  apply bucket_finite in B; auto; [|split; auto]. destruct B as (B1 & B2 & B3 & B4 & ->).
  injection E as <- <- <- <-. split; auto. split; [|auto].
  destruct B3 as [B3 B5]. cbn [set_steps s_queue]. destruct (s_queue s1) as [|[t1 b1] q1] eqn:S1.
  - split; [split|]; cbn; auto; rewrite S1; auto.
  - inversion B3; subst. split; [split|]; cbn; auto. now rewrite S1.
Qed.
Lemma hist_finite h : (forall f, ~ In (CWorld f) h) -> forall s w s' w' tr, run_hist u h s w = (s', w', tr) -> fs s -> I w ->
  (forall t b, In (EvAdd t b) tr -> finite t) ->
  I w' /\ fs s' /\ Forall good_ev tr.
Proof.
  induction h as [|c h IH]; cbn [run_hist]; intros Ho s w s' w' tr E Q J A.
  { injection E as <- <- <-. auto. }
  destruct (run_cmd u s w c) as [[s1 w1] tr1] eqn:C. destruct (run_hist u h s1 w1) as [[s2 w2] tr2] eqn:R.
  injection E as <- <- <-.
  assert (X : I w1 /\ fs s1 /\ Forall good_ev tr1).
  { destruct c; cbn [run_cmd] in C.
    - destruct (timed_step u s w) as [[[s3 w3] tr3] x3] eqn:T. injection C as <- <- <-.
      apply tstep_finite in T; auto. destruct T as (T1 & T2 & T3 & _). split; auto. split; auto.
      eapply Forall_impl; [|exact T3]. intros [|]; cbn; tauto.
    - cbn in C. injection C as <- <- <-. split; auto. split; [|repeat constructor].
      assert (F : finite (s_time s)) by (apply (A _ a); apply in_or_app; left; now left).
      destruct Q as [[Q1 Q2] _]. unfold timed_add, reg_add, fs, fq.
      assert (Y : Forall (fun p => finite (fst p)) (s_queue (timed_schedule s a None))) by (cbn; now apply insert_finite).
      destruct (existsb _ _); cbn [s_queue set_reg s_time s_di]; repeat split; auto.
    - injection C as <- <- <-. split; auto.
    - destruct (Ho f). now left. }
  destruct X as (X1 & X2 & X3).
  destruct (IH (fun f Hf => Ho f (or_intror Hf)) _ _ _ _ _ R X2 X1) as (Y1 & Y2 & Y3).
  { intros t b Hb. apply (A t b). apply in_or_app. now right. }
  split; auto. split; auto. apply Forall_app. auto.
Qed.
(** Commands that add nobody. *)
Definition only_runs (c : cmd (W := W)) : Prop := match c with CStep => True | CRem _ => True | _ => False end.
Lemma hist_runs h : Forall only_runs h -> forall s w s' w' tr, run_hist u h s w = (s', w', tr) -> fs s -> I w ->
  I w' /\ fs s' /\ Forall good_act tr.
Proof.
  induction h as [|c h IH]; cbn [run_hist]; intros Ho s w s' w' tr E Q J.
  { injection E as <- <- <-. auto. }
  destruct (run_cmd u s w c) as [[s1 w1] tr1] eqn:C. destruct (run_hist u h s1 w1) as [[s2 w2] tr2] eqn:R.
  injection E as <- <- <-. inversion Ho as [|? ? O1 O2]; subst.
  assert (X : I w1 /\ fs s1 /\ Forall good_act tr1).
  { destruct c; cbn [run_cmd] in C; try contradiction.
    - destruct (timed_step u s w) as [[[s3 w3] tr3] x3] eqn:T. injection C as <- <- <-.
      apply tstep_finite in T; auto. destruct T as (T1 & T2 & T3 & _). auto.
    - injection C as <- <- <-. split; auto. }
  destruct X as (X1 & X2 & X3). destruct (IH O2 _ _ _ _ _ R X2 X1) as (Y1 & Y2 & Y3).
  split; auto. split; auto. apply Forall_app. auto.
Qed.

(** A model whose agents are added before it runs. *)
Lemma hist_adds l : forall s w, fs s -> finite (s_time s) -> exists s1,
  run_hist u (map (fun a => CAdd a None) l) s w = (s1, w, map (EvAdd (s_time s)) l) /\ fs s1 /\ s_time s1 = s_time s.
Proof.
  induction l as [|a l IH]; intros s w F T; cbn [map run_hist]; [eauto|].
  cbn [run_cmd run_op].
  assert (X : fs (timed_add s a None) /\ s_time (timed_add s a None) = s_time s).
  { destruct F as [[Q1 Q2] _]. unfold timed_add, reg_add, fs, fq.
    assert (Y : Forall (fun p => finite (fst p)) (s_queue (timed_schedule s a None))) by (cbn; now apply insert_finite).
    destruct (existsb _ _); cbn [s_queue set_reg s_time s_di]; repeat split; auto. }
  destruct X as [X1 X2]. destruct (IH (timed_add s a None) w X1) as (s1 & E & F1 & T1); [now rewrite X2|].
  rewrite E, X2. exists s1. rewrite T1. auto.
Qed.
Lemma hist_app h1 h2 s w : run_hist u (h1 ++ h2) s w =
  let '(s1, w1, tr1) := run_hist u h1 s w in let '(s2, w2, tr2) := run_hist u h2 s1 w1 in (s2, w2, tr1 ++ tr2).
Proof.
  revert s w. induction h1 as [|c h1 IH]; intros s w; cbn [app run_hist].
  - destruct (run_hist u h2 s w) as [[? ?] ?]. reflexivity.
  - destruct (run_cmd u s w c) as [[s1 w1] tr1]. rewrite IH. destruct (run_hist u h1 s1 w1) as [[s2 w2] tr2].
    destruct (run_hist u h2 s2 w2) as [[s3 w3] tr3]. now rewrite app_assoc.
Qed.
End Run.

Lemma fs_init di sh : fs di (timed_init sh (Fin di)).
Proof. split; [split|]; cbn; auto. Qed.
End Finite.
