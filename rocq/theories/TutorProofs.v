(** Proofs about TutorModel. *)
From Coq Require Import ZArith List Bool Arith String Lia Permutation.
From Verif Require Import Num PyDict TimedModel TimedSpec TimedProofs TraceProofs AgentModel AgentProofs FsmModel FsmSpec FsmProofs
  FsmDieModel TutorModel TutorSpec.
Import ListNotations.
Local Open Scope string_scope.
Local Open Scope list_scope.
#[local] Existing Instance exact.

(** What is known of the beginning of a list. *)
Definition known {A} (l full : list A) : Prop := firstn (List.length full) l = firstn (List.length l) full.
Lemma known_nil {A} (full : list A) : known [] full.
Proof. unfold known. cbn. now rewrite firstn_nil. Qed.
Lemma known_snoc {A} (l full : list A) x : known l full ->
  (List.length l < List.length full -> nth_error full (List.length l) = Some x) -> known (l ++ [x]) full.
Proof.
  revert full. induction l as [|y l IH]; intros [|z full] K N; try reflexivity.
  - cbn in *. specialize (N ltac:(lia)). injection N as ->. unfold known. cbn. rewrite firstn_nil. reflexivity.
  - unfold known in *. cbn [app List.length firstn] in *. injection K as -> K. f_equal. apply IH; auto.
    intros L. apply N. lia.
Qed.

Lemma nonneg_fin z : (0 <= z)%Z -> nonneg (Fin z) = true.
Proof. intros H. unfold nonneg, n_leb. cbn [n_ltb n_eqb]. apply orb_true_iff. rewrite Z.ltb_lt, Z.eqb_eq. lia. Qed.

Definition pstates (k : lesson) : dict string (state tfun) :=
  fst (meta (match k with LDelayed => fsm_delayed | _ => fsm_example end)).
Definition pneutral (k : lesson) : state tfun := match k with LDelayed => t_neutral_delayed | _ => t_neutral end.
Definition pdead : state tfun := State TDead "dead" false.

Definition ok (k : lesson) (a : aid) (x : fworld tfun trest * cors (frame tfun)) : Prop :=
  let '(w, c) := x in
  match k with
  | LExample => fa_kind (fw_agents w a) = KPlain TStep /\ get_co c a = None
  | _ => fa_kind (fw_agents w a) = KFsm (pstates k) /\
      (exists st, fa_cur (fw_agents w a) = Some st /\ (st = pneutral k \/ st = t_infected \/ st = pdead)) /\
      (get_co c a = None \/ get_co c a = Some GDone)
  end.
(** Agent [b] is as before. *)
Definition untouched (b : aid) (x x' : fworld tfun trest * cors (frame tfun)) : Prop :=
  fw_agents (fst x') b = fw_agents (fst x) b /\ t_steps (fw_rest (fst x')) b = t_steps (fw_rest (fst x)) b /\
  t_flag (fw_rest (fst x')) b = t_flag (fw_rest (fst x)) b /\ get_co (snd x') b = get_co (snd x) b.
Lemma untouched_ok k b x x' : untouched b x x' -> ok k b x -> ok k b x'.
Proof. destruct x, x'. intros (E1 & _ & _ & E2). cbn [fst snd] in *. unfold ok. now rewrite E1, E2. Qed.

(** One activation of an agent of each class. *)
Lemma example_act m fs s a w c w' c' l o : ok LExample a (w, c) ->
  agent_step (tutor_code m) fs s a (w, c) = (w', c', l, o) ->
  ok LExample a (w', c') /\ (forall b, b <> a -> untouched b (w, c) (w', c')) /\ no_adds l /\
  if t_flag (fw_rest w) a then o = Ret (Some PInf) /\ fa_alive (fw_agents w' a) = false /\
    t_steps (fw_rest w') a = t_steps (fw_rest w) a /\ t_flag (fw_rest w') a = true
  else o = Ret None /\ fa_alive (fw_agents w' a) = fa_alive (fw_agents w a) /\
    t_steps (fw_rest w') a = S (t_steps (fw_rest w) a) /\ t_flag (fw_rest w') a = Nat.ltb m (S (t_steps (fw_rest w) a)).
Proof.
  intros [K G] E. unfold agent_step, decorated in E. cbn [fst snd] in E. rewrite G in E. cbn [send step_gen] in E.
  rewrite K in E. unfold inside in E. cbn [c_resume c_start tutor_code] in E. unfold example_step in E.
  assert (CO : forall b x y, b <> a -> get_co (set_co (set_co (set_co c a x) a y) a None) b = get_co c b).
  { intros b x y N. rewrite !get_set_co. apply Nat.eqb_neq in N. now rewrite N. }
  assert (CA : forall x y, get_co (set_co (set_co (set_co c a x) a y) a None) a = None).
  { intros x y. rewrite get_set_co, Nat.eqb_refl. reflexivity. }
  destruct (t_flag (fw_rest w) a) eqn:F.
  - cbn in E. rewrite Nat.eqb_refl in E. cbn in E. rewrite K in E. cbn in E. injection E as <- <- <- <-.
    split; [|split; [|split]].
    + split; [cbn; rewrite Nat.eqb_refl; exact K|apply CA].
    + intros b N. unfold untouched. cbn [fst snd]. rewrite CO by auto. cbn. pose proof N as N'. apply Nat.eqb_neq in N'. rewrite N'. auto.
    + repeat constructor.
    + cbn. rewrite Nat.eqb_refl. auto.
  - cbn [run_fops] in E. cbn [fw_agents] in E. rewrite K in E. cbn in E. injection E as <- <- <- <-.
    split; [|split; [|split]].
    + split; [exact K|apply CA].
    + intros b N. unfold untouched. cbn [fst snd]. rewrite CO by auto. cbn. pose proof N as N'. apply Nat.eqb_neq in N'.
      destruct (Nat.leb _ _); cbn; rewrite ?N'; auto.
    + constructor.
    + cbn [fw_agents fw_rest]. cbn [Nat.ltb Nat.leb]. destruct (Nat.leb m (t_steps (fw_rest w) a)); cbn; rewrite ?Nat.eqb_refl, ?F; auto.
Qed.

Lemma machine_act k m fs s a w c w' c' l o : k <> LExample -> ok k a (w, c) ->
  agent_step (tutor_code m) fs s a (w, c) = (w', c', l, o) ->
  ok k a (w', c') /\ (forall b, b <> a -> untouched b (w, c) (w', c')) /\ no_adds l /\
  (finite (s_time s) -> good_delay o) /\
  (get_co c a = None -> fa_alive (fw_agents w a) = true ->
   get_co c' a = None /\
   match option_map st_fun (fa_cur (fw_agents w a)) with
   | Some TNeutral => o = Ret None /\ fa_alive (fw_agents w' a) = true /\ t_steps (fw_rest w') a = S (t_steps (fw_rest w) a) /\
       fa_cur (fw_agents w' a) = Some (if Nat.ltb m (S (t_steps (fw_rest w) a)) then t_infected else t_neutral)
   | Some TNeutralDelayed => o = Ret (Some (Fin (Z.of_nat m))) /\ fa_alive (fw_agents w' a) = true /\
       fa_cur (fw_agents w' a) = Some t_infected
   | Some TInfected => (finite (s_time s) -> o = Ret (Some PInf)) /\ fa_alive (fw_agents w' a) = false /\
       fa_cur (fw_agents w' a) = Some pdead
   | _ => True
   end).
Proof.
  intros NK H E. assert (H' : fa_kind (fw_agents w a) = KFsm (pstates k) /\
      (exists st, fa_cur (fw_agents w a) = Some st /\ (st = pneutral k \/ st = t_infected \/ st = pdead)) /\
      (get_co c a = None \/ get_co c a = Some GDone)) by (destruct k; [now contradict NK|exact H|exact H]).
  destruct H' as (K & (st & C & S) & G).
  assert (OK : forall w1 c1, fa_kind (fw_agents w1 a) = KFsm (pstates k) ->
    (exists st, fa_cur (fw_agents w1 a) = Some st /\ (st = pneutral k \/ st = t_infected \/ st = pdead)) ->
    (get_co c1 a = None \/ get_co c1 a = Some GDone) -> ok k a (w1, c1)).
  { intros. destruct k; [now contradict NK| |]; cbn; auto. }
  unfold agent_step, decorated in E. cbn [fst snd] in E.
  assert (CO : forall b c0, (forall b, b <> a -> get_co c0 b = get_co c b) -> b <> a -> forall x, get_co (set_co c0 a x) b = get_co c b).
  { intros b c0 H0 N x. rewrite get_set_co. specialize (H0 b N). apply Nat.eqb_neq in N. now rewrite N. }
  destruct G as [G|G]; rewrite G in E; cbn [send] in E.
  2:{ injection E as <- <- <- <-. split; [|split; [|split; [|split]]].
      - apply OK; auto. + eauto. + rewrite get_set_co, Nat.eqb_refl. auto.
      - intros b N. repeat split; cbn [fst snd]. repeat (apply CO; auto; intros).
      - constructor. - cbn. auto. - congruence. }
  cbn [step_gen] in E. rewrite K in E.
  destruct (fa_alive (fw_agents w a)) eqn:A; cbn [negb] in E.
  2:{ injection E as <- <- <- <-. split; [|split; [|split; [|split]]].
      - apply OK; auto. + eauto. + rewrite get_set_co, Nat.eqb_refl. auto.
      - intros b N. repeat split; cbn [fst snd]. repeat (apply CO; auto; intros).
      - constructor. - cbn. auto. - congruence. }
  rewrite C in E. rewrite C. cbn [option_map].
  unfold inside in E. cbn [c_resume c_start tutor_code] in E.
  assert (KK : dget "dead" (pstates k) = Some pdead) by (destruct k; reflexivity).
  assert (CF : forall x y z, get_co (set_co (set_co (set_co c a x) a y) a z) a = z).
  { intros. now rewrite get_set_co, Nat.eqb_refl. }
  assert (CB : forall x y z b, b <> a -> get_co (set_co (set_co (set_co c a x) a y) a z) b = get_co c b).
  { intros. repeat (apply CO; auto; intros). }
  assert (SF : st_fun st = TNeutral \/ st_fun st = TNeutralDelayed \/ st_fun st = TInfected \/ st_fun st = TDead).
  { destruct S as [->|[->| ->]]; destruct k; cbn; auto. }
  destruct SF as [SF|[SF|[SF|SF]]]; rewrite SF in E |- *.
  - unfold neutral_fn in E. cbn [run_fops fw_agents] in E. rewrite K in E.
    assert (PN : pneutral k = t_neutral).
    { destruct S as [->|[->| ->]]; try discriminate SF. destruct k; auto. discriminate SF. }
    destruct (Nat.ltb m _) eqn:L; cbn in E; injection E as <- <- <- <-.
    all: (split; [|split; [|split; [|split]]]); try (constructor; fail); try (cbn; auto; fail).
    all: try (intros b N; unfold untouched; cbn [fst snd]; rewrite CB by auto; cbn; pose proof N as N'; apply Nat.eqb_neq in N'; rewrite ?N'; repeat split; auto; fail).
    + apply OK; rewrite ?CF; cbn; rewrite ?Nat.eqb_refl; cbn; eauto 6.
    + intros _ _. rewrite CF. cbn. rewrite ?Nat.eqb_refl. cbn. rewrite ?Nat.eqb_refl. auto 10.
    + apply OK; rewrite ?CF; cbn; rewrite ?Nat.eqb_refl; cbn; auto. exists t_neutral. rewrite PN.
      split; auto. rewrite C. destruct S as [->|[->| ->]]; try discriminate SF. now rewrite PN.
    + intros _ _. rewrite CF. cbn. rewrite ?Nat.eqb_refl. cbn. rewrite ?Nat.eqb_refl. repeat split; auto. rewrite C. destruct S as [->|[->| ->]]; try discriminate SF. now rewrite PN.
  - unfold neutral_delayed_fn in E. cbn [run_fops fw_agents] in E. rewrite K in E.
    cbn in E; injection E as <- <- <- <-.
    split; [|split; [|split; [|split]]]; try (constructor; fail).
    + apply OK; rewrite ?CF; cbn; rewrite ?Nat.eqb_refl; cbn; eauto 6.
    + intros b N; unfold untouched; cbn [fst snd]; rewrite CB by auto; cbn; pose proof N as N'; apply Nat.eqb_neq in N'; rewrite ?N'; repeat split; auto.
    + intros _. right. exists (Z.of_nat m). split; auto. lia.
    + intros _ _. rewrite CF. cbn. rewrite ?Nat.eqb_refl. cbn. rewrite ?Nat.eqb_refl. auto 10.
  - unfold infected_fn in E. rewrite K in E. cbn [fsm_die] in E. rewrite KK in E. cbn [option_map run_fops fw_agents] in E.
    cbn [upd fw_agents] in E. rewrite Nat.eqb_refl in E. cbn [set_alive fa_kind] in E. rewrite K in E.
    cbn in E; injection E as <- <- <- <-.
    assert (FT : finite (s_time s) -> n_add PInf (n_opp (s_time s)) = PInf).
    { intros [z ->]. reflexivity. }
    split; [|split; [|split; [|split]]].
    + apply OK; rewrite ?CF; cbn; rewrite ?Nat.eqb_refl; cbn; eauto 6.
    + intros b N; unfold untouched; cbn [fst snd]; rewrite CB by auto; cbn; pose proof N as N'; apply Nat.eqb_neq in N'; rewrite ?N'; repeat split; auto.
    + repeat constructor.
    + intros F. left. now apply FT.
    + intros _ _. rewrite CF. cbn [fw_agents upd]. rewrite ?Nat.eqb_refl. cbn [set_cur set_alive fa_alive fa_cur]. repeat split; auto. intros F. destruct F as [z F]. rewrite F. reflexivity.
  - cbn [run_fops fw_agents] in E. rewrite K in E.
    cbn in E; injection E as <- <- <- <-.
    split; [|split; [|split; [|split]]]; try (constructor; fail).
    + apply OK; rewrite ?CF; eauto.
    + intros b N. unfold untouched. cbn [fst snd]. rewrite CB by auto. repeat split; auto.
    + cbn. auto.
    + intros _ _. auto.
Qed.

Definition all_ok (kinds : aid -> lesson) (x : fworld tfun trest * cors (frame tfun)) : Prop := forall a, ok (kinds a) a x.

Lemma pupil_act kinds m fs s a x x' l o : all_ok kinds x ->
  agent_step (tutor_code m) fs s a x = (x', l, o) ->
  all_ok kinds x' /\ (forall b, b <> a -> untouched b x x') /\ no_adds l /\ (finite (s_time s) -> good_delay o).
Proof.
  intros H E. destruct x as [w c], x' as [w' c'].
  assert (X : ok (kinds a) a (w', c') /\ (forall b, b <> a -> untouched b (w, c) (w', c')) /\ no_adds l /\
    (finite (s_time s) -> good_delay o)).
  { specialize (H a). destruct (kinds a) eqn:K.
    - destruct (example_act _ _ _ _ _ _ _ _ _ _ H E) as (X1 & X2 & X3 & X4). split; auto. split; auto. split; auto.
      intros _. destruct (t_flag _ a); destruct X4 as [-> _]; cbn; auto.
    - destruct (machine_act LFsm _ _ _ _ _ _ _ _ _ _ ltac:(discriminate) H E) as (X1 & X2 & X3 & X4 & _). auto.
    - destruct (machine_act LDelayed _ _ _ _ _ _ _ _ _ _ ltac:(discriminate) H E) as (X1 & X2 & X3 & X4 & _). auto. }
  destruct X as (X1 & X2 & X3 & X4). split; [|auto]. intros b. destruct (Nat.eq_dec b a) as [->|N]; auto.
  eapply untouched_ok; eauto.
Qed.

Lemma classroom_ok kinds : all_ok kinds (classroom kinds, no_cors).
Proof.
  intros a. unfold ok, classroom, new_pupil. cbn [fw_agents]. destruct (kinds a); cbn; auto.
  - split; auto. split; [|now left]. exists t_neutral. split; [reflexivity|now left].
  - split; auto. split; [|now left]. exists t_neutral_delayed. split; [reflexivity|now left].
Qed.

Lemma instants_acts a tr : instants a tr = map fst (acts_of a tr).
Proof.
  induction tr as [|[t b|t b o] tr IH]; cbn [instants acts_of flat_map]; auto.
  fold (acts_of a tr). destruct (Nat.eqb b a); cbn; now rewrite IH.
Qed.

(** The run of an agent that is added once: its timetable, and what is tracked of it. *)
Lemma lesson_track m d kinds s w tr a (J : list (num * outcome) -> fworld tfun trest * cors (frame tfun) -> Prop) :
  lesson_run m d kinds s w tr -> adds_of a tr = 1 ->
  J [] (classroom kinds, no_cors) ->
  (forall l s b x x' ops o, all_ok kinds x -> agent_step (tutor_code m) (fun _ => None) s b x = (x', ops, o) ->
    (forall p, In p l -> finite (fst p)) -> finite (s_time s) -> J l x -> b = a -> J (l ++ [(s_time s, o)]) x') ->
  (forall l x x', untouched a x x' -> J l x -> J l x') ->
  exists t0 rest pend c,
    In (EvAdd (Fin t0) a) tr /\ timetable (Fin d) a (Fin t0) rest pend /\
    match pend with Some t => n_leb (s_time s) t = true | None => True end /\
    acts_of a tr = acts_of a rest /\ J (acts_of a rest) (w, c).
Proof.
  intros [(shuffle & sh & h & c & P & Ho & E) D A] A1 J0 J1 J2.
  assert (FI := hist_finite (tutor_user m shuffle) (all_ok kinds) d (fun _ => good_delay)).
  assert (X : all_ok kinds (w, c) /\ fs d s /\ Forall (good_ev (fun _ => good_delay)) tr).
  { eapply FI; [| | |exact Ho|exact E|apply fs_init|apply classroom_ok|].
    - intros s0 b x x' ops o F U I. cbn [tutor_user agent_user u_step] in U.
      destruct (agent_step (tutor_code m) (fun _ : string => None) s0 b x) as [[x1 l1] o1] eqn:U1.
      injection U as <- <- <-. destruct (pupil_act _ _ _ _ _ _ _ _ _ I U1) as (Y1 & _ & Y2 & Y3). auto.
    - intros b x I. destruct x as [w0 c0]. destruct w0. exact I.
    - intros _ o G. destruct o as [[d0|]| |]; cbn in G; [| | |destruct G]; (split; [discriminate|]); intros d1 X; try discriminate.
      injection X as <-. destruct G as [G|(z & G & _)]; [now left|]. right. now exists z.
    - intros t b I. apply (A t b I). }
  destruct X as (_ & _ & G).
  assert (FW : forward_trace tr).
  { eapply Forall_impl; [|exact G]. intros [t b|t b o]; cbn; auto. intros [_ X]. destruct o as [[d0|]| |]; auto.
    destruct X as [->|(z & -> & Z)]; [reflexivity|]. now apply nonneg_fin. }
  assert (NE : no_exc tr).
  { unfold no_exc. apply forallb_forall. intros e I. rewrite Forall_forall in G. specialize (G e I).
    destruct e as [|t b [| |]]; auto. destruct G as [_ []]. }
  assert (FS : sh = true -> fair_shuffle (tutor_user m shuffle)).
  { intros _ l x. apply P. }
  assert (DI : nonneg (Fin d) = true) by (apply nonneg_fin; lia).
  destruct (trace_wakeup _ _ _ _ _ _ _ _ _ FS DI E NE FW A1) as (t0 & rest & pend & F & TT & PE).
  assert (IA : In (EvAdd t0 a) tr).
  { assert (Y : In (EvAdd t0 a) (filter (about a) tr)) by (rewrite F; now left). apply filter_In in Y. tauto. }
  destruct (A _ _ IA) as [z ->]. exists z, rest, pend, c.
  assert (AC : acts_of a tr = acts_of a rest).
  { rewrite acts_of_about, F. reflexivity. }
  split; auto. split; auto. split; auto. split; auto. rewrite <- AC.
  assert (FA : forall p, In p (acts_of a tr) -> finite (fst p)).
  { intros p I. apply in_flat_map in I. destruct I as (e & I1 & I2). rewrite Forall_forall in G. specialize (G e I1).
    destruct e as [|t b o]; [destruct I2|]. destruct (Nat.eqb b a); [|destruct I2]. destruct I2 as [<-|[]]. apply G. }
  pose proof (hist_track (tutor_user m shuffle) a (fun l x => all_ok kinds x /\ ((forall p, In p l -> finite (fst p)) -> J l x))) as T.
  refine (proj2 (T _ _ h Ho [] _ _ _ _ _ E _) FA).
  - clear - J1 J2. intros l s b x x' ops o U [I K]. cbn [tutor_user agent_user u_step] in U.
    destruct (agent_step (tutor_code m) (fun _ : string => None) s b x) as [[x1 l1] o1] eqn:U1.
    injection U as <- <- <-. destruct (pupil_act _ _ _ _ _ _ _ _ _ I U1) as (Y1 & Y2 & _). split; auto.
    destruct (Nat.eqb_spec b a) as [->|N].
    + intros F. assert (F' : forall p, In p l -> finite (fst p)) by (intros p Ip; apply F, in_or_app; now left).
      refine (J1 l s a x x1 l1 o1 I U1 F' _ (K F') eq_refl).
      apply (F (s_time s, o1)), in_or_app. right. now left.
    + intros F. exact (J2 l x x1 (Y2 a (not_eq_sym N)) (K F)).
  - intros l b [w0 c0] [I K]. destruct w0. split; [exact I|]. intros F0. apply (J2 l _ _) with (2 := K F0). repeat split.
  - split; [apply classroom_ok|]. intros _. exact J0.
Qed.

(** * The agents that count *)
Definition counting (m : nat) : list outcome := repeat (Ret None) (S m) ++ [Ret (Some PInf)].
Lemma counting_nth m n : n <= S m -> nth_error (counting m) n = Some (if Nat.ltb n (S m) then Ret None else Ret (Some PInf)).
Proof.
  intros L. unfold counting. destruct (Nat.ltb_spec n (S m)) as [H|H].
  - rewrite nth_error_app1 by (rewrite repeat_length; auto). 
    rewrite (nth_error_nth' _ (Ret None)) by (rewrite repeat_length; auto). f_equal. apply nth_repeat.
  - rewrite nth_error_app2 by (rewrite repeat_length; auto). rewrite repeat_length. replace (n - S m) with 0 by lia. reflexivity.
Qed.
Lemma counting_length m : List.length (counting m) = S (S m).
Proof. unfold counting. rewrite app_length, repeat_length. cbn. lia. Qed.

Lemma every_S t d n : every t d (S n) = Fin t :: every (t + d) d n.
Proof.
  unfold every. cbn [seq map]. f_equal; [f_equal; lia|]. rewrite <- seq_shift, map_map. apply map_ext. intros k. f_equal. lia.
Qed.

Lemma counting_times (d : Z) a : (0 < d)%Z -> forall j t rest pend,
  timetable (Fin d) a (Fin t) rest pend ->
  known (map snd (acts_of a rest)) (repeat (Ret None) j ++ [Ret (Some PInf)]) ->
  exists n, n <= S j /\ List.length (acts_of a rest) = n /\ map fst (acts_of a rest) = every t d n /\
    (n < S j -> pend = Some (Fin (t + Z.of_nat n * d))).
Proof.
  intros D. induction j as [|j IH]; intros t rest pend TT K; inversion TT as [? E1|? o ND|? o due' tr ? ND TT']; subst.
  - exists 0. repeat split; auto. intros _. f_equal. f_equal. lia.
  - cbn in K |- *. rewrite Nat.eqb_refl in *. cbn in *. exists 1. repeat split; auto.
    + rewrite every_S. reflexivity. + lia.
  - exfalso. cbn in K. rewrite Nat.eqb_refl in K. cbn in K. unfold known in K. cbn in K. rewrite firstn_nil in K. injection K as ->.
    cbn in ND. discriminate.
  - exists 0. repeat split; auto. lia. intros _. f_equal. f_equal. lia.
  - exfalso. cbn in K. rewrite Nat.eqb_refl in K. cbn in K. unfold known in K. cbn in K. injection K as K _. subst o.
    cbn in ND. discriminate.
  - cbn in K |- *. rewrite Nat.eqb_refl in *. unfold known in K. cbn in K |- *. injection K as K1 K2. subst o.
    cbn in ND. injection ND as <-. 
    destruct (IH _ _ _ TT' K2) as (n & L & Ln & Ti & Pe).
    exists (S n). split; [lia|]. split; [auto|]. split; [rewrite every_S; f_equal; exact Ti|].
    intros H. rewrite Pe by lia. f_equal. f_equal. lia.
Qed.

Lemma example_life m d kinds s w tr a : lesson_run m d kinds s w tr -> adds_of a tr = 1 -> kinds a = LExample ->
  exists t0 n, In (EvAdd (Fin t0) a) tr /\ n <= m + 2 /\ instants a tr = every t0 d n /\
    is_infected w a = Nat.ltb m n /\ alive w a = Nat.ltb n (m + 2) /\
    (n < m + 2 -> n_leb (s_time s) (Fin (t0 + Z.of_nat n * d)) = true).
Proof.
  intros R A K. pose proof (lr_interval _ _ _ _ _ _ R) as D.
  set (J := fun (l : list (num * outcome)) (x : fworld tfun trest * cors (frame tfun)) =>
    known (map snd l) (counting m) /\
    (List.length l <= S (S m) -> t_steps (fw_rest (fst x)) a = Nat.min (List.length l) (S m) /\
       t_flag (fw_rest (fst x)) a = Nat.ltb m (List.length l) /\ fa_alive (fw_agents (fst x) a) = Nat.ltb (List.length l) (S (S m)))).
  destruct (lesson_track m d kinds s w tr a J R A) as (t0 & rest & pend & c & IA & TT & PE & AC & Kn & St).
  - split; [apply known_nil|]. intros _. cbn. rewrite K. repeat split.
  - intros l s0 b [w0 c0] [w1 c1] ops o Ok E _ _ [Kn St] ->. specialize (Ok a). rewrite K in Ok.
    destruct (example_act _ _ _ _ _ _ _ _ _ _ Ok E) as (_ & _ & _ & X). cbn [fst] in *.
    split; rewrite ?map_app, ?app_length; cbn [map snd List.length].
    + apply known_snoc; auto. rewrite map_length, counting_length. intros L. rewrite counting_nth by lia.
      destruct St as (S1 & S2 & S3); [lia|]. rewrite S2 in X.
      destruct (Nat.ltb_spec m (List.length l)); destruct X as [-> _]; destruct (Nat.ltb_spec (List.length l) (S m)); auto; lia.
    + intros L. destruct St as (S1 & S2 & S3); [lia|]. rewrite S1, S2, S3 in X. cbn [fst].
      destruct (Nat.ltb_spec m (List.length l)) as [L1|L1]; destruct X as (_ & X1 & X2 & X3); rewrite X1, X2, X3.
      * replace (List.length l) with (S m) in * by lia. repeat split.
        -- lia. -- symmetry. apply Nat.ltb_lt. lia. -- symmetry. apply Nat.ltb_ge. lia.
      * repeat split.
        -- lia. -- rewrite Nat.min_l by lia. f_equal. lia.
        -- apply eq_trans with true; [apply Nat.ltb_lt; lia|symmetry; apply Nat.ltb_lt; lia].
  - intros l x x' (U1 & U2 & U3 & _) [Kn St]. split; auto. now rewrite U1, U2, U3.
  - unfold counting in Kn. destruct (counting_times d a D (S m) t0 rest pend TT Kn) as (n & L & Ln & Ti & Pe).
    exists t0, n. split; auto. split; [lia|]. rewrite instants_acts, AC, Ti. split; auto.
    rewrite Ln in St. destruct (St L) as (S1 & S2 & S3). cbn [fst] in *. unfold is_infected, alive.
    replace (m + 2) with (S (S m)) by lia. split; auto. split; auto.
    intros L1. rewrite (Pe L1) in PE. exact PE.
Qed.

Lemma fsm_life m d kinds s w tr a : lesson_run m d kinds s w tr -> adds_of a tr = 1 -> kinds a = LFsm ->
  exists t0 n, In (EvAdd (Fin t0) a) tr /\ n <= m + 2 /\ instants a tr = every t0 d n /\
    state_id w a = Some (if Nat.leb n m then "neutral" else if Nat.leb n (m + 1) then "infected" else "dead") /\
    alive w a = Nat.ltb n (m + 2) /\
    (n < m + 2 -> n_leb (s_time s) (Fin (t0 + Z.of_nat n * d)) = true).
Proof.
  intros R A K. pose proof (lr_interval _ _ _ _ _ _ R) as D.
  set (J := fun (l : list (num * outcome)) (x : fworld tfun trest * cors (frame tfun)) =>
    known (map snd l) (counting m) /\
    (List.length l <= S (S m) -> (List.length l <= m -> t_steps (fw_rest (fst x)) a = List.length l) /\
       get_co (snd x) a = None /\
       fa_cur (fw_agents (fst x) a) = Some (if Nat.leb (List.length l) m then t_neutral
         else if Nat.leb (List.length l) (S m) then t_infected else pdead) /\
       fa_alive (fw_agents (fst x) a) = Nat.ltb (List.length l) (S (S m)))).
  destruct (lesson_track m d kinds s w tr a J R A) as (t0 & rest & pend & c & IA & TT & PE & AC & Kn & St).
  - split; [apply known_nil|]. intros _. cbn. rewrite K. repeat split.
  - intros l s0 b [w0 c0] [w1 c1] ops o Ok E _ FT [Kn St] ->. specialize (Ok a). rewrite K in Ok.
    destruct (machine_act LFsm _ _ _ _ _ _ _ _ _ _ ltac:(discriminate) Ok E) as (_ & _ & _ & _ & X). cbn [fst snd] in *.
    split; rewrite ?map_app, ?app_length; cbn [map snd List.length].
    + apply known_snoc; auto. rewrite map_length, counting_length. intros L. rewrite counting_nth by lia.
      destruct St as (S1 & S2 & S3 & S4); [lia|]. rewrite S3, S4 in X.
      assert (LL : Nat.ltb (List.length l) (S (S m)) = true) by (apply Nat.ltb_lt; lia). rewrite LL in X.
      destruct (X S2 eq_refl) as [_ Y].
      destruct (Nat.leb_spec (List.length l) m).
      * cbn in Y. destruct Y as [-> _]. destruct (Nat.ltb_spec (List.length l) (S m)); auto; lia.
      * destruct (Nat.leb_spec (List.length l) (S m)); [|lia]. cbn in Y. destruct Y as [Y _]. rewrite (Y FT).
        destruct (Nat.ltb_spec (List.length l) (S m)); auto; lia.
    + intros L. destruct St as (S1 & S2 & S3 & S4); [lia|]. rewrite S3, S4 in X.
      assert (LL : Nat.ltb (List.length l) (S (S m)) = true) by (apply Nat.ltb_lt; lia). rewrite LL in X.
      destruct (X S2 eq_refl) as [Co Y]. cbn [fst snd].
      destruct (Nat.leb_spec (List.length l) m) as [L1|L1].
      * cbn in Y. destruct Y as (_ & Y1 & Y2 & Y3). rewrite Y1, Y2, Y3, S1 by auto. repeat split; auto.
        -- intros _. lia.
        -- f_equal. destruct (Nat.leb_spec m (List.length l)); destruct (Nat.leb_spec (List.length l + 1) m); try lia; auto.
           destruct (Nat.leb_spec (List.length l + 1) (S m)); auto. lia.
        -- symmetry. apply Nat.ltb_lt. lia.
      * destruct (Nat.leb_spec (List.length l) (S m)) as [L2|L2]; [|lia]. cbn in Y. destruct Y as (_ & Y1 & Y2). rewrite Y1, Y2.
        repeat split; auto.
        -- intros H. lia.
        -- f_equal. destruct (Nat.leb_spec (List.length l + 1) m); [lia|]. destruct (Nat.leb_spec (List.length l + 1) (S m)); auto. lia.
        -- symmetry. apply Nat.ltb_ge. lia.
  - intros l x x' (U1 & U2 & U3 & U4) [Kn St]. split; auto. now rewrite U1, U2, U4.
  - unfold counting in Kn. destruct (counting_times d a D (S m) t0 rest pend TT Kn) as (n & L & Ln & Ti & Pe).
    exists t0, n. split; auto. split; [lia|]. rewrite instants_acts, AC, Ti. split; auto.
    rewrite Ln in St. destruct (St L) as (S1 & S2 & S3 & S4). cbn [fst] in *. unfold state_id, alive. rewrite S3, S4.
    replace (m + 2) with (S (S m)) by lia. replace (m + 1) with (S m) by lia. split; [|split; auto].
    + cbn. f_equal. destruct (Nat.leb n m); auto. destruct (Nat.leb n (S m)); auto.
    + intros L1. rewrite (Pe L1) in PE. exact PE.
Qed.

(** * The agents that wait *)
Lemma delayed_life m d kinds s w tr a : lesson_run m d kinds s w tr -> adds_of a tr = 1 -> kinds a = LDelayed ->
  let wait := if Nat.eqb m 0 then d else Z.of_nat m in
  exists t0 n, In (EvAdd (Fin t0) a) tr /\ n <= 2 /\ instants a tr = every t0 wait n /\
    state_id w a = Some (if Nat.eqb n 0 then "neutral" else if Nat.eqb n 1 then "infected" else "dead") /\
    alive w a = Nat.ltb n 2 /\
    (n < 2 -> n_leb (s_time s) (Fin (t0 + Z.of_nat n * wait)) = true).
Proof.
  intros R A K wait. pose proof (lr_interval _ _ _ _ _ _ R) as D.
  set (full := [Ret (Some (Fin (Z.of_nat m))); Ret (Some PInf)]).
  set (J := fun (l : list (num * outcome)) (x : fworld tfun trest * cors (frame tfun)) =>
    known (map snd l) full /\
    (List.length l <= 2 ->
       get_co (snd x) a = None /\
       fa_cur (fw_agents (fst x) a) = Some (match List.length l with 0 => t_neutral_delayed | 1 => t_infected | _ => pdead end) /\
       fa_alive (fw_agents (fst x) a) = Nat.ltb (List.length l) 2)).
  destruct (lesson_track m d kinds s w tr a J R A) as (t0 & rest & pend & c & IA & TT & PE & AC & Kn & St).
  - split; [apply known_nil|]. intros _. cbn. rewrite K. repeat split.
  - intros l s0 b [w0 c0] [w1 c1] ops o Ok E _ FT [Kn St] ->. specialize (Ok a). rewrite K in Ok.
    destruct (machine_act LDelayed _ _ _ _ _ _ _ _ _ _ ltac:(discriminate) Ok E) as (_ & _ & _ & _ & X). cbn [fst snd] in *.
    split; rewrite ?map_app, ?app_length; cbn [map snd List.length].
    + apply known_snoc; auto. rewrite map_length. intros L. cbn in L.
      destruct St as (S2 & S3 & S4); [lia|]. rewrite S3, S4 in X.
      assert (LL : Nat.ltb (List.length l) 2 = true) by (apply Nat.ltb_lt; lia). rewrite LL in X.
      destruct (X S2 eq_refl) as [_ Y]. destruct (List.length l) as [|[|n]]; cbn in Y; [| |lia].
      * destruct Y as [-> _]. reflexivity.
      * destruct Y as [Y _]. rewrite (Y FT). reflexivity.
    + intros L. destruct St as (S2 & S3 & S4); [lia|]. rewrite S3, S4 in X.
      assert (LL : Nat.ltb (List.length l) 2 = true) by (apply Nat.ltb_lt; lia). rewrite LL in X.
      destruct (X S2 eq_refl) as [Co Y]. destruct (List.length l) as [|[|n]]; cbn in Y |- *; [| |lia].
      * destruct Y as (_ & Y1 & Y2). now rewrite Y1, Y2.
      * destruct Y as (_ & Y1 & Y2). now rewrite Y1, Y2.
  - intros l x x' (U1 & U2 & U3 & U4) [Kn St]. split; auto. now rewrite U1, U4.
  - assert (W1 : next_due (Fin d) (Fin t0) (Ret (Some (Fin (Z.of_nat m)))) = Some (Fin (t0 + wait))).
    { cbn. unfold wait. destruct m; cbn; [reflexivity|]. rewrite (proj2 (Z.eqb_neq _ _)) by lia. reflexivity. }
    rewrite instants_acts, AC.
    assert (R2 : exists n, n <= 2 /\ List.length (acts_of a rest) = n /\ map fst (acts_of a rest) = every t0 wait n /\
       (n < 2 -> pend = Some (Fin (t0 + Z.of_nat n * wait)))).
    { unfold known in Kn. inversion TT as [? E1|? o ND|? o due' tr1 ? ND TT']; subst; cbn in Kn |- *; rewrite ?Nat.eqb_refl in *; cbn in Kn |- *.
      - exists 0. repeat split; auto. intros _. f_equal. f_equal. lia.
      - injection Kn as ->. congruence.
      - injection Kn as -> Kn. rewrite W1 in ND. injection ND as <-.
        inversion TT' as [? E1|? o ND|? o due' tr2 ? ND TT'']; subst; cbn in Kn |- *; rewrite ?Nat.eqb_refl in *; cbn in Kn |- *.
        + exists 1. repeat split; auto.
          * rewrite every_S. reflexivity. * intros _. f_equal. f_equal. lia.
        + exists 2. repeat split; auto. * rewrite !every_S. reflexivity. * lia.
        + injection Kn as -> _. cbn in ND. discriminate. }
    destruct R2 as (n & L & Ln & Ti & Pe). exists t0, n. rewrite Ln in St. destruct (St L) as (S2 & S3 & S4). cbn [fst] in *.
    split; auto. split; auto. split; auto. unfold state_id, alive. rewrite S3, S4. split; [|split; auto].
    + destruct n as [|[|n]]; reflexivity.
    + intros L1. rewrite (Pe L1) in PE. exact PE.
Qed.
