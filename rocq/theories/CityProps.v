(** The city of the Markov chains example: C178 to C185. *)
From Coq Require Import ZArith QArith_base List Bool Arith String Lia Permutation.
From Verif Require Import Num PyDict TimedModel TimedSpec AgentModel FsmModel LockstepModel DelaySpec WealthModel CityModel CitySpec CityProofs.
Import ListNotations.
Local Open Scope nat_scope.

(** A city of three places, with two streets from the first to the second. *)
Definition town : city := City [0; 1; 2] [Street 0 1 0 (Fin 3); Street 0 1 1 (Fin 2); Street 1 2 0 (Fin 1); Street 2 0 0 (Fin 5)].
Definition unshuffled : list aid -> crest -> crest * list aid := fun l r => (r, l).
Lemma unshuffled_fair : fair unshuffled.
Proof. intros l r. split; [apply Permutation_refl|]. exists (cr_draws r). now destruct r. Qed.
Lemma town_drawn : drawn town.
Proof.
  split; [repeat constructor; cbn; intuition lia|]. intros s H. cbn in H. repeat destruct H as [<-|H]; cbn; auto.
Qed.
Lemma town_drivable : drivable town.
Proof.
  assert (L : forall s, In s (c_streets town) -> leads town (st_from s) (st_to s)) by (intros s H; exists s; auto).
  split; [|split].
  - intros u H. cbn in H. destruct H as [<-|[<-|[<-|[]]]].
    + exists 1. apply (L (Street 0 1 0 (Fin 3))). cbn. auto.
    + exists 2. apply (L (Street 1 2 0 (Fin 1))). cbn. auto.
    + exists 0. apply (L (Street 2 0 0 (Fin 5))). cbn. auto.
  - intros s H. cbn in H. repeat destruct H as [<-|H]; try (split; reflexivity). destruct H.
  - intros u v (s & H & <- & <-). cbn in H. repeat destruct H as [<-|H]; [| | | |destruct H]; cbn [st_from st_to].
    + exists (Street 0 1 0 (Fin 3)). cbn. auto.
    + exists (Street 0 1 0 (Fin 3)). cbn. auto.
    + exists (Street 1 2 0 (Fin 1)). cbn. auto 6.
    + exists (Street 2 0 0 (Fin 5)). cbn. auto 8.
Qed.
(** A roamer at 0 and a lazy roamer at 2. *)
Definition corners (a : aid) : node := if a =? 0 then 0 else 2.
Lemma corners_ok a : a < 1 + 1 -> In (corners a) (c_nodes town).
Proof. intros _. unfold corners. destruct (a =? 0); cbn; auto. Qed.
Definition town_run (gradual : bool) (steps : nat) := @city_run exact town gradual unshuffled true (Fin 1) 1 1 corners (fun k => k) steps.
Lemma town_reached gradual steps : reached town gradual 1 1 corners (snd (fst (town_run gradual steps))) (snd (town_run gradual steps)).
Proof.
  exists exact, (Fin 1), unshuffled, true, (fun k => k), steps. split; [apply unshuffled_fair|]. left.
  exists (fst (fst (town_run gradual steps))). unfold town_run. now destruct (city_run _ _ _ _ _ _ _ _ _ _) as [[? ?] ?].
Qed.

(** C178: at all times each agent is at one node of the city, and in the list of that node and of no other, once; and the
    numbers of the report add up to the number of agents. *)
Theorem C178_each_at_one_place : forall c gradual n_other n_lazy places x tr, drawn c ->
  (forall a, a < n_other + n_lazy -> In (places a) (c_nodes c)) -> reached c gradual n_other n_lazy places x tr ->
  let r := fw_rest (fst x) in
  (forall a, a < n_other + n_lazy -> exists u, In u (c_nodes c) /\ cr_pos r a = Some u /\ forall v, In a (cr_at r v) <-> v = u) /\
  (forall v, NoDup (cr_at r v) /\ forall a, In a (cr_at r v) -> a < n_other + n_lazy) /\
  sum (map Z.of_nat (dvalues (node_occupation c r))) = Z.of_nat (n_other + n_lazy).
Proof.
  intros c gradual n1 n2 places x tr DR P (AR & di & R) r. destruct (runs_hinv _ _ _ _ _ _ _ _ DR P R) as [(G & _) _].
  split; [|split].
  - intros a L. destruct (g_pos _ _ _ _ _ G a L) as (u & PU & U). exists u. split; auto. split; auto.
    intros v. unfold r. rewrite (g_at _ _ _ _ _ G). rewrite PU. split; [intros [_ [= ->]]; auto|intros ->; auto].
  - intros v. split; [apply (g_nd _ _ _ _ _ G)|]. intros a I. now apply (g_at _ _ _ _ _ G) in I.
  - eapply good_total; eauto.
Qed.
Print Assumptions C178_each_at_one_place.
Example C178_not_vacuous : node_occupation town (fw_rest (fst (snd (fst (town_run true 2))))) = [(0, 0); (1, 1); (2, 1)] /\
  reached town true 1 1 corners (snd (fst (town_run true 2))) (snd (town_run true 2)).
Proof. split; [vm_compute; reflexivity|apply town_reached]. Qed.
(** In lockstep: four steps of length 1. *)
Example C178_lockstep_not_vacuous :
  match @city_lockstep exact town true unshuffled true (Fin 1) (Fin 1) 1 1 corners (fun k => k) 5 4 with
  | Some (l, x, tr) => l_time l = Fin 4 /\ reached town true 1 1 corners x tr /\ node_occupation town (fw_rest (fst x)) = [(0, 0); (1, 1); (2, 1)]
  | None => False
  end.
Proof.
  destruct (@city_lockstep exact town true unshuffled true (Fin 1) (Fin 1) 1 1 corners (fun k => k) 5 4) as [[[l x] tr]|] eqn:E; [|vm_compute in E; discriminate].
  pose proof E as E'. vm_compute in E'. injection E' as El Ex _. split; [now rewrite <- El|]. split; [|rewrite <- Ex; reflexivity].
  exists exact, (Fin 1), unshuffled, true, (fun k => k), 4. split; [apply unshuffled_fair|]. right. eauto.
Qed.

(** C179: the occupation of the way between two places is the number of agents that travel there. *)
Theorem C179_occupation_counts_travellers : forall c gradual n_other n_lazy places x tr, drawn c ->
  (forall a, a < n_other + n_lazy -> In (places a) (c_nodes c)) -> reached c gradual n_other n_lazy places x tr ->
  forall u v, u <> v -> exists n, amount (travels x u v) n /\ cr_occupation (fw_rest (fst x)) u v = Z.of_nat n.
Proof.
  intros c gradual n1 n2 places x tr DR P (AR & di & R) u v NE. destruct (runs_hinv _ _ _ _ _ _ _ _ DR P R) as [SI _].
  eapply good_amount; eauto.
Qed.
(** Hence the report of [edge_occupation], if the last of the streets between two places has the key 0 (so, if there is one
    street only, whose key is 0). *)
Theorem C179_report_without_parallels_partial : forall c gradual n_other n_lazy places x tr, drawn c ->
  (forall a, a < n_other + n_lazy -> In (places a) (c_nodes c)) -> reached c gradual n_other n_lazy places x tr ->
  forall u v, u <> v -> leads c u v -> (forall s, In s (c_streets c) -> st_from s = u -> st_to s = v -> st_key s = 0) ->
  exists n, amount (travels x u v) n /\ dget (u, v) (edge_occupation c (fw_rest (fst x))) = Some (Z.of_nat n).
Proof.
  intros c gradual n1 n2 places x tr DR P (AR & di & R) u v NE L K. destruct (runs_hinv _ _ _ _ _ _ _ _ DR P R) as [SI _].
  destruct (good_amount _ _ _ _ u v SI NE) as (n & A & O). exists n. split; auto.
  destruct (last_street c u v L) as (l1 & s & l2 & E & S1 & S2 & S3).
  rewrite (report_last c _ u v l1 s l2 E S1 S2 S3), (K s), O; auto. rewrite E. apply in_elt.
Qed.
(** Among parallel streets the report shows the last one, and only that of key 0 is ever occupied: it is 0, however many
    agents are on the way. *)
Theorem C179_report_refuted : forall c (r : crest) u v before s after, c_streets c = (before ++ s :: after)%list ->
  st_from s = u -> st_to s = v -> st_key s <> 0 -> (forall s', In s' after -> ~ (st_from s' = u /\ st_to s' = v)) ->
  dget (u, v) (edge_occupation c r) = Some 0%Z.
Proof.
  intros c r u v l1 s l2 E S1 S2 K H. rewrite (report_last c r u v l1 s l2 E S1 S2 H). apply Nat.eqb_neq in K. now rewrite K.
Qed.
Print Assumptions C179_occupation_counts_travellers.
Print Assumptions C179_report_without_parallels_partial.
Print Assumptions C179_report_refuted.
Example C179_not_vacuous : let x := snd (fst (town_run true 1)) in
  reached town true 1 1 corners x (snd (town_run true 1)) /\
  travels x 0 1 0 /\ cr_occupation (fw_rest (fst x)) 0 1 = 1%Z /\ dget (0, 1) (edge_occupation town (fw_rest (fst x))) = Some 0%Z /\
  travels x 2 0 1 /\ dget (2, 0) (edge_occupation town (fw_rest (fst x))) = Some 1%Z /\
  forall s, In s (c_streets town) -> st_from s = 2 -> st_to s = 0 -> st_key s = 0.
Proof.
  split; [apply town_reached|]. split; [vm_compute; auto|]. split; [vm_compute; auto|]. split; [vm_compute; auto|]. split; [vm_compute; auto|].
  split; [vm_compute; auto|]. intros s H. cbn in H. repeat destruct H as [<-|H]; cbn; try congruence. destruct H.
Qed.

(** C180: in a city where one can drive, what is observed of an agent is an itinerary from its first place to its position:
    every trip is to a neighbour and takes the least time of the streets between them.  [waiting] tells whether it is on
    the way. *)
Theorem C180_trips_take_their_time : forall (AR : Arith) c di n_other n_lazy places x tr a, drawn c -> drivable c -> nonneg di = true ->
  (forall a, a < n_other + n_lazy -> In (places a) (c_nodes c)) -> runs c true di n_other n_lazy places x tr -> a < n_other + n_lazy ->
  exists evs w, filter (about a) tr = EvAdd (Fin 0) a :: evs /\ cr_pos (fw_rest (fst x)) a = Some w /\
    itinerary c di a (Fin 0) (places a) evs w (cr_waiting (fw_rest (fst x)) a).
Proof.
  intros AR c di n1 n2 places x tr a DR DV D P R L.
  destruct (agent_history c true di n1 n2 places x tr a DR DV P D R L) as (rest & pend & u & F & TT & PU & WK & WT).
  exists rest, u. split; auto. split; auto. pose proof (walk_itinerary c di a _ _ _ _ DV WK _ _ _ TT eq_refl) as X.
  destruct (tgof (snd x) a) as [v|].
  - destruct (cr_waiting (fw_rest (fst x)) a); auto. destruct WT as [_ WT]. now discriminate WT.
  - destruct (cr_waiting (fw_rest (fst x)) a); auto. destruct WT as [WT _]. now destruct WT.
Qed.
(** Without [gradual_move], each activation is a jump to a neighbour. *)
Theorem C180_jumps_take_no_time : forall (AR : Arith) c di n_other n_lazy places x tr a, drawn c -> drivable c -> nonneg di = true ->
  (forall a, a < n_other + n_lazy -> In (places a) (c_nodes c)) -> runs c false di n_other n_lazy places x tr -> a < n_other + n_lazy ->
  exists evs w, filter (about a) tr = EvAdd (Fin 0) a :: evs /\ cr_pos (fw_rest (fst x)) a = Some w /\
    jumps c di a (Fin 0) (places a) evs w.
Proof.
  intros AR c di n1 n2 places x tr a DR DV D P R L.
  destruct (agent_history c false di n1 n2 places x tr a DR DV P D R L) as (rest & pend & u & F & TT & PU & WK & _).
  exists rest, u. split; auto. split; auto. eapply walk_jumps; eauto.
Qed.
Print Assumptions C180_trips_take_their_time.
Print Assumptions C180_jumps_take_no_time.
Example C180_not_vacuous : drawn town /\ drivable town /\ (forall a, a < 1 + 1 -> In (corners a) (c_nodes town)) /\
  filter (about 0) (snd (town_run true 5)) =
    [EvAdd (Fin 0) 0; EvAct (Fin 0) 0 (Ret (Some (Fin 2))); EvAct (Fin 2) 0 (Ret (Some (Fin 0))); EvAct (Fin 3) 0 (Ret (Some (Fin 1)));
     EvAct (Fin 4) 0 (Ret (Some (Fin 0))); EvAct (Fin 5) 0 (Ret (Some (Fin 5)))] /\
  filter (about 1) (snd (town_run false 2)) =
    [EvAdd (Fin 0) 1; EvAct (Fin 0) 1 (Ret (Some (Fin 0))); EvAct (Fin 1) 1 (Ret (Some (Fin 0)))].
Proof.
  split; [apply town_drawn|]. split; [apply town_drivable|]. split; [apply corners_ok|]. split; vm_compute; reflexivity.
Qed.

(** C181, refuted: an agent that arrives does not set out again at once, although its step ends with [self.delay(0)]: whoever
    is activated and asks for no delay is activated again a default interval later. *)
Theorem C181_sets_out_at_once_refuted : forall (AR : Arith) c gradual di n_other n_lazy places x tr a, drawn c -> drivable c -> nonneg di = true ->
  (forall a, a < n_other + n_lazy -> In (places a) (c_nodes c)) -> runs c gradual di n_other n_lazy places x tr -> a < n_other + n_lazy ->
  forall before t t' o after,
  filter (about a) tr = (before ++ EvAct t a (Ret (Some (Fin 0))) :: EvAct t' a o :: after)%list -> t' = n_add t di.
Proof.
  intros AR c gradual di n1 n2 places x tr a DR DV D P R L before t t' o after E.
  destruct (agent_history c gradual di n1 n2 places x tr a DR DV P D R L) as (rest & pend & u & F & TT & _).
  rewrite F in E. destruct before as [|e before]; [discriminate|]. injection E as _ E. clear F.
  assert (X : forall due rest pend, timetable di a due rest pend -> forall before,
    rest = (before ++ EvAct t a (Ret (Some (Fin 0))) :: EvAct t' a o :: after)%list -> t' = n_add t di); [|eauto].
  clear. intros due rest pend TT. induction TT as [due|due o0 ND|due o0 due' tr0 pend ND TT IH]; intros before E.
  - now destruct before.
  - destruct before as [|? [|? ?]]; discriminate.
  - destruct before as [|e0 before]; [|injection E as _ E; eauto]. injection E as <- -> E. apply next_zero in ND. subst due'.
    rewrite E in TT. inversion TT; subst; auto.
Qed.
Print Assumptions C181_sets_out_at_once_refuted.
Example C181_not_vacuous : exists before o after,
  filter (about 0) (snd (town_run true 5)) = (before ++ EvAct (Fin 2) 0 (Ret (Some (Fin 0))) :: EvAct (Fin 3) 0 o :: after)%list.
Proof. eexists [_; _], _, _. vm_compute. reflexivity. Qed.

(** C182: in a city where one can drive no step raises an exception. *)
Theorem C182_nobody_fails : forall c gradual n_other n_lazy places x tr, drawn c -> drivable c ->
  (forall a, a < n_other + n_lazy -> In (places a) (c_nodes c)) -> reached c gradual n_other n_lazy places x tr -> no_exc tr.
Proof.
  intros c gradual n1 n2 places x tr DR DV P (AR & di & R). destruct (runs_hinv _ _ _ _ _ _ _ _ DR P R) as [_ W]. apply (W DV).
Qed.
(** In any city: an agent that is activated where no street leaves raises an exception, and stays. *)
Theorem C182_dead_ends_fail : forall c gradual s a w co f u, (forall v, ~ leads c u v) -> get_co co a = None ->
  fa_kind (fw_agents w a) = KPlain f -> cr_pos (fw_rest w) a = Some u ->
  exists x', agent_step (city_code c gradual) (fun _ => None) s a (w, co) = (x', [], Exc) /\ cr_pos (fw_rest (fst x')) = cr_pos (fw_rest w).
Proof.
  intros c gradual s a w co f u H G K P.
  assert (N : neighbors c u = []).
  { destruct (neighbors c u) as [|v l] eqn:E; auto. destruct (H v). apply neighbors_leads. rewrite E. now left. }
  unfold agent_step, decorated. cbn [fst snd]. rewrite G. cbn [send step_gen]. rewrite K. unfold inside. cbn [c_resume c_start city_code]. rewrite P.
  assert (C : choose_next c f u (set_waiting (fw_rest w) a true) = (None, set_waiting (fw_rest w) a true)).
  { unfold choose_next. rewrite N. now destruct f. }
  unfold move_to. rewrite C. cbn [raises run_fops]. eexists. split; [reflexivity|]. reflexivity.
Qed.
(** So does a LazyRoamer next to a street that takes no time, and, with [gradual_move], any agent where no street has the
    key 0. *)
Theorem C182_free_streets_fail : forall c gradual s a w co u v, (forall st, In st (c_streets c) -> nonneg (st_time st) = true) ->
  least_time c u v (Fin 0) -> get_co co a = None -> fa_kind (fw_agents w a) = KPlain FLazy -> cr_pos (fw_rest w) a = Some u ->
  exists x', agent_step (city_code c gradual) (fun _ => None) s a (w, co) = (x', [], Exc) /\ cr_pos (fw_rest (fst x')) = cr_pos (fw_rest w).
Proof.
  intros c gradual s a w co u v NN LT G K P.
  unfold agent_step, decorated. cbn [fst snd]. rewrite G. cbn [send step_gen]. rewrite K. unfold inside. cbn [c_resume c_start city_code]. rewrite P.
  assert (C : choose_next c FLazy u (set_waiting (fw_rest w) a true) = (None, set_waiting (fw_rest w) a true)).
  { unfold choose_next. destruct (travel_times_spec c u (neighbors c u)) as (ts & A & B & T).
    { intros v' H. now apply neighbors_leads. }
    rewrite A. destruct ts as [|t ts]; auto.
    assert (Z : existsb (fun t => n_eqb t (Fin 0)) (t :: ts) = true).
    { apply existsb_exists. pose proof (proj2 (neighbors_leads c u v) (least_leads _ _ _ _ LT)) as I.
      apply (@In_nth node _ _ 0) in I as (i & L & I). specialize (T i L). rewrite I in T. exists (nth i (t :: ts) (Fin 0)). split.
      - apply nth_In. now rewrite B.
      - set (d := nth i (t :: ts) (Fin 0)) in *. apply travel_least in T as [(s1 & S1 & S2 & S3 & S4) T2].
        destruct LT as [(s2 & Z1 & Z2 & Z3 & Z4) _]. specialize (T2 s2 Z1 Z2 Z3). rewrite Z4 in T2. specialize (NN s1 S1). rewrite S4 in NN.
        unfold nonneg, n_leb in NN. rewrite T2 in NN. cbn [orb] in NN. apply n_eqb_eq in NN. rewrite <- NN. reflexivity. }
    rewrite Z. reflexivity. }
  unfold move_to. rewrite C. cbn [raises run_fops]. eexists. split; [reflexivity|]. reflexivity.
Qed.
Theorem C182_other_keys_fail : forall c s a w co f u,
  (forall v, leads c u v -> v <> u) -> (forall st, In st (c_streets c) -> st_from st = u -> st_key st <> 0) ->
  get_co co a = None -> fa_kind (fw_agents w a) = KPlain f -> cr_pos (fw_rest w) a = Some u ->
  exists x', agent_step (city_code c true) (fun _ => None) s a (w, co) = (x', [], Exc) /\ cr_pos (fw_rest (fst x')) = cr_pos (fw_rest w).
Proof.
  intros c s a w co f u NS NK G K P.
  unfold agent_step, decorated. cbn [fst snd]. rewrite G. cbn [send step_gen]. rewrite K. unfold inside. cbn [c_resume c_start city_code]. rewrite P.
  unfold move_to. destruct (choose_next c f u (set_waiting (fw_rest w) a true)) as [y r1] eqn:CH.
  destruct (choose_spec _ _ _ _ _ _ CH) as [[dr ->] LT]. destruct y as [[v d]|].
  - pose proof (NS v (least_leads _ _ _ _ LT)) as NE. apply Nat.eqb_neq in NE. rewrite NE.
    assert (H : has_street c u v = false).
    { apply not_true_iff_false. intros H. apply existsb_exists in H as (st & I & H). apply andb_true_iff in H as [H1 H2].
      apply between_iff in H1 as [H1 _]. apply Nat.eqb_eq in H2. now apply (NK st I H1). }
    rewrite H. cbn [negb andb raises run_fops]. eexists. split; [reflexivity|]. reflexivity.
  - cbn [raises run_fops]. eexists. split; [reflexivity|]. reflexivity.
Qed.
Print Assumptions C182_nobody_fails.
Print Assumptions C182_free_streets_fail.
Print Assumptions C182_other_keys_fail.
Print Assumptions C182_dead_ends_fail.
Example C182_not_vacuous : drivable town /\ List.length (snd (town_run true 5)) = 9 /\ (forall v, ~ leads (City [0; 1] [Street 0 1 0 (Fin 1)]) 1 v) /\
  existsb is_exc (snd (@city_run exact (City [0; 1] [Street 0 1 0 (Fin 1)]) true unshuffled true (Fin 1) 1 0 (fun _ => 0) (fun _ => 0) 3)) = true.
Proof.
  split; [apply town_drivable|]. split; [vm_compute; reflexivity|]. split; [|vm_compute; reflexivity].
  intros v (s & [<-|[]] & H & _). discriminate.
Qed.
Example C182_failures_not_vacuous :
  existsb is_exc (snd (@city_run exact (City [0; 1] [Street 0 1 0 (Fin 0); Street 1 0 0 (Fin 1)]) true unshuffled true (Fin 1) 0 1 (fun _ => 0) (fun _ => 0) 1)) = true /\
  existsb is_exc (snd (@city_run exact (City [0; 1] [Street 0 1 0 (Fin 0); Street 1 0 0 (Fin 1)]) true unshuffled true (Fin 1) 1 0 (fun _ => 0) (fun _ => 0) 9)) = false /\
  existsb is_exc (snd (@city_run exact (City [0; 1] [Street 0 1 5 (Fin 1); Street 1 0 5 (Fin 1)]) true unshuffled true (Fin 1) 0 1 (fun _ => 0) (fun _ => 0) 1)) = true /\
  existsb is_exc (snd (@city_run exact (City [0; 1] [Street 0 1 5 (Fin 1); Street 1 0 5 (Fin 1)]) false unshuffled true (Fin 1) 0 1 (fun _ => 0) (fun _ => 0) 9)) = false.
Proof. repeat split; vm_compute; reflexivity. Qed.

(** C183, refuted: with [gradual_move], [move_to] with a target does not get there, but raises, and the street to the target
    is occupied by one more for ever. *)
Theorem C183_move_to_a_target_refuted : forall c f (a : aid) u v r, has_street c u v = true -> v <> u ->
  exists r', move_to c true f (Some v) a u r = (r', [], GRaise false) /\ cr_pos r' = cr_pos r /\
    cr_occupation r' u v = (cr_occupation r u v + 1)%Z.
Proof.
  intros c f a u v r H NE. unfold move_to. rewrite H, andb_false_r. apply Nat.eqb_neq in NE. rewrite NE. cbn [negb raises].
  eexists. split; [reflexivity|]. split; auto. cbn. now rewrite !put_same.
Qed.
(** Without it the agent is moved to the target. *)
Theorem C183_move_to_a_target_partial : forall c f (a : aid) u v r, cr_pos r a = Some u -> In a (cr_at r u) ->
  exists r', move_to c false f (Some v) a u r = (r', [], GReturn (PNum (Fin 0))) /\ cr_pos r' a = Some v /\ In a (cr_at r' v) /\
    cr_waiting r' a = false /\ forall b, b <> a -> cr_pos r' b = cr_pos r b.
Proof.
  intros c f a u v r P I. unfold move_to, arrive. cbn [andb]. rewrite (move_spec _ a u v); auto.
  eexists. split; [reflexivity|]. cbn. rewrite !put_same. split; auto. split; [apply in_elt|]. split; auto.
  intros b NE. now rewrite !put_other.
Qed.
Print Assumptions C183_move_to_a_target_refuted.
Print Assumptions C183_move_to_a_target_partial.
Example C183_not_vacuous : has_street town 0 1 = true /\
  let r := fw_rest (traffic 1 1 corners (fun k => k)) in cr_pos r 0 = Some 0 /\ In 0 (cr_at r 0).
Proof. split; [reflexivity|]. cbn. auto. Qed.

(** C184, refuted: a SquareCityEnv cannot be made, because the travel times are drawn with [self.max_weight] before it is
    set: an AttributeError for all sides of two or more. *)
Theorem C184_square_cities_refuted : forall side randint, 2 <= side -> square_times new_attributes side randint = None.
Proof.
  intros side randint L. unfold square_times.
  assert (E : square_edges side <> []).
  { unfold square_edges. destruct side as [|[|n]]; [lia..|]. cbn. discriminate. }
  destruct (square_edges side); [congruence|]. reflexivity.
Qed.
(** If it were, the times would be those that are drawn, one for each of the 2 * side * (side - 1) edges. *)
Theorem C184_with_a_weight_partial : forall attributes side randint, In "max_weight"%string attributes ->
  exists times, square_times attributes side randint = Some times /\ List.length times = List.length (square_edges side) /\
    forall t, In t times -> exists k, t = randint k.
Proof.
  intros attributes side randint I. unfold square_times.
  assert (X : existsb (String.eqb "max_weight") attributes = true) by (apply existsb_exists; exists "max_weight"%string; split; auto; apply String.eqb_refl).
  rewrite X. destruct (square_edges side) as [|e l]; [exists []; repeat split; auto; intros t []|].
  exists (map (fun k => randint k) (seq 0 (List.length (e :: l)))). split; auto. rewrite map_length, seq_length. split; auto.
  intros t H. apply in_map_iff in H as (k & <- & _). eauto.
Qed.
Print Assumptions C184_square_cities_refuted.
Print Assumptions C184_with_a_weight_partial.
Example C184_not_vacuous : square_times new_attributes 20 (fun _ => 1%Z) = None /\ List.length (square_edges 3) = 12 /\
  square_times ("max_weight" :: new_attributes)%string 2 Z.of_nat = Some [0; 1; 2; 3]%Z.
Proof. repeat split; vm_compute; reflexivity. Qed.

(** C185: the reported coefficients of Gini are between 0 and 1, also without agents or streets; and below 1 if there is
    anything to report. *)
Theorem C185_gini_reports_in_range : forall c gradual n_other n_lazy places x tr, drawn c ->
  (forall a, a < n_other + n_lazy -> In (places a) (c_nodes c)) -> reached c gradual n_other n_lazy places x tr ->
  let r := fw_rest (fst x) in
  (exists g, node_gini c r = Some g /\ (0 <= g)%Q /\ (g <= 1)%Q /\
     (c_nodes c <> [] -> (g <= 1 - 1 / inject_Z (Z.of_nat (List.length (c_nodes c))))%Q)) /\
  (exists g, edge_gini c r = Some g /\ (0 <= g)%Q /\ (g <= 1)%Q).
Proof.
  intros c gradual n1 n2 places x tr DR P (AR & di & R) r. destruct (runs_hinv _ _ _ _ _ _ _ _ DR P R) as [SI _]. split.
  - destruct (gini_range (map Z.of_nat (dvalues (node_occupation c r)))) as (g & G & A & B & C).
    { apply Forall_forall. intros z I. apply in_map_iff in I as (k & <- & _). lia. }
    exists g. split; auto. split; auto. split; auto. intros NE. unfold dvalues, node_occupation in C. rewrite !map_length in C. apply C.
    destruct (c_nodes c); [congruence|discriminate].
  - destruct (gini_range (dvalues (edge_occupation c r))) as (g & G & A & B & C); [|exists g; auto].
    apply Forall_forall. intros z I. apply report_values in I as [->|(u & v & ->)]; [lia|]. eapply occupation_nonneg; eauto.
Qed.
Print Assumptions C185_gini_reports_in_range.
Example C185_not_vacuous : (exists g, node_gini town (fw_rest (fst (snd (fst (town_run true 1))))) = Some g /\ (g == 1 # 3)%Q) /\
  (exists g, edge_gini town (fw_rest (fst (snd (fst (town_run true 1))))) = Some g /\ (g == 2 # 3)%Q).
Proof. split; (eexists; split; [vm_compute; reflexivity|reflexivity]). Qed.
