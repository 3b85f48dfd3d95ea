(** C160-C166: the drivers and passengers of the cars example. *)
From Coq Require Import ZArith List Bool Arith String Permutation Lia.
From Verif Require Import Num PyDict TimedModel TimedProofs AgentModel FsmModel EventModel CarsModel CarsSpec CarsProofs.
Import ListNotations.
Local Open Scope string_scope.

(** A day with one driver and one passenger that start in the same corner, agents in order. *)
#[local] Instance wholes : Arith := exact.
Definition in_turn (l : list aid) (e : cevents) : cevents * list aid := (e, l).
Definition corner (a : aid) : cell := (0, 0)%Z.
Definition day (width height : Z) (draws : nat -> nat) (n : nat) :=
  city_run 1 width height in_turn true (Fin 1) 1 1 corner draws n.
Definition sched_of {X Y Z} (t : X * Y * Z) : X := fst (fst t).
Definition world_of {X Y Y' Z} (t : X * (Y * Y') * Z) : Y := fst (snd (fst t)).
Definition cors_of {X Y Y' Z} (t : X * (Y * Y') * Z) : Y' := snd (snd (fst t)).
Lemma in_turn_fair : fair in_turn.
Proof. intros l e. cbn. split; [apply Permutation_refl|]. exists (cr_draws (e_rest e)). now destruct e as [? ? ? ? []]. Qed.
Lemma today width height draws n : (0 < width)%Z -> (0 < height)%Z -> let t := day width height draws n in
  reached width height 1 1 (sched_of t) (world_of t) (cors_of t).
Proof.
  intros W H t. exists wholes, 1%Z, in_turn, true, (Fin 1), corner, draws, n, (snd t). split; [exact in_turn_fair|]. split.
  - intros a. unfold on_grid, corner. cbn. rewrite !andb_true_iff, !Z.ltb_lt. auto.
  - change (day width height draws n = (sched_of t, (world_of t, cors_of t), snd t)). fold t.
    unfold sched_of, world_of, cors_of. destruct t as [[s [w c]] tr]. reflexivity.
Qed.
Lemma goes_on width height draws n m : exists h,
  run_hist (cars_user 1 width height (a_driver 1) in_turn) (repeat CStep m) (sched_of (day width height draws n))
    (world_of (day width height draws n), cors_of (day width height draws n)) =
  (sched_of (day width height draws (n + m)), (world_of (day width height draws (n + m)), cors_of (day width height draws (n + m))), h).
Proof.
  unfold day, city_run. rewrite repeat_app, app_assoc. generalize (map (fun a => @CAdd (cworld * cors (frame cpoint)) a None) (seq 0 (1 + 1))).
  intros l. rewrite (run_hist_app _ (l ++ repeat CStep n)).
  match goal with |- context [run_hist ?u (l ++ repeat CStep n)%list ?s ?x] => destruct (run_hist u (l ++ repeat CStep n)%list s x) as [[s1 [w1 c1]] tr1] end.
  unfold sched_of, world_of, cors_of. cbn [fst snd].
  match goal with |- context [run_hist ?u (repeat CStep m) ?s ?x] => destruct (run_hist u (repeat CStep m) s x) as [[s2 [w2 c2]] tr2] end.
  cbn [fst snd]. eauto.
Qed.
Definition three (n : nat) := day 3 3 (fun k => S k) n.

(** C160: no two drivers have the same journey, and the journey that a driver has names it. *)
Theorem C160_one_driver : forall width height n_cars n_passengers s w c d d' j,
  reached width height n_cars n_passengers s w c ->
  (d < n_cars)%nat -> (d' < n_cars)%nat -> has_journey w d j -> has_journey w d' j -> d = d'.
Proof.
  intros width height n_cars n_passengers s w c d d' j R D D' J J'. apply reached_town in R as (_ & (ph & paid & KK & _) & _).
  apply Nat.ltb_lt in D, D'. destruct (k_own _ _ _ _ _ _ KK d j D J) as (x & X & O), (k_own _ _ _ _ _ _ KK d' j D' J') as (x' & X' & O').
  unfold jour in *. cbn in *. congruence.
Qed.
Print Assumptions C160_one_driver.
Theorem C160_named : forall width height n_cars n_passengers s w c d j,
  reached width height n_cars n_passengers s w c -> (d < n_cars)%nat -> has_journey w d j ->
  exists x, is_journey w j x /\ j_driver x = Some d /\ (n_cars <= j_pass x)%nat.
Proof.
  intros width height n_cars n_passengers s w c d j R D J. apply reached_town in R as (_ & (ph & paid & KK & _) & _).
  apply Nat.ltb_lt in D. destruct (k_own _ _ _ _ _ _ KK d j D J) as (x & X & O). exists x. split; [exact X|]. split; [exact O|].
  destruct (k_pass _ _ _ _ _ _ KK j x X) as (H & _). now apply Nat.ltb_ge in H.
Qed.
Print Assumptions C160_named.
Example C160_case : reached 3 3 1 1 (sched_of (three 14)) (world_of (three 14)) (cors_of (three 14)) /\
  has_journey (world_of (three 14)) 0 0 /\ is_journey (world_of (three 14)) 0 (Journey (0, 0)%Z (2, 0)%Z 14 1 (Some 0)).
Proof. split; [now apply today|]. vm_compute. auto. Qed.

(** C161: what the drivers earned are the tips of different journeys, each done by the driver that has the tip, with its
    passenger at its destination; the total is what all drivers earned together. *)
Theorem C161_earnings : forall width height n_cars n_passengers s w c, reached width height n_cars n_passengers s w c ->
  exists paid, NoDup paid /\
  (forall j, In j paid -> exists x d, is_journey w j x /\ j_driver x = Some d /\ (d < n_cars)%nat /\ stands_at w (j_pass x) (j_dest x) /\
     (10 <= j_tip x <= 100)%Z) /\
  (forall d, cr_earnings (state_of w) d = tips (cr_journeys (state_of w)) (filter (driven_by (cr_journeys (state_of w)) d) paid)) /\
  cr_total (state_of w) = tips (cr_journeys (state_of w)) paid /\
  cr_total (state_of w) = fold_right Z.add 0%Z (map (cr_earnings (state_of w)) (seq 0 n_cars)).
Proof.
  intros width height n_cars n_passengers s w c R. apply reached_town in R as (_ & (ph & paid & KK & _) & _). cbn [fst snd] in KK.
  exists paid. split; [apply KK|].
  assert (P : forall j, In j paid -> exists x d, is_journey w j x /\ j_driver x = Some d /\ (d < n_cars)%nat /\ stands_at w (j_pass x) (j_dest x) /\
     (10 <= j_tip x <= 100)%Z).
  { intros j I. destruct (k_paid _ _ _ _ _ _ KK j I) as (x & d & X & D & G). exists x, d. split; [exact X|]. split; [exact D|].
    destruct (k_pass _ _ _ _ _ _ KK j x X) as (_ & H & T & _). specialize (H d D). apply Nat.ltb_lt in H. split; [exact H|]. split; [|exact T].
    destruct (k_where _ _ _ _ _ _ KK j x X G) as [[_ W]|[N _]]; [exact W|contradiction]. }
  split; [exact P|]. split; [apply KK|]. split; [apply KK|].
  transitivity (tips (cr_journeys (state_of w)) paid); [apply KK|].
  rewrite (map_ext _ (fun d => tips (cr_journeys (state_of w)) (filter (driven_by (cr_journeys (state_of w)) d) paid))) by apply KK.
  apply shared_out. intros j I. destruct (P j I) as (x & d & X & D & L & _). exists d. split; auto. intros b. unfold driven_by.
  unfold is_journey in X. rewrite X, D. reflexivity.
Qed.
Print Assumptions C161_earnings.
Example C161_case : reached 3 3 1 1 (sched_of (three 16)) (world_of (three 16)) (cors_of (three 16)) /\
  cr_total (state_of (world_of (three 15))) = 0%Z /\ cr_total (state_of (world_of (three 16))) = 14%Z.
Proof. split; [now apply today|]. vm_compute. auto. Qed.

(** C162: a passenger that has left stands at the destination of the journey that it asked for, and asked for no other. *)
Theorem C162_gone_home : forall width height n_cars n_passengers s w c p,
  reached width height n_cars n_passengers s w c -> (n_cars <= p)%nat -> ~ alive w p ->
  exists j x, has_journey w p j /\ is_journey w j x /\ j_pass x = p /\ stands_at w p (j_dest x) /\
    forall j' x', is_journey w j' x' -> j_pass x' = p -> j' = j.
Proof.
  intros width height n_cars n_passengers s w c p R P A. apply reached_town in R as (_ & (ph & paid & KK & L) & _).
  apply Nat.ltb_ge in P. pose proof (k_psg _ _ _ _ _ _ KK p P) as PP. specialize (L p). cbn [fst snd] in *. unfold alive in A.
  destruct (ph p); cbn in PP; try contradiction; cbn in L; try (destruct L as (AL & _); contradiction).
  destruct PP as (j & x & J & X & E & Q). exists j, x. split; [exact J|]. split; [exact X|]. split; [exact E|]. split; [exact Q|].
  intros j' x' X' E'. apply (k_one _ _ _ _ _ _ KK j' j x' x X' X). congruence.
Qed.
Print Assumptions C162_gone_home.
Example C162_case : reached 3 3 1 1 (sched_of (three 68)) (world_of (three 68)) (cors_of (three 68)) /\
  ~ alive (world_of (three 68)) 1 /\ alive (world_of (three 67)) 1 /\ stands_at (world_of (three 68)) 1 (2, 0)%Z.
Proof. split; [now apply today|]. vm_compute. intuition discriminate. Qed.

(** C163 is false: in a city that is not square a passenger may ask for a cell outside of it, and the driver fails
    on the way. *)
Definition outing (n : nat) := day 1 3 (fun _ => 2) n.
Theorem C163_outside_refuted : exists width height s w c j x,
  reached width height 1 1 s w c /\ is_journey w j x /\ on_grid width height (j_dest x) = false /\ has_journey w 0 j /\
  In (EvAct (Fin 67) 0 Exc) (snd (outing 14)) /\ world_of (outing 14) = w.
Proof.
  exists 1%Z, 3%Z, (sched_of (outing 14)), (world_of (outing 14)), (cors_of (outing 14)), 0, (Journey (0, 0)%Z (2, 0)%Z 12 1 (Some 0)).
  split; [now apply today|]. split; [vm_compute; reflexivity|]. split; [reflexivity|]. split; [vm_compute; reflexivity|].
  split; [|reflexivity]. vm_compute. repeat ((left; reflexivity) || right).
Qed.
Print Assumptions C163_outside_refuted.
(** What is missing: cities that are not square.  There the first coordinate is below the height, and the second below the
    width. *)
Theorem C163_destinations_partial : forall width height n_cars n_passengers s w c j x,
  reached width height n_cars n_passengers s w c -> is_journey w j x -> width = height -> on_grid width height (j_dest x) = true.
Proof.
  intros width height n_cars n_passengers s w c j x R X <-. apply reached_town in R as (_ & (ph & paid & KK & _) & _).
  destruct (k_pass _ _ _ _ _ _ KK j x X) as (_ & _ & _ & A & B). unfold on_grid. rewrite !andb_true_iff, !Z.leb_le, !Z.ltb_lt. lia.
Qed.
Print Assumptions C163_destinations_partial.
Theorem C163_swapped : forall width height n_cars n_passengers s w c j x,
  reached width height n_cars n_passengers s w c -> is_journey w j x ->
  (0 <= fst (j_dest x) < height)%Z /\ (0 <= snd (j_dest x) < width)%Z.
Proof.
  intros width height n_cars n_passengers s w c j x R X. apply reached_town in R as (_ & (ph & paid & KK & _) & _).
  destruct (k_pass _ _ _ _ _ _ KK j x X) as (_ & _ & _ & A & B). auto.
Qed.
Print Assumptions C163_swapped.
(** Whatever the city, nobody ever leaves it. *)
Theorem C163_in_the_city : forall width height n_cars n_passengers s w c a,
  reached width height n_cars n_passengers s w c -> on_grid width height (cr_pos (state_of w) a) = true.
Proof. intros width height n_cars n_passengers s w c a R. apply reached_town in R as (_ & (ph & paid & KK & _) & _). apply KK. Qed.
Print Assumptions C163_in_the_city.
Example C163_case : reached 3 3 1 1 (sched_of (three 1)) (world_of (three 1)) (cors_of (three 1)) /\
  is_journey (world_of (three 1)) 0 (Journey (0, 0)%Z (2, 0)%Z 14 1 None).
Proof. split; [now apply today|]. vm_compute. auto. Qed.

(** C164: [move_towards] goes to a neighbouring cell that is nearer, with the passenger if asked to, and says
    so; it stays and says so if the agent is there. *)
Theorem C164_nearer : forall width height r a target with_passenger r' b,
  on_grid width height (cr_pos r a) = true -> on_grid width height target = true ->
  (with_passenger = true -> exists j x, cr_journey r a = Some j /\ nth_error (cr_journeys r) j = Some x) ->
  move_towards width height r a target with_passenger = (r', b) ->
  (cr_pos r a = target /\ b = Some false /\ r' = r) \/
  (cr_pos r a <> target /\ b = Some true /\
   (distance (cr_pos r' a) target = distance (cr_pos r a) target - 1)%Z /\ distance (cr_pos r a) (cr_pos r' a) = 1%Z /\
   on_grid width height (cr_pos r' a) = true /\
   (with_passenger = true -> forall j x, cr_journey r a = Some j -> nth_error (cr_journeys r) j = Some x ->
      cr_pos r' (j_pass x) = cr_pos r' a) /\
   (with_passenger = false -> forall o, o <> a -> cr_pos r' o = cr_pos r o)).
Proof. exact nearer. Qed.
Print Assumptions C164_nearer.
(** Going on like that, the agent is there after as many moves as there are cells between, and not before. *)
Definition moves (width height : Z) (a : aid) (target : cell) (n : nat) (r : crest) : crest :=
  Nat.iter n (fun r => fst (move_towards width height r a target false)) r.
Theorem C164_shortest : forall width height r a target,
  on_grid width height (cr_pos r a) = true -> on_grid width height target = true ->
  forall n, cr_pos (moves width height a target n r) a = target <-> (distance (cr_pos r a) target <= Z.of_nat n)%Z.
Proof.
  intros width height r a target P T n.
  assert (H : on_grid width height (cr_pos (moves width height a target n r) a) = true /\
    distance (cr_pos (moves width height a target n r) a) target = Z.max 0 (distance (cr_pos r a) target - Z.of_nat n)).
  { induction n as [|n IH].
    - change (moves width height a target 0 r) with r. split; auto. assert (0 <= distance (cr_pos r a) target)%Z by (unfold distance; lia). lia.
    - destruct IH as [IG ID].
      change (moves width height a target (S n) r) with (fst (move_towards width height (moves width height a target n r) a target false)).
      set (r1 := moves width height a target n r) in *.
      destruct (move_towards width height r1 a target false) as [r2 b] eqn:E. cbn [fst].
      destruct (nearer width height r1 a target false r2 b IG T) as [(E1 & _ & ->)|(NE & _ & D & _ & G & _)]; auto; [discriminate| |].
      + split; auto. rewrite E1 in *. assert (distance target target = 0%Z) by (unfold distance; lia). lia.
      + split; auto. assert (0 <= distance (cr_pos r2 a) target)%Z by (unfold distance; lia). lia. }
  destruct H as [_ H]. split.
  - intros E. rewrite E in H. assert (distance target target = 0%Z) by (unfold distance; lia). lia.
  - intros L. apply no_distance. lia.
Qed.
Print Assumptions C164_shortest.
Example C164_case : let r := CRest [] (fun _ => (0, 0)%Z) (fun _ => None) (fun _ => 0%Z) 0 (fun _ => 0) in
  on_grid 3 3 (cr_pos r 0) = true /\ on_grid 3 3 (2, 1)%Z = true /\ distance (cr_pos r 0) (2, 1)%Z = 3%Z /\
  map (fun n => cr_pos (moves 3 3 0 (2, 1)%Z n r) 0) [1; 2; 3; 4] = [(1, 0); (2, 0); (2, 1); (2, 1)]%Z.
Proof. vm_compute. auto. Qed.

(** C165: a driver goes home only when no passenger is left, and not on the way with one. *)
Theorem C165_drivers_stay : forall width height n_cars n_passengers s w c d,
  reached width height n_cars n_passengers s w c -> (d < n_cars)%nat -> ~ alive w d ->
  (forall p, (n_cars <= p < n_cars + n_passengers)%nat -> ~ alive w p) /\
  (forall j, has_journey w d j -> exists x, is_journey w j x /\ stands_at w (j_pass x) (j_dest x)).
Proof.
  intros width height n_cars n_passengers s w c d R D A. apply reached_town in R as (_ & (ph & paid & KK & L) & RG & RL & DD). cbn [fst snd] in *.
  unfold alive in *. apply not_true_is_false in A. assert (D' := D). apply Nat.ltb_lt in D'. split.
  - intros p P AP. apply RG in AP; [|lia]. specialize (DD d ltac:(lia) D' A).
    assert (J : In p (passengers (a_driver n_cars) (s_reg s))).
    { apply filter_In. split; auto. unfold a_driver. assert (n_cars <= p)%nat as X by lia. apply Nat.ltb_ge in X. now rewrite X. }
    rewrite DD in J. destruct J.
  - intros j J. pose proof (k_drv _ _ _ _ _ _ KK d D') as DP. specialize (L d). rewrite A in L.
    destruct (ph d); cbn in DP; try contradiction; cbn in L; try (destruct L as (AL & _); discriminate).
    specialize (DP j J). destruct (k_paid _ _ _ _ _ _ KK j DP) as (x & b & X & _ & G). exists x. split; [exact X|].
    destruct (k_where _ _ _ _ _ _ KK j x X G) as [[_ W]|[N _]]; [exact W|contradiction].
Qed.
Print Assumptions C165_drivers_stay.
Example C165_case : reached 3 3 1 1 (sched_of (three 70)) (world_of (three 70)) (cors_of (three 70)) /\
  ~ alive (world_of (three 70)) 0 /\ alive (world_of (three 69)) 0.
Proof. split; [now apply today|]. vm_compute. intuition discriminate. Qed.

(** C166 is false: the passenger is where it wanted to go, the driver has its tip, and the passenger stays for
    another fifty seconds. *)
Theorem C166_lingers_refuted : exists s w c s' w' c' j x,
  reached 3 3 1 1 s w c /\ reached 3 3 1 1 s' w' c' /\
  (exists h, run_hist (cars_user 1 3 3 (a_driver 1) in_turn) (repeat CStep 51) s (w, c) = (s', (w', c'), h)) /\
  is_journey w j x /\ j_pass x = 1 /\ stands_at w 1 (j_dest x) /\ cr_earnings (state_of w) 0 = j_tip x /\ alive w' 1 /\
  s_time s = Fin 70 /\ s_time s' = Fin 121.
Proof.
  exists (sched_of (three 16)), (world_of (three 16)), (cors_of (three 16)), (sched_of (three 67)), (world_of (three 67)), (cors_of (three 67)),
    0, (Journey (0, 0)%Z (2, 0)%Z 14 1 (Some 0)).
  split; [now apply today|]. split; [now apply today|]. split; [exact (goes_on 3 3 (fun k => S k) 16 51)|]. vm_compute. auto 10.
Qed.
Print Assumptions C166_lingers_refuted.
