(** C148-C153: the patrons and the police of the pubcrawl example. *)
From Coq Require Import ZArith List Bool Arith String Permutation Lia.
From Verif Require Import Num PyDict TimedModel AgentModel FsmModel FsmProofs PlainProofs PubModel PubSpec PatronModel PatronSpec
  PatronProofs.
Import ListNotations.
Local Open Scope string_scope.

(** An evening with one pub of five places, agents in order, and patrons that like everybody and are
    drunk after two pints. *)
#[local] Instance wholes : Arith := exact.
Definition likes_all : aid -> num := fun _ => Fin 1.
Definition two_pints : aid -> Z := fun _ => 1%Z.
Definition tens : num -> nat := fun _ => 10.
Definition as_is (d : nat -> num) (l : list aid) : (nat -> num) * list aid := (d, l).
Definition in_turn (l : list aid) (r : prest) : prest * list aid := (r, l).
Definition out_tonight (patrons n : nat) :=
  crawl_run likes_all two_pints tens as_is in_turn true (Fin 1) 1 5%Z [] (fun _ => Fin 0) patrons n.
Definition sched_of {X Y Z} (t : X * Y * Z) : X := fst (fst t).
Definition world_of {X Y Y' Z} (t : X * (Y * Y') * Z) : Y := fst (snd (fst t)).
Definition cors_of {X Y Y' Z} (t : X * (Y * Y') * Z) : Y' := snd (snd (fst t)).
Lemma in_turn_fair : fair in_turn.
Proof. intros l r. cbn. split; [apply Permutation_refl|]. exists (pr_draws r). now destruct r. Qed.
Lemma tonight patrons n : let t := out_tonight patrons n in
  reached likes_all two_pints tens as_is 1 5%Z [] patrons (sched_of t) (world_of t) (cors_of t).
Proof.
  intros t. exists wholes, in_turn, true, (Fin 1), (fun _ => Fin 0), n, (snd t). split; [exact in_turn_fair|].
  change (out_tonight patrons n = (sched_of t, (world_of t, cors_of t), snd t)). fold t.
  unfold sched_of, world_of, cors_of. destruct t as [[s [w c]] tr]. reflexivity.
Qed.
Definition where_ (w : pworld) (l : list aid) : list string :=
  map (fun a => match fa_cur (fw_agents w a) with Some st => st_name st | None => "" end) l.

(** C148 is false, whatever the owner of the model does (except to change the world behind its back):
    patrons that befriend each other are never linked, unless they were from the start.  (Each gets
    a loop.) *)
Theorem C148_no_links_refuted :
  forall (AR : Arith) openness max_pints tenfold mix shuffle h s w c s' w' c' tr,
  fair shuffle -> (forall f, ~ In (CWorld f) h) ->
  rested c -> (forall a, exists states, fa_kind (fw_agents w a) = KFsm states) ->
  run_hist (patron_user openness max_pints tenfold mix shuffle) h s (w, c) = (s', (w', c'), tr) ->
  forall a b, a <> b -> joined (pr_edges (fw_rest w')) a b <-> joined (pr_edges (fw_rest w)) a b.
Proof.
  intros AR openness max_pints tenfold mix shuffle h s w c s' w' c' tr FA HO R K E a b NE.
  apply loops_joined; auto. exact (hist_edges openness max_pints tenfold mix shuffle h s w c s' w' c' tr FA HO R K E).
Qed.
Print Assumptions C148_no_links_refuted.
(** Two patrons become friends and look for a pub, each with itself. *)
Example C148_not_vacuous :
  let t := out_tonight 2 1 in
  where_ (world_of t) [1; 2] = ["looking_for_pub"; "looking_for_friends"] /\
  pr_edges (fw_rest (world_of t)) = [(1, 1); (2, 2)] /\
  get_neighbors (sched_of t) (fw_rest (world_of t)) 1 = [1] /\
  (forall a, exists states, fa_kind (fw_agents (crawl_world 1 5%Z [] (fun _ => Fin 0)) a) = KFsm states) /\
  rested (@no_cors (frame pfun)).
Proof.
  split; [vm_compute; reflexivity|]. split; [vm_compute; reflexivity|]. split; [vm_compute; reflexivity|].
  split; [intros a; eexists; reflexivity|intros a; now left].
Qed.

(** C149 is false in all runs that start without friends: each patron inside a pub takes two of its
    places. *)
Theorem C149_counted_twice_refuted :
  forall openness max_pints tenfold mix pubs capacity patrons s w c p b, (forall a, 0 <= max_pints a)%Z ->
  reached openness max_pints tenfold mix pubs capacity [] patrons s w c ->
  dget p (c_pubs (pr_city (fw_rest w))) = Some b ->
  p_capacity b = capacity /\ p_occupancy b = (2 * number_inside (pr_city (fw_rest w)) p (the_patrons patrons))%Z.
Proof.
  intros openness max_pints tenfold mix pubs capacity patrons s w c p b MP.
  exact (doubled openness max_pints tenfold mix pubs capacity patrons MP s w c p b).
Qed.
Print Assumptions C149_counted_twice_refuted.
(** Four patrons and five places: two are inside, two never get in. *)
Example C149_not_vacuous :
  let t := out_tonight 4 20 in
  reached likes_all two_pints tens as_is 1 5%Z [] 4 (sched_of t) (world_of t) (cors_of t) /\
  dget 0 (c_pubs (pr_city (fw_rest (world_of t)))) = Some (Pub true 5 4) /\
  number_inside (pr_city (fw_rest (world_of t))) 0 (the_patrons 4) = 2%Z /\
  where_ (world_of t) [1; 2; 3; 4] = ["at_home"; "at_home"; "looking_for_pub"; "looking_for_friends"].
Proof. cbv zeta. split; [exact (tonight 4 20)|]. repeat split; vm_compute; reflexivity. Qed.

(** C150: what is known of each patron in each state, in all runs that start without friends. *)
Theorem C150_evening :
  forall openness max_pints tenfold mix pubs capacity patrons s w c a, (forall a, 0 <= max_pints a)%Z ->
  reached openness max_pints tenfold mix pubs capacity [] patrons s w c -> a_patron patrons a ->
  exists name, In name evening /\ in_state name w a /\ as_described max_pints w a name.
Proof.
  intros openness max_pints tenfold mix pubs capacity patrons s w c a MP.
  exact (life openness max_pints tenfold mix pubs capacity patrons MP s w c a).
Qed.
Print Assumptions C150_evening.
(** An activation leaves the agent in its state or moves it to the next one; it moves no other. *)
Theorem C150_order :
  forall openness max_pints tenfold mix pubs capacity patrons s w c a fs w' c' l o, (forall a, 0 <= max_pints a)%Z ->
  reached openness max_pints tenfold mix pubs capacity [] patrons s w c -> In a (s_reg s) ->
  agent_step (patron_code openness max_pints tenfold mix) fs s a (w, c) = (w', c', l, o) ->
  (forall b, b <> a -> fa_cur (fw_agents w' b) = fa_cur (fw_agents w b)) /\
  exists x y, in_state x w a /\ in_state y w' a /\ (y = x \/ follows x y).
Proof.
  intros openness max_pints tenfold mix pubs capacity patrons s w c a fs w' c' l o MP.
  exact (order openness max_pints tenfold mix pubs capacity patrons MP s w c a fs w' c' l o).
Qed.
Print Assumptions C150_order.
Example C150_not_vacuous :
  let at_ n := world_of (out_tonight 2 n) in
  reached likes_all two_pints tens as_is 1 5%Z [] 2 (sched_of (out_tonight 2 5)) (at_ 5) (cors_of (out_tonight 2 5)) /\
  a_patron 2 1 /\
  map (fun n => where_ (at_ n) [1]) [0; 1; 2; 3; 4; 5; 6; 7] =
  map (fun x => [x]) ["looking_for_friends"; "looking_for_pub"; "sober_in_pub"; "sober_in_pub"; "drunk_in_pub"; "drunk_in_pub"; "at_home"; "at_home"] /\
  map (fun n => (pr_pints (fw_rest (at_ n)) 1, pr_drunk (fw_rest (at_ n)) 1, pr_kicked (fw_rest (at_ n)) 1)) [2; 4; 5; 6] =
  [(0%Z, false, false); (2%Z, false, false); (2%Z, true, false); (2%Z, true, true)].
Proof.
  cbv zeta. split; [exact (tonight 2 5)|]. split; [unfold a_patron; lia|]. split; vm_compute; reflexivity.
Qed.

(** C151 is false: a patron that is alone finds itself, so that it looks for friends forever. *)
Theorem C151_alone_refuted :
  forall openness max_pints tenfold mix pubs capacity s w c, (forall a, 0 <= max_pints a)%Z ->
  (forall d l x, In x (snd (mix d l)) -> In x l) ->
  reached openness max_pints tenfold mix pubs capacity [] 1 s w c -> in_state "looking_for_friends" w 1.
Proof.
  intros openness max_pints tenfold mix pubs capacity s w c MP FM R. exists looking_for_friends. split; auto.
  exact (alone openness max_pints tenfold mix pubs capacity 1 MP s w c FM eq_refl R).
Qed.
Print Assumptions C151_alone_refuted.
Example C151_not_vacuous :
  let t := out_tonight 1 8 in
  reached likes_all two_pints tens as_is 1 5%Z [] 1 (sched_of t) (world_of t) (cors_of t) /\
  (forall d l x, In x (snd (as_is d l)) -> In x l) /\ s_reg (sched_of t) = [0; 1].
Proof. cbv zeta. split; [exact (tonight 1 8)|]. split; [auto|vm_compute; reflexivity]. Qed.

(** C152 is false: who is at home is still inside the pub, for the city. *)
Theorem C152_still_inside_refuted :
  forall openness max_pints tenfold mix pubs capacity patrons s w c a, (forall a, 0 <= max_pints a)%Z ->
  reached openness max_pints tenfold mix pubs capacity [] patrons s w c -> a_patron patrons a ->
  in_state "at_home" w a -> exists p, inside (pr_city (fw_rest w)) a p.
Proof.
  intros openness max_pints tenfold mix pubs capacity patrons s w c a MP.
  exact (home_inside openness max_pints tenfold mix pubs capacity patrons MP s w c a).
Qed.
Print Assumptions C152_still_inside_refuted.
(** So that no more than half of the places of all pubs are ever used, in a run of any length. *)
Theorem C152_few_places_refuted :
  forall openness max_pints tenfold mix pubs capacity patrons s w c, (forall a, 0 <= max_pints a)%Z -> (0 <= capacity)%Z ->
  reached openness max_pints tenfold mix pubs capacity [] patrons s w c ->
  forall l, NoDup l -> (forall a, In a l -> a_patron patrons a /\ ~ outside w a) ->
  (Z.of_nat (List.length l) <= Z.of_nat pubs * (capacity / 2))%Z.
Proof.
  intros openness max_pints tenfold mix pubs capacity patrons s w c MP CP R l N H.
  pose proof (few_places openness max_pints tenfold mix pubs capacity patrons MP s w c R CP) as F.
  eapply Z.le_trans; [|exact F]. apply Nat2Z.inj_le. apply NoDup_incl_length; auto.
  intros a J. destruct (H a J) as [[A1 A2] O]. apply filter_In. split; [apply in_seq; lia|].
  destruct (c_pub (pr_city (fw_rest w)) a) as [[p|]|] eqn:P; auto; exfalso; apply O; intros q X; unfold inside in X; congruence.
Qed.
Print Assumptions C152_few_places_refuted.
Example C152_not_vacuous :
  let t := out_tonight 4 20 in
  reached likes_all two_pints tens as_is 1 5%Z [] 4 (sched_of t) (world_of t) (cors_of t) /\
  in_state "at_home" (world_of t) 1 /\ c_pub (pr_city (fw_rest (world_of t))) 1 = Some (Some 0) /\
  (forall a, In a [1; 2] -> a_patron 4 a /\ ~ outside (world_of t) a).
Proof.
  cbv zeta. split; [exact (tonight 4 20)|]. split; [exists at_home; split; vm_compute; reflexivity|]. split; [vm_compute; reflexivity|].
  intros a [<-|[<-|[]]]; (split; [unfold a_patron; lia|]); intros X; apply (X 0); vm_compute; reflexivity.
Qed.

(** C153: an activation of the police kicks out those in the schedule that are in the state
    "drunk_in_pub" and know that they are drunk, nobody else, and changes nothing else. *)
Theorem C153_patrol :
  forall openness max_pints tenfold mix fs s w c a, (exists states, fa_kind (fw_agents w a) = KFsm states) ->
  fa_alive (fw_agents w a) = true -> fa_cur (fw_agents w a) = Some patrol -> get_co c a = None ->
  exists w' c', agent_step (patron_code openness max_pints tenfold mix) fs s a (w, c) = (w', c', [], Ret None) /\
  (forall b, fa_cur (fw_agents w' b) = fa_cur (fw_agents w b)) /\
  let r := fw_rest w in let r' := fw_rest w' in
  pr_city r' = pr_city r /\ pr_edges r' = pr_edges r /\ pr_pints r' = pr_pints r /\ pr_drunk r' = pr_drunk r /\
  forall b, pr_kicked r' b = true <->
    pr_kicked r b = true \/ (In b (s_reg s) /\ in_state "drunk_in_pub" w b /\ pr_drunk r b = true).
Proof. exact patrols. Qed.
Print Assumptions C153_patrol.
Example C153_not_vacuous :
  let t := out_tonight 2 5 in let w := world_of t in
  (exists states, fa_kind (fw_agents w 0) = KFsm states) /\ fa_alive (fw_agents w 0) = true /\
  fa_cur (fw_agents w 0) = Some patrol /\ get_co (cors_of t) 0 = None /\
  In 1 (s_reg (sched_of t)) /\ in_state "drunk_in_pub" w 1 /\ pr_drunk (fw_rest w) 1 = true /\ pr_kicked (fw_rest w) 1 = false.
Proof.
  cbv zeta. split; [eexists; vm_compute; reflexivity|]. split; [vm_compute; reflexivity|]. split; [vm_compute; reflexivity|].
  split; [vm_compute; reflexivity|]. split; [vm_compute; auto|]. split; [exists drunk_in_pub; split; vm_compute; reflexivity|].
  split; vm_compute; reflexivity.
Qed.
