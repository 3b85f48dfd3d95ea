(** C143-C147: the rabbits of examples/rabbits/rabbit_improved_sim.py; mating and reports of both
    examples. *)
From Coq Require Import ZArith List Bool Arith String.
From Verif Require Import Num PyDict TimedModel AgentModel FsmModel RabbitModel RabbitSpec RabbitProps
  Rabbit2Model Rabbit2Spec Rabbit2Proofs.
Import ListNotations.
Local Open Scope string_scope.

(** A small family: rabbits grow up at one, carry for one unit of time and have two babies.  The male
    mates when his draw is 0. *)
#[local] Instance ints2 : Arith := exact.
Definition quick2 : iparams := IParams (Fin 1) (Fin 20) 5 (Fin 1) (Fin 1) (Fin 1).
Definition in_order2 (l : list aid) (r : irest) : irest * list aid := (r, l).
Definition try2 (times : num -> nat -> num) (draws : nat -> num) (n : nat) :=
  rabbit2_run a_role quick2 two times in_order2 true (Fin 1) draws n.
(** Only one draw is 0: the male mates once. *)
Definition once : nat -> num := fun n => if Nat.eqb n 4 then Fin 0 else Fin 1.
Ltac is_living := split; [eexists; vm_compute; reflexivity|repeat split; vm_compute; reflexivity].

(** C143 is false: [conception] stays after the birth.  A female that has had a litter, and whose mate
    is None for that reason, has another one every second time that she is activated, while she is not
    too old, although she does not mate again. *)
Theorem C143_more_litters_refuted :
  forall (AR : Arith) who p litter_of times fs a b t k l w c, List.length l = 2 * k ->
  living w c a fertile_female -> In a (ir_nodes (fw_rest w)) -> ir_mate (fw_rest w) a = None ->
  ir_birth (fw_rest w) a = Some b -> ir_conception (fw_rest w) a = Some t ->
  (forall s, In s l -> n_ltb (ip_life p) (since b s) = false /\ n_leb (ip_gestation p) (since t s) = true) ->
  let r := fw_rest w in let children := seq (ir_next r) (k * ir_litter r a) in
  exists w' c', acts (rabbit2_code who p litter_of times) fs a l (w, c) =
    (w', c', map (fun x => SAdd x None) children, repeat (Ret None) (2 * k)) /\
  let r' := fw_rest w' in
  ir_nodes r' = (ir_nodes r ++ children)%list /\ ir_offspring r' a = ir_offspring r a + k * ir_litter r a /\
  ir_conception r' a = Some t /\ living w' c' a fertile_female.
Proof. intros AR who p litter_of times fs a b t k l w c. exact (again who p litter_of times fs a b t k l w c). Qed.
Print Assumptions C143_more_litters_refuted.
(** A run of the model: the male mates once, at 2; there is a litter at 3, and another one at 5. *)
Example C143_not_vacuous :
  (let t := try2 product once 4 in let s := sched_of t in let w := world_of t in let c := cors_of t in
   living w c 1 fertile_female /\ In 1 (ir_nodes (fw_rest w)) /\ ir_mate (fw_rest w) 1 = None /\
   ir_birth (fw_rest w) 1 = Some (Fin 0) /\ ir_conception (fw_rest w) 1 = Some (Fin 2) /\
   n_ltb (ip_life quick2) (since (Fin 0) s) = false /\ n_leb (ip_gestation quick2) (since (Fin 2) s) = true) /\
  map (fun n => let t := try2 product once n in (s_reg (sched_of t), ir_conception (fw_rest (world_of t)) 1)) [2; 3; 4; 7] =
  [([0; 1; 2], None); ([0; 1; 2], Some (Fin 2)); ([0; 1; 2; 3; 4], Some (Fin 2)); ([0; 1; 2; 3; 4; 5; 6], Some (Fin 2))].
Proof.
  split; [|vm_compute; reflexivity]. cbv zeta. split; [is_living|]. split; [vm_compute; auto|]. repeat split; vm_compute; reflexivity.
Qed.
(** C143, the other direction: nobody conceives but by the activation of a fertile male (what that does
    is C146).  That a birth ends the pregnancy is missing, and false. *)
Theorem C143_only_males_partial :
  forall (AR : Arith) who p litter_of times fs s w c a w' c' l o, get_co c a = None ->
  fa_kind (fw_agents w a) <> KPlain RFertileMale ->
  (forall st, fa_cur (fw_agents w a) = Some st -> st_fun st <> RFertileMale) ->
  agent_step (rabbit2_code who p litter_of times) fs s a (w, c) = (w', c', l, o) ->
  ir_conception (fw_rest w') = ir_conception (fw_rest w).
Proof. intros AR who p litter_of times fs s w c a w' c' l o. exact (only_males_conceive who p litter_of times fs s w c a w' c' l o). Qed.
Print Assumptions C143_only_males_partial.
Example C143_only_males_not_vacuous :
  let t := try2 product once 3 in let s := sched_of t in let w := world_of t in let c := cors_of t in
  get_co c 1 = None /\ fa_kind (fw_agents w 1) <> KPlain RFertileMale /\ fa_cur (fw_agents w 1) = Some pregnant /\
  snd (fst (agent_step (rabbit2_code a_role quick2 two product) (fun _ => None) s 1 (w, c))) = [SAdd 3 None; SAdd 4 None].
Proof. intros t s w c. split; [vm_compute; reflexivity|]. split; [vm_compute; discriminate|]. split; vm_compute; reflexivity. Qed.

(** C144 if the father has his node, that is, lives: all the children get nodes, are linked to both
    parents and are the offspring of both, and the mother may mate again. *)
Theorem C144_two_parents_partial :
  forall (AR : Arith) who p litter_of times fs s w c a m b t, living w c a pregnant ->
  ir_birth (fw_rest w) a = Some b -> n_ltb (ip_life p) (since b s) = false ->
  ir_conception (fw_rest w) a = Some t -> n_leb (ip_gestation p) (since t s) = true ->
  In a (ir_nodes (fw_rest w)) -> ir_mate (fw_rest w) a = Some m -> In m (ir_nodes (fw_rest w)) -> m <> a ->
  let r := fw_rest w in let children := seq (ir_next r) (ir_litter r a) in
  exists w' c', agent_step (rabbit2_code who p litter_of times) fs s a (w, c) =
    (w', c', map (fun x => SAdd x None) children, Ret None) /\
  let r' := fw_rest w' in
  ir_nodes r' = (ir_nodes r ++ children)%list /\
  ir_edges r' = (ir_edges r ++ flat_map (fun x => [(x, a); (x, m)]) children)%list /\
  ir_offspring r' a = ir_offspring r a + ir_litter r a /\ ir_offspring r' m = ir_offspring r m + ir_litter r a /\
  (forall x, x <> a -> x <> m -> ir_offspring r' x = ir_offspring r x) /\
  ir_mate r' a = None /\ living w' c' a fertile_female.
Proof. intros AR who p litter_of times fs s w c a m b t. exact (two_parents who p litter_of times fs s w c a m b t). Qed.
Print Assumptions C144_two_parents_partial.
Example C144_two_parents_not_vacuous :
  let t := try2 product once 3 in let s := sched_of t in let w := world_of t in let c := cors_of t in
  living w c 1 pregnant /\ ir_birth (fw_rest w) 1 = Some (Fin 0) /\ n_ltb (ip_life quick2) (since (Fin 0) s) = false /\
  ir_conception (fw_rest w) 1 = Some (Fin 2) /\ n_leb (ip_gestation quick2) (since (Fin 2) s) = true /\
  ir_mate (fw_rest w) 1 = Some 0 /\ ir_nodes (fw_rest w) = [0; 1] /\ ir_litter (fw_rest w) 1 = 2.
Proof. cbv zeta. split; [is_living|]. repeat split; vm_compute; reflexivity. Qed.
(** C144 is false: if the father has died (so that he has no node), the birth of the first child raises,
    since [mate] is an agent, be it dead or not.  The child is in the network and in the schedule, but
    it is nobody's offspring; there are no other children, and the mother stays as she is. *)
Theorem C144_dead_father_refuted :
  forall (AR : Arith) who p litter_of times fs s w c a m b t, living w c a pregnant ->
  ir_birth (fw_rest w) a = Some b -> n_ltb (ip_life p) (since b s) = false ->
  ir_conception (fw_rest w) a = Some t -> n_leb (ip_gestation p) (since t s) = true ->
  In a (ir_nodes (fw_rest w)) -> ir_mate (fw_rest w) a = Some m ->
  ~ In m (ir_nodes (fw_rest w)) -> (m < ir_next (fw_rest w))%nat -> (0 < ir_litter (fw_rest w) a)%nat ->
  let r := fw_rest w in
  exists w' c', agent_step (rabbit2_code who p litter_of times) fs s a (w, c) = (w', c', [SAdd (ir_next r) None], Exc) /\
  let r' := fw_rest w' in
  ir_nodes r' = (ir_nodes r ++ [ir_next r])%list /\ ir_edges r' = (ir_edges r ++ [(ir_next r, a)])%list /\
  ir_offspring r' = ir_offspring r /\ ir_mate r' = ir_mate r /\ fw_agents w' = fw_agents w.
Proof. intros AR who p litter_of times fs s w c a m b t. exact (dead_father who p litter_of times fs s w c a m b t). Qed.
Print Assumptions C144_dead_father_refuted.
(** The father mates at 2 and dies in an accident at 2 (with a [times] that does not give 0); the
    exception ends the simulation at 3. *)
Example C144_not_vacuous :
  let t := try2 always unlucky 3 in let s := sched_of t in let w := world_of t in let c := cors_of t in
  living w c 1 pregnant /\ ir_birth (fw_rest w) 1 = Some (Fin 0) /\ n_ltb (ip_life quick2) (since (Fin 0) s) = false /\
  ir_conception (fw_rest w) 1 = Some (Fin 2) /\ n_leb (ip_gestation quick2) (since (Fin 2) s) = true /\
  ir_mate (fw_rest w) 1 = Some 0 /\ ir_nodes (fw_rest w) = [1] /\ ir_next (fw_rest w) = 3 /\ ir_litter (fw_rest w) 1 = 2 /\
  last (snd (try2 always unlucky 4)) (EvAdd NaN 0) = EvAct (Fin 3) 1 Exc.
Proof. cbv zeta. split; [is_living|]. repeat split; vm_compute; reflexivity. Qed.

(** C145: a newborn sleeps for its sexual maturity less its age, which is no time; a youngling gets
    fertile as soon as it is activated at that age, and no sooner, and changes nothing else. *)
Theorem C145_first_day :
  forall (AR : Arith) who p litter_of times fs s w c a, living w c a newborn ->
  exists w' c', agent_step (rabbit2_code who p litter_of times) fs s a (w, c) =
    (w', c', [], Ret (Some (n_add (ip_maturity p) (n_opp (since (s_time s) s))))) /\
  ir_birth (fw_rest w') a = Some (s_time s) /\ ir_offspring (fw_rest w') a = 0 /\
  (forall b, b <> a -> ir_birth (fw_rest w') b = ir_birth (fw_rest w) b) /\ living w' c' a youngling.
Proof. intros AR who p litter_of times fs s w c a. exact (first_day who p litter_of times fs s w c a). Qed.
Print Assumptions C145_first_day.
Theorem C145_grown_up :
  forall (AR : Arith) who p litter_of times fs s w c a t, living w c a youngling -> ir_birth (fw_rest w) a = Some t ->
  exists w' c', agent_step (rabbit2_code who p litter_of times) fs s a (w, c) = (w', c', [], Ret None) /\
  fw_rest w' = fw_rest w /\
  living w' c' a (if n_leb (ip_maturity p) (since t s) then own_fertile (who a) else youngling).
Proof. intros AR who p litter_of times fs s w c a t. exact (grown_up who p litter_of times fs s w c a t). Qed.
Print Assumptions C145_grown_up.
(** Both, for whole numbers: the delay of the first day is the maturity, and a youngling that is
    activated after that delay is fertile. *)
Theorem C145_in_time :
  forall who p litter_of times fs s w c a t m, living w c a newborn -> s_time s = Fin t -> ip_maturity p = Fin m ->
  exists w1 c1, agent_step (rabbit2_code who p litter_of times) fs s a (w, c) = (w1, c1, [], Ret (Some (Fin m))) /\
  living w1 c1 a youngling /\
  forall s', s_time s' = n_add (Fin m) (s_time s) ->
  exists w2 c2, agent_step (rabbit2_code who p litter_of times) fs s' a (w1, c1) = (w2, c2, [], Ret None) /\
  living w2 c2 a (own_fertile (who a)).
Proof.
  intros who p litter_of times fs s w c a t m L T M.
  destruct (first_day who p litter_of times fs s w c a L) as (w1 & c1 & E1 & B & _ & _ & L1).
  unfold since in E1. rewrite T, M in E1. cbn in E1.
  replace (m + - (t + - t))%Z with m in E1 by ring.
  exists w1, c1. split; [exact E1|]. split; [exact L1|]. intros s' T'.
  destruct (grown_up who p litter_of times fs s' w1 c1 a _ L1 B) as (w2 & c2 & E2 & _ & L2).
  exists w2, c2. split; [exact E2|]. unfold since in L2. rewrite T', T, M in L2. cbn in L2.
  replace (m + t + - t)%Z with m in L2 by ring. unfold n_leb, n_ltb, n_eqb in L2. rewrite Z.eqb_refl, orb_true_r in L2. exact L2.
Qed.
Print Assumptions C145_in_time.
Example C145_not_vacuous :
  let t := try2 product once 0 in let s := sched_of t in let w := world_of t in let c := cors_of t in
  living w c 1 newborn /\ s_time s = Fin 0 /\ ip_maturity quick2 = Fin 1 /\ own_fertile (a_role 1) = fertile_female.
Proof. cbv zeta. split; [is_living|]. repeat split; vm_compute; reflexivity. Qed.

(** C146: in an activation, a fertile male that is not too old mates with the first fertile female that
    he meets and whose draw is below [mating_prob], and with no other; he meets no more than
    [max_females], those that come first in the schedule.  Improved rabbits: *)
Theorem C146_mating :
  forall (AR : Arith) who p litter_of times fs s w c a b, living w c a fertile_male ->
  ir_birth (fw_rest w) a = Some b -> n_ltb (ip_life p) (since b s) = false ->
  exists w' c', agent_step (rabbit2_code who p litter_of times) fs s a (w, c) = (w', c', [], Ret None) /\
  living w' c' a fertile_male /\
  let r := fw_rest w in let r' := fw_rest w' in
  ir_nodes r' = ir_nodes r /\ ir_edges r' = ir_edges r /\ ir_offspring r' = ir_offspring r /\
  match chosen (ip_mating p) (ir_draws r) 0 (meets who (ip_females p) s w) with
  | None => forall x, ir_conception r' x = ir_conception r x /\ ir_mate r' x = ir_mate r x /\ ir_litter r' x = ir_litter r x
  | Some (k, f) =>
      ir_conception r' f = Some (s_time s) /\ ir_mate r' f = Some a /\ ir_litter r' f = litter_of (ir_draws r (S k)) /\
      forall x, x <> f ->
        ir_conception r' x = ir_conception r x /\ ir_mate r' x = ir_mate r x /\ ir_litter r' x = ir_litter r x
  end.
Proof. intros AR who p litter_of times fs s w c a b. exact (mating who p litter_of times fs s w c a b). Qed.
Print Assumptions C146_mating.
(** Basic rabbits: *)
Theorem C146_mating_basic :
  forall who p litter_of times fs s w c a, living w c a fertile_male -> (rr_age (fw_rest w) a < p_life p)%nat ->
  exists w' c', agent_step (rabbit_code who p litter_of times) fs s a (w, c) = (w', c', [], Ret None) /\
  living w' c' a fertile_male /\
  let r := fw_rest w in let r' := fw_rest w' in
  rr_nodes r' = rr_nodes r /\ rr_edges r' = rr_edges r /\ rr_offspring r' = rr_offspring r /\
  match chosen (p_mating p) (rr_draws r) 0 (meets who (p_females p) s w) with
  | None => forall x, rr_pregnancy r' x = rr_pregnancy r x /\ rr_mate r' x = rr_mate r x /\ rr_litter r' x = rr_litter r x
  | Some (k, f) =>
      rr_pregnancy r' f = 0%Z /\ rr_mate r' f = Some a /\ rr_litter r' f = litter_of (rr_draws r (S k)) /\
      forall x, x <> f ->
        rr_pregnancy r' x = rr_pregnancy r x /\ rr_mate r' x = rr_mate r x /\ rr_litter r' x = rr_litter r x
  end.
Proof. exact basic_mating. Qed.
Print Assumptions C146_mating_basic.
(** The one that is chosen is the first whose draw is below the chance. *)
Theorem C146_first :
  forall mating draws l,
  match chosen mating draws 0 l with
  | None => forall k, (k < List.length l)%nat -> n_ltb (draws k) mating = false
  | Some (n, f) => nth_error l n = Some f /\ n_ltb (draws n) mating = true /\
      forall j, (j < n)%nat -> n_ltb (draws j) mating = false
  end.
Proof.
  intros mating draws l. pose proof (chosen_spec mating draws l 0) as H. destruct (chosen _ _ _ _) as [[n f]|]; [|exact H].
  destruct H as (k & -> & H). exact H.
Qed.
Print Assumptions C146_first.
(** The second of two is chosen. *)
Definition second : nat -> num := fun n => if Nat.eqb n 4 || Nat.eqb n 13 then Fin 0 else Fin 1.
Example C146_not_vacuous :
  (let t := try2 product once 6 in let s := sched_of t in let w := world_of t in let c := cors_of t in
   living w c 0 fertile_male /\ ir_birth (fw_rest w) 0 = Some (Fin 0) /\ n_ltb (ip_life quick2) (since (Fin 0) s) = false /\
   meets a_role (ip_females quick2) s w = [3; 4] /\
   chosen (ip_mating quick2) second 12 (meets a_role (ip_females quick2) s w) = Some (13, 4)) /\
  (let t := try product zeros 2 in let s := sched_of t in let w := world_of t in let c := cors_of t in
   living w c 0 fertile_male /\ (rr_age (fw_rest w) 0 < p_life quick)%nat /\
   chosen (p_mating quick) (rr_draws (fw_rest w)) 0 (meets a_role (p_females quick) s w) = Some (0, 1)).
Proof.
  cbv zeta. split; (split; [is_living|]).
  - repeat split; vm_compute; reflexivity.
  - split; [apply Nat.ltb_lt; vm_compute; reflexivity|vm_compute; reflexivity].
Qed.

(** C147 for the basic example: [num_rabbits] is the number of nodes, [num_males] is the number of
    males among them, and the others are females. *)
Theorem C147_basic_partial :
  forall who p litter_of times s w c, reached who p litter_of times s w c ->
  let '(rabbits, males, females) := reports (fun a => class_of (who a)) s in
  rabbits = List.length (rr_nodes (fw_rest w)) /\ rabbits = males + females /\
  males = List.length (filter (fun a => match who a with Male => true | _ => false end) (rr_nodes (fw_rest w))).
Proof. exact reports_basic. Qed.
Print Assumptions C147_basic_partial.
Example C147_basic_not_vacuous :
  let t := try product zeros 4 in let s := sched_of t in
  reached a_role quick two product s (world_of t) (cors_of t) /\ reports (fun a => class_of (a_role a)) s = (3, 1, 2).
Proof. intros t s. split; [exact (try_reached product zeros 4)|vm_compute; reflexivity]. Qed.
(** C147 is false for the improved example: the reports count the rabbits of the basic one, of which
    there are none. *)
Theorem C147_always_zero_refuted :
  forall who s, reports (fun a => class2_of (who a)) s = (0, 0, 0).
Proof. exact reports_zero. Qed.
Print Assumptions C147_always_zero_refuted.
Example C147_not_vacuous :
  let t := try2 product once 7 in
  (ir_nodes (fw_rest (world_of t)), reports (fun a => class2_of (a_role a)) (sched_of t)) = ([0; 1; 3; 4; 5; 6], (0, 0, 0)).
Proof. vm_compute. reflexivity. Qed.
