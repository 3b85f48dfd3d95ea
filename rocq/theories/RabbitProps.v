(** C127-C130: the rabbits of examples/rabbits/rabbits_basic_sim.py. *)
From Coq Require Import ZArith List Bool Arith String Permutation.
From Verif Require Import Num PyDict TimedModel AgentModel FsmModel RabbitModel RabbitSpec RabbitProofs.
Import ListNotations.
Local Open Scope string_scope.

(** Small families to try: rabbits grow up at one, meet at once (draws are 0, the chance to mate is 1),
    carry for no time and have two babies. *)
Definition a_role (a : aid) : role := match a with 0 => Male | 1 => Female | 2 => Accident | _ => Female end.
Definition quick : rparams := RParams 1 10 5 (Fin 1) 0 (Fin 1).
Definition two (x : num) : nat := 2.
Definition product (x : num) (n : nat) : num := match x with Fin z => Fin (z * Z.of_nat n) | _ => NaN end.
Definition in_order (l : list aid) (r : rrest) : rrest * list aid := (r, l).
Lemma in_order_fair : fair in_order.
Proof. intros l r. split; [apply Permutation_refl|]. exists (rr_draws r). destruct r. reflexivity. Qed.
Lemma a_role_family : a_family a_role.
Proof.
  repeat split. intros a H. destruct a as [|[|[|a]]]; cbn; try discriminate.
  exfalso. apply (Nat.lt_irrefl 2), H.
Qed.
#[local] Instance ints : Arith := exact.
Definition try (times : num -> nat -> num) (draws : nat -> num) (n : nat) :=
  rabbit_run a_role quick two times in_order true (Fin 1) draws n.
Definition names (w : fworld rfun rrest) (l : list aid) : list string :=
  map (fun a => match fa_cur (fw_agents w a) with Some st => st_name st | None => "" end) l.
Definition sched_of {X Y Z} (t : X * Y * Z) : X := fst (fst t).
Definition world_of {X Y Y' Z} (t : X * (Y * Y') * Z) : Y := fst (snd (fst t)).
Definition cors_of {X Y Y' Z} (t : X * (Y * Y') * Z) : Y' := snd (snd (fst t)).
Lemma try_reached times draws n : let t := try times draws n in
  reached a_role quick two times (sched_of t) (world_of t) (cors_of t).
Proof.
  intros t. exists _, in_order, true, (Fin 1), draws, n, (snd t).
  split; [exact a_role_family|]. split; [exact in_order_fair|].
  fold (try times draws n). fold t. destruct t as [[s [w c]] tr]. reflexivity.
Qed.
Definition zeros : nat -> num := fun _ => Fin 0.

(** C127: the scheduler has the agents that were created and live; those that are rabbits, and nobody
    else, have a node; links are between nodes.  So num_rabbits, which counts the rabbits of the
    schedule, is the number of nodes. *)
Theorem C127_network_of_the_living :
  forall who p litter_of times s w c, reached who p litter_of times s w c -> let r := fw_rest w in
  NoDup (rr_nodes r) /\ NoDup (s_reg s) /\
  (forall a, In a (rr_nodes r) <-> In a (s_reg s) /\ who a <> Accident) /\
  (forall a, In a (s_reg s) <-> created w a /\ alive w a) /\
  (forall x y, In (x, y) (rr_edges r) -> In x (rr_nodes r) /\ In y (rr_nodes r)) /\
  List.length (filter (fun a => match who a with Accident => false | _ => true end) (s_reg s)) = List.length (rr_nodes r).
Proof. exact network_of_the_living. Qed.
Print Assumptions C127_network_of_the_living.
(** A birth: the child has a node and links to both parents. *)
Example C127_not_vacuous :
  let t := try product zeros 4 in let s := sched_of t in let w := world_of t in let c := cors_of t in
  reached a_role quick two product s w c /\
  (s_reg s, rr_nodes (fw_rest w), rr_edges (fw_rest w)) = ([0; 1; 2; 3], [0; 1; 3], [(0, 1); (3, 1); (3, 0)]).
Proof. intros t s w c. split; [exact (try_reached product zeros 4)|vm_compute; reflexivity]. Qed.

(** C128 is false: if the father lives, the birth of the first child raises.  The child is in the
    network and in the schedule, but there are no other children, nobody has got any offspring, and
    the mother remains pregnant. *)
Theorem C128_birth_raises_refuted :
  forall who p litter_of times fs s w c a m, reached who p litter_of times s w c ->
  In a (s_reg s) -> in_state "pregnant" w a -> get_co c a = None ->
  (S (rr_age (fw_rest w) a) < p_life p)%nat ->
  rr_pregnancy (fw_rest w) a = Z.of_nat (p_gestation p) -> (0 < rr_litter (fw_rest w) a)%nat ->
  rr_mate (fw_rest w) a = Some m -> alive w m ->
  exists w' c', agent_step (rabbit_code who p litter_of times) fs s a (w, c) =
    (w', c', [SAdd (rr_next (fw_rest w)) None], Exc) /\
  rr_nodes (fw_rest w') = (rr_nodes (fw_rest w) ++ [rr_next (fw_rest w)])%list /\
  rr_offspring (fw_rest w') = rr_offspring (fw_rest w) /\
  rr_pregnancy (fw_rest w') = rr_pregnancy (fw_rest w) /\ in_state "pregnant" w' a.
Proof. exact no_litter. Qed.
Print Assumptions C128_birth_raises_refuted.
(** So it goes for the first birth of all. *)
Example C128_not_vacuous :
  let t := try product zeros 3 in let s := sched_of t in let w := world_of t in let c := cors_of t in
  reached a_role quick two product s w c /\ In 1 (s_reg s) /\ in_state "pregnant" w 1 /\ get_co c 1 = None /\
  (S (rr_age (fw_rest w) 1) < p_life quick)%nat /\
  rr_pregnancy (fw_rest w) 1 = Z.of_nat (p_gestation quick) /\ (0 < rr_litter (fw_rest w) 1)%nat /\
  rr_mate (fw_rest w) 1 = Some 0 /\ alive w 0 /\
  last (snd (try product zeros 4)) (EvAdd NaN 0) = EvAct (Fin 3) 1 Exc.
Proof.
  intros t s w c. split; [exact (try_reached product zeros 3)|]. split; [vm_compute; auto|].
  split; [exists pregnant; vm_compute; auto|]. split; [vm_compute; reflexivity|].
  split; [apply Nat.leb_le; vm_compute; reflexivity|]. split; [vm_compute; reflexivity|].
  split; [apply Nat.leb_le; vm_compute; reflexivity|].
  split; [vm_compute; reflexivity|]. split; vm_compute; reflexivity.
Qed.

(** C128 for the children of a dead father: all of them are born, linked to their mother, who has them
    as her offspring and may mate again.  Births with a father that lives are missing. *)
Theorem C128_orphans_partial :
  forall who p litter_of times fs s w c a m, reached who p litter_of times s w c ->
  In a (s_reg s) -> in_state "pregnant" w a -> get_co c a = None ->
  (S (rr_age (fw_rest w) a) < p_life p)%nat ->
  rr_pregnancy (fw_rest w) a = Z.of_nat (p_gestation p) ->
  rr_mate (fw_rest w) a = Some m -> ~ alive w m ->
  let children := seq (rr_next (fw_rest w)) (rr_litter (fw_rest w) a) in
  exists w' c', agent_step (rabbit_code who p litter_of times) fs s a (w, c) =
    (w', c', map (fun x => SAdd x None) children, Ret None) /\
  rr_nodes (fw_rest w') = (rr_nodes (fw_rest w) ++ children)%list /\
  rr_edges (fw_rest w') = (rr_edges (fw_rest w) ++ map (fun x => (x, a)) children)%list /\
  rr_offspring (fw_rest w') a = rr_offspring (fw_rest w) a + rr_litter (fw_rest w) a /\
  (forall b, b <> a -> rr_offspring (fw_rest w') b = rr_offspring (fw_rest w) b) /\
  rr_pregnancy (fw_rest w') a = (-1)%Z /\ in_state "fertile" w' a.
Proof. exact orphans. Qed.
Print Assumptions C128_orphans_partial.
(** A father that dies in an accident (of two rabbits none has accidents unless [times] says so). *)
Definition unlucky : nat -> num := fun n => if Nat.eqb n 4 || Nat.eqb n 6 then Fin 0 else Fin 1.
Definition always (x : num) (n : nat) : num := x.
Example C128_orphans_not_vacuous :
  let t := try always unlucky 3 in let s := sched_of t in let w := world_of t in let c := cors_of t in
  reached a_role quick two always s w c /\ In 1 (s_reg s) /\ in_state "pregnant" w 1 /\ get_co c 1 = None /\
  (S (rr_age (fw_rest w) 1) < p_life quick)%nat /\
  rr_pregnancy (fw_rest w) 1 = Z.of_nat (p_gestation quick) /\
  rr_mate (fw_rest w) 1 = Some 0 /\ ~ alive w 0 /\ rr_litter (fw_rest w) 1 = 2.
Proof.
  intros t s w c. split; [exact (try_reached always unlucky 3)|]. split; [vm_compute; auto|].
  split; [exists pregnant; vm_compute; auto|]. split; [vm_compute; reflexivity|].
  split; [apply Nat.leb_le; vm_compute; reflexivity|]. split; [vm_compute; reflexivity|].
  split; [vm_compute; reflexivity|]. split; [vm_compute; discriminate|vm_compute; reflexivity].
Qed.

(** C129: rabbits have one of five states; they do not get older than their life expectancy (or their
    maturity) and one more; younglings are younger than the maturity; the pregnant are females that
    have met a male, for no longer than the gestation. *)
Theorem C129_lives :
  forall who p litter_of times s w c, reached who p litter_of times s w c ->
  forall a, created w a -> who a <> Accident -> let r := fw_rest w in
  (exists n, In n ["newborn"; "youngling"; "fertile"; "pregnant"; "dead"] /\ in_state n w a) /\
  (rr_age r a <= S (Nat.max 1 (Nat.max (p_maturity p) (p_life p))))%nat /\
  (in_state "youngling" w a -> rr_age r a = 0 \/ (rr_age r a < p_maturity p)%nat) /\
  (in_state "pregnant" w a -> (rr_age r a <= p_life p)%nat) /\
  (in_state "pregnant" w a -> who a = Female /\ (0 <= rr_pregnancy r a <= Z.of_nat (p_gestation p))%Z /\
     exists m, rr_mate r a = Some m /\ who m = Male /\ created w m).
Proof. exact rabbit_lives. Qed.
Print Assumptions C129_lives.
(** C129: an activation makes the rabbit older by one, and no other. *)
Theorem C129_aging :
  forall who p litter_of times fs s w c w' c' l o a, reached who p litter_of times s w c ->
  In a (s_reg s) -> get_co c a = None ->
  in_state "youngling" w a \/ in_state "fertile" w a \/ in_state "pregnant" w a ->
  agent_step (rabbit_code who p litter_of times) fs s a (w, c) = (w', c', l, o) ->
  rr_age (fw_rest w') a = S (rr_age (fw_rest w) a) /\
  forall b, b <> a -> rr_age (fw_rest w') b = rr_age (fw_rest w) b.
Proof. exact aging. Qed.
Print Assumptions C129_aging.
(** Two rabbits that grow up; and no births if nobody mates: they die of age. *)
Definition alone : rparams := RParams 2 4 5 (Fin 0) 0 (Fin 1).
Example C129_not_vacuous :
  (let t := try product zeros 2 in let s := sched_of t in let w := world_of t in let c := cors_of t in
   reached a_role quick two product s w c /\ created w 1 /\ a_role 1 <> Accident /\
   In 1 (s_reg s) /\ get_co c 1 = None /\ in_state "fertile" w 1) /\
  map (fun n => let '(s, (w, c), _) := rabbit_run a_role alone two product in_order true (Fin 1) zeros n in
         (s_reg s, names w [0; 1], map (rr_age (fw_rest w)) [0; 1])) [0; 1; 2; 3; 4; 5; 6; 7; 8] =
  [([0; 1; 2], ["newborn"; "newborn"], [0; 0]); ([0; 1; 2], ["youngling"; "youngling"], [0; 0]);
   ([0; 1; 2], ["youngling"; "youngling"], [1; 1]); ([0; 1; 2], ["fertile"; "fertile"], [2; 2]);
   ([0; 1; 2], ["fertile"; "fertile"], [3; 3]); ([0; 1; 2], ["fertile"; "fertile"], [4; 4]);
   ([0; 1; 2], ["dead"; "dead"], [5; 5]); ([], ["dead"; "dead"], [5; 5]); ([], ["dead"; "dead"], [5; 5])].
Proof.
  split; [|vm_compute; reflexivity]. intros t s w c. split; [exact (try_reached product zeros 2)|].
  split; [apply Nat.leb_le; vm_compute; reflexivity|]. split; [discriminate|]. split; [vm_compute; auto|].
  split; [vm_compute; reflexivity|]. exists fertile_female. vm_compute. auto.
Qed.

(** C130 is false: the risk is multiplied by the rounded logarithm of the number of rabbits, so that
    fewer than ten rabbits have no accidents, even if prob_death is 1. *)
Theorem C130_no_accidents_refuted :
  forall who p litter_of times fs s w c, reached who p litter_of times s w c -> get_co c 2 = None ->
  (forall x, times x 0 = Fin 0) -> (forall n, nonneg (rr_draws (fw_rest w) n) = true) ->
  (0 < List.length (rr_nodes (fw_rest w)) < 10)%nat ->
  exists w' c', agent_step (rabbit_code who p litter_of times) fs s 2 (w, c) = (w', c', [], Ret None) /\
  (forall b, alive w' b <-> alive w b) /\ forall b, In b (rr_nodes (fw_rest w')) <-> In b (rr_nodes (fw_rest w)).
Proof. exact few_rabbits. Qed.
Print Assumptions C130_no_accidents_refuted.
Definition certain : num -> nat -> num := fun x n => match n with 0 => Fin 0 | _ => x end.
Example C130_not_vacuous :
  let t := try certain zeros 1 in let s := sched_of t in let w := world_of t in let c := cors_of t in
  p_death quick = Fin 1 /\ reached a_role quick two certain s w c /\ get_co c 2 = None /\
  (forall x, certain x 0 = Fin 0) /\ (forall n, nonneg (rr_draws (fw_rest w) n) = true) /\
  List.length (rr_nodes (fw_rest w)) = 2.
Proof.
  intros t s w c. split; [reflexivity|]. split; [exact (try_reached certain zeros 1)|]. split; [vm_compute; reflexivity|].
  split; [reflexivity|]. split; [|vm_compute; reflexivity]. intros n.
  replace (rr_draws (fw_rest w) n) with (Fin 0) by (vm_compute; reflexivity). reflexivity.
Qed.
(** C130 with the risk as it is, for 10^k rabbits or more: the victims are the rabbits in the schedule,
    except those in the state "dead", whose draws are below the risk; they die and lose their nodes;
    nothing happens to the others.  The risk is prob_death only if [times p 1 = p] and k is 1. *)
Theorem C130_victims_partial :
  forall who p litter_of times fs s w c k, reached who p litter_of times s w c -> get_co c 2 = None ->
  (10 ^ k <= List.length (rr_nodes (fw_rest w)) < 10 ^ S k)%nat ->
  let dying := victims (times (p_death p) k) (rr_draws (fw_rest w)) (at_risk who s w) in
  exists w' c', agent_step (rabbit_code who p litter_of times) fs s 2 (w, c) = (w', c', map SRem dying, Ret None) /\
  (forall b, alive w' b <-> alive w b /\ ~ In b dying) /\
  (forall b, In b (rr_nodes (fw_rest w')) <-> In b (rr_nodes (fw_rest w)) /\ ~ In b dying) /\
  (forall b n, in_state n w' b <-> in_state n w b) /\ rr_age (fw_rest w') = rr_age (fw_rest w).
Proof. exact exact_accidents. Qed.
Print Assumptions C130_victims_partial.
(** One of two dies (with a [times] that does not give 0). *)
Example C130_victims_not_vacuous :
  let t := try always (fun n => if Nat.eqb n 2 then Fin 0 else Fin 1) 1 in let s := sched_of t in let w := world_of t in let c := cors_of t in
  reached a_role quick two always s w c /\ get_co c 2 = None /\
  List.length (rr_nodes (fw_rest w)) = 2 /\ at_risk a_role s w = [0; 1] /\
  victims (always (p_death quick) 0) (rr_draws (fw_rest w)) (at_risk a_role s w) = [0].
Proof. intros t s w c. split; [exact (try_reached always _ 1)|]. repeat (split; [vm_compute; reflexivity|]). vm_compute. reflexivity. Qed.
