(** C273: agents that count the neighbours that are in the same state. *)
From Coq Require Import ZArith List Bool Arith String Lia Permutation.
From Verif Require Import Num PyDict TimedModel TimedSpec AgentModel FsmModel TutorSpec TutorProofs ResumeProofs NormalModel NormalSpec NormalProofs.
Import ListNotations.
Local Open Scope nat_scope.
Local Open Scope list_scope.

(** C273: in any run of a model with these agents, each agent stays in its state, and the attribute [neighbors] of a normal agent that has been activated
    is the number of its neighbours that are normal; the others do not have the attribute. *)
Theorem C273_neighbours :
  forall (AR : Arith) (R : Type) (shuffle : list aid -> R -> R * list aid) nbrs given ids sh di n g s w c tr,
  NoDup ids -> (forall a, known (given a)) ->
  run_hist (custom_user shuffle) (map (fun a => CAdd a None) ids ++ repeat CStep n) (timed_init sh di) (custom_world nbrs given g) = (s, (w, c), tr) ->
  forall a,
  (normal (given a) -> custom_id w a = Some "normal"%string) /\ (~ normal (given a) -> custom_id w a = Some "unreachable"%string) /\
  (normal (given a) -> instants a tr <> [] -> forall l, normal_neighbours ids nbrs given a l -> u_neighbors (fw_rest w) a = Some (List.length l)) /\
  (~ normal (given a) \/ instants a tr = [] -> u_neighbors (fw_rest w) a = None).
Proof.
  intros AR R shuffle nbrs given ids sh di n g s w c tr ND KN Q a.
  destruct (custom_run shuffle nbrs given ids KN sh di n g s (w, c) tr ND Q) as [[_ ST] T]. destruct (ST a) as [A _]. specialize (T a). cbn [fst] in A, T.
  assert (NN : isn given a = false <-> ~ normal (given a)) by (rewrite <- isn_normal; now destruct (isn given a)).
  assert (AC : existsb (Nat.eqb a) (who tr) = true <-> instants a tr <> []).
  { rewrite existsb_exists. split.
    - intros (b & I & EQ). apply Nat.eqb_eq in EQ. subst b. apply (count_occ_In Nat.eq_dec) in I. rewrite count_instants in I. now destruct (instants a tr).
    - intros NE. exists a. split; [|apply Nat.eqb_refl]. apply (count_occ_In Nat.eq_dec). rewrite count_instants. destruct (instants a tr); [easy|cbn; lia]. }
  unfold custom_id. rewrite A. split; [|split; [|split]].
  - intros N. apply isn_normal in N. now rewrite N.
  - intros N. apply NN in N. now rewrite N.
  - intros N NE l NB. apply isn_normal in N. apply AC in NE. rewrite T, N, NE. cbn. f_equal. now apply near_all.
  - intros [N|N]; rewrite T; [apply NN in N; now rewrite N|]. destruct (existsb (Nat.eqb a) (who tr)); [|now rewrite andb_false_r].
    now destruct (proj1 AC eq_refl).
Qed.
Print Assumptions C273_neighbours.
(** C273: the first step is enough: whatever comes after it, all normal agents have the number of their normal neighbours. *)
Theorem C273_one_step :
  forall (AR : Arith) (R : Type) (shuffle : list aid -> R -> R * list aid) nbrs given ids sh di n g s w c tr,
  NoDup ids -> (forall a, known (given a)) -> (forall l g, Permutation l (snd (shuffle l g))) ->
  run_hist (custom_user shuffle) (map (fun a => CAdd a None) ids ++ repeat CStep (S n)) (timed_init sh di) (custom_world nbrs given g) = (s, (w, c), tr) ->
  forall a l, In a ids -> normal (given a) -> normal_neighbours ids nbrs given a l -> u_neighbors (fw_rest w) a = Some (List.length l).
Proof.
  intros AR R shuffle nbrs given ids sh di n g s w c tr ND KN P Q a l I N NB.
  destruct (C273_neighbours AR R shuffle nbrs given ids sh di (S n) g s w c tr ND KN Q a) as (_ & _ & H & _). apply H; auto.
  pose proof (first_step shuffle nbrs given ids KN sh di n g s (w, c) tr a ND P Q I) as J. apply (count_occ_In Nat.eq_dec) in J.
  rewrite count_instants in J. now destruct (instants a tr).
Qed.
Print Assumptions C273_one_step.
(** The two agents of tests/test.gexf and two more, one of them unreachable and linked to all. *)
Definition four_nbrs (a : aid) : list aid := match a with 0 => [1; 3] | 1 => [0; 3] | 2 => [3] | _ => [0; 1; 2] end.
Definition four_given (a : aid) : option string := match a with 3 => Some "unreachable"%string | _ => None end.
Example C273_case :
  (let '(_, (w, _), tr) := @run_hist exact _ (custom_user (fun l g => (g, l))) (map (fun a => CAdd a None) [0; 1; 2; 3] ++ repeat CStep 2)
     (timed_init true (Fin 1)) (custom_world four_nbrs four_given tt) in
   (map (u_neighbors (fw_rest w)) [0; 1; 2; 3; 4], map (custom_id w) [0; 3], instants 0 tr)) =
  ([Some 1; Some 1; Some 0; None; None], [Some "normal"; Some "unreachable"]%string, [Fin 0; Fin 1]).
Proof. vm_compute. reflexivity. Qed.
Example C273_hypotheses : normal_neighbours [0; 1; 2; 3] four_nbrs four_given 0 [1] /\ forall a, known (four_given a).
Proof.
  split.
  - split; [repeat constructor; cbn; tauto|]. intros b. cbn [four_nbrs In]. unfold normal. split.
    + intros [<-|[]]. cbn. intuition discriminate.
    + intros (_ & [<-|[<-|[]]] & N); auto.
  - intros a. unfold known. destruct a as [|[|[|[|a]]]]; cbn; auto.
Qed.
