(** C272: agents that leave their first state for good. *)
From Coq Require Import ZArith List Bool Arith String Lia Permutation.
From Verif Require Import Num PyDict TimedModel TimedSpec AgentModel FsmModel TutorSpec ResumeProofs DecorModel DecorSpec DecorProofs.
Import ListNotations.
Local Open Scope nat_scope.
Local Open Scope list_scope.

(** C272: however the steps of the agents are called, an agent is in the state with the given name until its first step, and in the other one from then
    on, where it counts all its steps but the first. *)
Theorem C272_steps : forall (R : Type) (g : R) l a,
  exists i n, decor_id (decor_steps l (decor_world g)) a = Some i /\ times_run (decor_steps l (decor_world g)) a = n /\
  settled (List.length (filter (fun b => Nat.eqb b a) (map snd l))) i n.
Proof.
  intros R g l a. apply well_settled.
  pose proof (steps_all l [] (decor_world g) (begins g) a) as H. cbn [app] in H.
  replace (List.length (filter (fun b => Nat.eqb b a) (map snd l))) with (count_occ Nat.eq_dec (map snd l) a); [exact H|].
  clear. induction (map snd l) as [|b m IH]; auto. cbn. destruct (Nat.eq_dec b a) as [->|N]; [rewrite Nat.eqb_refl; cbn; now rewrite IH|].
  apply Nat.eqb_neq in N. now rewrite N.
Qed.
Print Assumptions C272_steps.
(** C272: the same in any run of a model, at any moment. *)
Theorem C272_runs : forall (AR : Arith) (R : Type) (shuffle : list aid -> R -> R * list aid) sh di h g s x tr a,
  (forall f, ~ In (CWorld f) h) -> run_hist (decor_user shuffle) h (timed_init sh di) (decor_world g) = (s, x, tr) ->
  exists i n, decor_id x a = Some i /\ times_run x a = n /\ settled (List.length (instants a tr)) i n.
Proof.
  intros AR R shuffle sh di h g s x tr a Ho Q. apply well_settled. rewrite <- count_instants. now apply (decor_hist shuffle sh di h g s x tr).
Qed.
Print Assumptions C272_runs.
(** C272: an agent that is added once is activated then and at each default interval. *)
Theorem C272_every_interval : forall (R : Type) (shuffle : list aid -> R -> R * list aid) sh di h g s x tr a t0,
  (forall l g, Permutation l (snd (shuffle l g))) -> (forall f, ~ In (CWorld f) h) -> (0 <= di)%Z ->
  @run_hist exact _ (decor_user shuffle) h (timed_init sh (Fin di)) (decor_world g) = (s, x, tr) ->
  adds_of a tr = 1 -> In (EvAdd (Fin t0) a) tr ->
  let n := List.length (instants a tr) in
  instants a tr = map (fun k => Fin (t0 + Z.of_nat k * di)) (seq 0 n) /\ n_leb (s_time s) (Fin (t0 + Z.of_nat n * di)) = true.
Proof. intros R. exact decor_times. Qed.
Print Assumptions C272_every_interval.

Section Cases.
#[local] Existing Instance exact.
(** The agent of the test, and another one whose steps are not called: times_run is 0, 1 and 2 after one, two and three steps; and a run. *)
Example C272_case :
  let s := timed_init false (Fin 1) in
  let x k := decor_steps (repeat (s, 1) k) (decor_world tt) in
  map (fun k => (times_run (x k) 1, decor_id (x k) 1)) [0; 1; 2; 3] =
    [(0, Some "original"); (0, Some "other"); (1, Some "other"); (2, Some "other")]%string /\
  (times_run (x 3) 2, decor_id (x 3) 2) = (0, Some "original")%string /\ settled 3 "other" 2 /\
  (let '(s, x, tr) := run_hist (decor_user (fun l g => (g, l))) [CAdd 1 None; CStep; CStep; CAdd 2 None; CStep; CStep] (timed_init true (Fin 3)) (decor_world tt) in
   (times_run x 1, times_run x 2) = (3, 1) /\ s_time s = Fin 12 /\ instants 2 tr = [Fin 6; Fin 9] /\ adds_of 2 tr = 1 /\ In (EvAdd (Fin 6) 2) tr).
Proof. vm_compute. repeat (split; [first [reflexivity|constructor]|]). tauto. Qed.
End Cases.
