(** Theorems about [schedule.agents], removed agents, the default interval
    and exceptions: properties C106-C109. *)
From Coq Require Import ZArith List Bool Arith Permutation.
From Verif Require Import Num TimedModel TimedSpec TimedProps PQueueModel PQueueSpec PQueueProps.
From Verif Require Import LockstepModel RegSpec RegProofs FailProofs.
Import ListNotations.
#[local] Existing Instance exact | 100.

(** C106.  After any history, the registered agents are those whose last call was [add],
    once each, whoever made the calls.  The calls are written down by [recording] and
    [noted], which change nothing else. *)
Theorem C106_registered_agents :
  forall {AR : Arith} W (u : user W) sh di h w s' w' calls tr,
  run_hist (recording u) (noted h) (timed_init sh di) (w, []) = (s', (w', calls), tr) ->
  run_hist u h (timed_init sh di) w = (s', w', tr) /\
  NoDup (s_reg s') /\ forall a, In a (s_reg s') <-> registered a calls false = true.
Proof. intros AR W u. exact (registry_hist u). Qed.
Print Assumptions C106_registered_agents.

Example C106_not_vacuous :
  run_hist (recording demo) (noted demo_hist) (timed_init true (Fin 1)) (false, []) =
  (fst (fst demo_run),
   (true, [SAdd 0 None; SAdd 1 None; SAdd 2 None; SAdd 3 (Some (Fin 7)); SRem 1]),
   snd demo_run) /\ s_reg (fst (fst demo_run)) = [0; 2; 3].
Proof. vm_compute. auto. Qed.

(** C106 for the other scheduler, call by call: additions (those that raise register
    nobody), removals, and steps that do not raise. *)
Theorem C106_pqueue_registered_agents :
  forall {AR : Arith} W (u : puser W),
  (forall s w a when s' w' x, pq_add u s w a when = (s', w', x) ->
     (NoDup (p_reg s) -> NoDup (p_reg s')) /\
     forall b, In b (p_reg s') <-> In b (p_reg s) \/ (b = a /\ x = false)) /\
  (forall fuel s w a, exists s', pq_cmd u fuel s w (CRem a) = Some (s', w, []) /\
     (NoDup (p_reg s) -> NoDup (p_reg s')) /\
     forall b, In b (p_reg s') <-> In b (p_reg s) /\ b <> a) /\
  (forall fuel s w s' w' calls tr,
     pq_step (p_recording u) fuel s (w, []) = Some (s', (w', calls), tr, false) ->
     pq_step u fuel s w = Some (s', w', tr, false) /\
     (NoDup (p_reg s) -> NoDup (p_reg s')) /\
     forall a, In a (p_reg s') <->
       registered a calls (if in_dec Nat.eq_dec a (p_reg s) then true else false) = true).
Proof.
  intros AR W u. split; [|split].
  - exact (pq_add_effect u).
  - intros fuel s w a. exists (preg_rem s a). split; [reflexivity|]. exact (preg_rem_effect s a).
  - intros fuel s w s' w' calls tr H. destruct (pq_step_reg u fuel s w s' w' calls tr H) as (E & N & R).
    split; auto. split; auto. intros a. rewrite R.
    assert (Q : existsb (Nat.eqb a) (p_reg s) = if in_dec Nat.eq_dec a (p_reg s) then true else false).
    { destruct (in_dec Nat.eq_dec a (p_reg s)) as [I|I].
      - now apply existsb_nat.
      - destruct (existsb _ _) eqn:X; auto. apply existsb_nat in X. contradiction. }
    now rewrite Q.
Qed.
Print Assumptions C106_pqueue_registered_agents.

(** Agent 0 adds agent 7 and removes itself. *)
Definition adder : puser unit := PUser unit
  (fun s a w => (w, if Nat.eqb a 0 then [SAdd 7 None; SRem 0] else [], Ret (Some (Fin 1))))
  (fun w => (w, 0%Z)).

Example C106_pqueue_not_vacuous :
  match pq_hist adder 5 (add_all [0; 3]) (pq_init false (Fin 1)) tt with
  | Some (s, w, _) =>
      match pq_step (p_recording adder) 9 s (w, []) with
      | Some (s', (_, calls), _, x) =>
          x = false /\ p_reg s = [0; 3] /\ calls = [SAdd 7 None; SRem 0] /\ p_reg s' = [3; 7]
      | None => False
      end
  | None => False
  end.
Proof. vm_compute. auto. Qed.

(** C107 is false: an agent that was removed from the schedule acts at the next step,
    with both schedulers. *)
Theorem C107_removed_agents_act_refuted :
  (exists W (u : user W) di h1 h2 w a,
     forward_only u /\ n_ltb (Fin 0) di = true /\
     (forall when, ~ In (CAdd a when) h2) /\ (forall s b w, snd (fst (u_step u s b w)) = []) /\
     let '(s1, w1, _) := run_hist u (h1 ++ [CRem a]) (timed_init false di) w in
     ~ In a (s_reg s1) /\ exists t, In (t, a) (acts (snd (run_hist u h2 s1 w1)))) /\
  (exists W (u : puser W) fuel di h1 h2 w a,
     p_forward_only u /\ p_adds_nobody u /\ n_ltb (Fin 0) di = true /\ adds_nobody h2 /\
     exists s1 w1 tr1 s2 w2 tr2,
     pq_hist u fuel (h1 ++ [CRem a]) (pq_init false di) w = Some (s1, w1, tr1) /\
     ~ In a (p_reg s1) /\
     pq_hist u fuel h2 s1 w1 = Some (s2, w2, tr2) /\
     exists t, In (t, a) (acts tr2)).
Proof.
  split.
  - exists unit, (User unit (fun _ _ w => (w, [], Ret None)) (fun l w => (w, l))),
      (Fin 1), [CAdd 4 None], [CStep], tt, 4.
    split; [intros s a w; reflexivity|]. split; [reflexivity|].
    split; [intros when [H|[]]; discriminate|]. split; [reflexivity|].
    vm_compute. split; [tauto|]. exists (Fin 0). auto.
  - exists unit, (PUser unit (fun _ _ w => (w, [], Ret None)) (fun w => (w, 0%Z))),
      5, (Fin 1), [CAdd 4 None], [CStep], tt, 4.
    split; [intros s a w; reflexivity|]. split; [intros s a w; reflexivity|].
    split; [reflexivity|]. split; [reflexivity|].
    do 6 eexists. split; [vm_compute; reflexivity|]. split; [vm_compute; tauto|].
    split; [vm_compute; reflexivity|]. exists (Fin 0). vm_compute. auto.
Qed.
Print Assumptions C107_removed_agents_act_refuted.

(** C107, what holds instead: the removals that the owner of the model asks for make no
    difference to who acts and when (unless somebody looks at the registry). *)
Theorem C107_removals_are_ignored_partial :
  forall {AR : Arith} W (u : user W), ignores_registry u ->
  forall sh di h w s1 w1 tr, run_hist u h (timed_init sh di) w = (s1, w1, tr) ->
  exists s2, run_hist u (without_removals h) (timed_init sh di) w = (s2, w1, tr) /\
    s_time s2 = s_time s1 /\ s_steps s2 = s_steps s1.
Proof. intros AR W u B. exact (removals_ignored_init u B). Qed.
Print Assumptions C107_removals_are_ignored_partial.

Example C107_not_vacuous :
  ignores_registry demo /\ In (CRem 1) demo_hist /\ ~ In (CRem 1) (without_removals demo_hist).
Proof.
  split; [|split].
  - intros s s' [|[|[|a]]] w; reflexivity.
  - cbn. tauto.
  - intros H. apply filter_In in H as [_ H]. discriminate.
Qed.

(** C108 is false: a model whose class has the attribute [default_interval] cannot be
    created unless it has another one, and the parameter has no effect. *)
Theorem C108_default_interval_refuted :
  forall one d,
  env_interval one (Some d) None None None = None /\
  (forall e, env_interval one None None (Some d) e = Some (one, Some d)) /\
  exists i, i <> d /\ env_interval one (Some d) (Some i) None None = Some (i, Some d).
Proof.
  intros one d. split; [reflexivity|]. split; [reflexivity|].
  destruct d as [z| | |]; [exists (Fin (z + 1))|exists NaN|exists NaN|exists (Fin 0)];
    (split; [|reflexivity]); try discriminate.
  intros [= E]. apply (Z.neq_succ_diag_l z). rewrite <- Z.add_1_r. exact E.
Qed.
Print Assumptions C108_default_interval_refuted.

(** C108, what holds instead: only attributes of the class count; without
    [default_interval] the interval is 1, and with it, it is [interval]. *)
Theorem C108_interval_partial :
  forall one c_default c_interval p_default p_interval i m,
  env_interval one c_default c_interval p_default p_interval = Some (i, m) ->
  (c_default = None -> i = one) /\
  (c_default <> None -> c_interval = Some i).
Proof.
  intros one [d|] ci pd pi i m; cbn.
  - destruct ci; [|discriminate]. intros [= <- <-]. split; [discriminate|auto].
  - intros [= <- <-]. split; [auto|congruence].
Qed.
Print Assumptions C108_interval_partial.

Example C108_not_vacuous :
  env_interval (Fin 1) (Some (Fin 5)) (Some (Fin 5)) (Some (Fin 7)) None =
  Some (Fin 5, Some (Fin 7)).
Proof. reflexivity. Qed.

(** C109.  A step raises exactly when an agent does: at once, without activating anybody
    else, and neither the clock nor the number of steps change. *)
Theorem C109_exceptions_reach_the_caller :
  forall {AR : Arith} W (u : user W),
  (forall s w s' w' tr x, timed_step u s w = (s', w', tr, x) ->
     if x then fails_last tr /\ s_steps s' = s_steps s /\ s_time s' = s_time s
     else no_exc tr) /\
  (forall fuel l w l' w' tr x, lock_step u fuel l w = Some (l', w', tr, x) ->
     l_interval l' = l_interval l /\
     if x then fails_last tr /\ l_time l' = l_time l /\ l_steps l' = l_steps l
     else no_exc tr /\ l_time l' = n_add (l_time l) (l_interval l) /\
          l_steps l' = S (l_steps l)).
Proof.
  intros AR W u. split.
  - intros s w s' w' tr x H. apply timed_step_ended in H as (E & K).
    destruct x; [split; [exact E|auto]|exact E].
  - intros fuel l w l' w' tr x H. apply lock_step_ended in H as (E & K & I).
    split; auto. destruct x; split; auto.
Qed.
Print Assumptions C109_exceptions_reach_the_caller.

Theorem C109_pqueue_exceptions_reach_the_caller :
  forall {AR : Arith} W (u : puser W), p_adds_nobody u ->
  forall fuel s w s' w' tr x, pq_step u fuel s w = Some (s', w', tr, x) ->
  if x then fails_last tr /\ p_steps s' = p_steps s /\ p_time s' = p_time s
  else no_exc tr.
Proof.
  intros AR W u A fuel s w s' w' tr x H. apply (pq_step_ended u A) in H as (E & K).
  destruct x; [split; [exact E|auto]|exact E].
Qed.
Print Assumptions C109_pqueue_exceptions_reach_the_caller.

(** The second of three agents fails. *)
Example C109_not_vacuous :
  let u := User unit (fun _ a w => (w, [], if Nat.eqb a 1 then Exc else Ret None))
                (fun l w => (w, l)) in
  let '(s, w, _) := run_hist u [CAdd 0 None; CAdd 1 None; CAdd 2 None] (timed_init false (Fin 1)) tt in
  (let '(_, _, tr, x) := timed_step u s w in
   x = true /\ tr = [EvAct (Fin 0) 0 (Ret None); EvAct (Fin 0) 1 Exc]) /\
  match lock_step u 9 (lock_init s (Fin 4)) w with
  | Some (l, _, tr, x) =>
      x = true /\ l_time l = Fin 0 /\ tr = [EvAct (Fin 0) 0 (Ret None); EvAct (Fin 0) 1 Exc]
  | None => False
  end.
Proof. vm_compute. auto 10. Qed.

Example C109_pqueue_not_vacuous :
  let u := PUser unit (fun _ a w => (w, [], if Nat.eqb a 1 then Exc else Ret None))
                 (fun w => (w, 0%Z)) in
  p_adds_nobody u /\
  match pq_hist u 5 (add_all [0; 1; 2]) (pq_init false (Fin 1)) tt with
  | Some (s, w, _) =>
      match pq_step u 9 s w with
      | Some (s', _, tr, x) =>
          x = true /\ tr = [EvAct (Fin 0) 0 (Ret None); EvAct (Fin 0) 1 Exc]
      | None => False
      end
  | None => False
  end.
Proof. split; [intros s a w; reflexivity|]. vm_compute. auto. Qed.
