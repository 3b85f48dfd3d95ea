(** C210 and C211: everyone gets a turn, at the rate asked for (soil/time.py:121-203). *)
From Coq Require Import ZArith List Bool Arith Lia.
From Verif Require Import Num TimedModel TimedSpec LockstepSpec TurnSpec TurnProofs.
Import ListNotations.

(** C210 is false: every agent adds another agent, which is due at once; the clock stays at 0, and agent 0, which is due at 1, never acts
    again. *)
Definition breeder : user unit := User unit (fun _ a w => (w, [SAdd (S a) None], Ret None)) (fun l w => (w, l)).
Theorem C210_no_turn_refuted : exists W (u : user W) di h w t a,
  forward_only u /\ never_fails u /\ n_ltb (Fin 0) di = true /\
  let '(s, w1, tr) := run_hist (AR := exact) u h (timed_init false di) w in
  no_exc tr /\ In (Fin t, a) (agenda (AR := exact) di [] tr) /\
  forall n, ~ In (Fin t, a) (acts (snd (run_hist (AR := exact) u (repeat CStep n) s w1))).
Proof.
  exists unit, breeder, (Fin 1), [CAdd 0 None; CStep], tt, 1%Z, 0.
  split; [intros s a w; exact I|]. split; [intros s a w; discriminate|]. split; [reflexivity|].
  destruct (run_hist (AR := exact) breeder [CAdd 0 None; CStep] (timed_init false (Fin 1)) tt) as [[s w1] tr] eqn:E.
  vm_compute in E. injection E as <- <- <-. split; [reflexivity|]. split; [vm_compute; auto|].
  assert (K : forall n k l st r, ~ In (Fin 1, 0) (acts (snd (run_hist (AR := exact) breeder (repeat CStep n)
                (Sched (Fin 0) st [(Fin 0, [k]); (Fin 1, l)] r false (Fin 1)) tt)))).
  { induction n as [|n IH]; intros k l st r; [cbn; auto|].
    assert (ST : exists r', timed_step (AR := exact) breeder (Sched (Fin 0) st [(Fin 0, [k]); (Fin 1, l)] r false (Fin 1)) tt =
              (Sched (Fin 0) (S st) [(Fin 0, [S k]); (Fin 1, l ++ [k])] r' false (Fin 1), tt,
               [EvAdd (Fin 0) (S k); EvAct (Fin 0) k (Ret None)], false)).
    { unfold timed_step, run_bucket, breeder, u_step, run_ops, run_op, timed_add, reg_add. cbn [s_queue s_reg s_time s_shuffle set_queue timed_schedule].
      destruct (existsb _ _); eexists; lazy; reflexivity. }
    destruct ST as (r' & ST). cbn [repeat run_hist run_cmd]. rewrite ST. specialize (IH (S k) (l ++ [k]) (S st) r').
    destruct (run_hist _ _ _ _) as [[s2 w2] tr2].
    cbn in *. intros [X|X]; [discriminate|]. exact (IH X). }
  intros n. apply K.
Qed.
Print Assumptions C210_no_turn_refuted.

(** C210, what holds: if agents do not add agents while they act, whoever has an appointment at [t] acts at [t], and after at most
    [t - now + 1] further steps (in ticks of the clock). *)
Theorem C210_everyone_gets_a_turn_partial : forall (AR : Arith) (HP : Precise AR) W (u : user W) sh di h w s w1 tr t a,
  forward_only u -> adds_none u -> never_fails u -> (sh = true -> fair_shuffle u) -> n_ltb (Fin 0) di = true ->
  run_hist u h (timed_init sh di) w = (s, w1, tr) -> no_exc tr -> In (Fin t, a) (agenda di [] tr) ->
  exists now n, s_time s = Fin now /\ (Z.of_nat n <= t - now + 1)%Z /\
    In (Fin t, a) (acts (snd (run_hist u (repeat CStep n) s w1))).
Proof. exact everyone_gets_a_turn. Qed.
Print Assumptions C210_everyone_gets_a_turn_partial.

(** Agent 0 acts every 2, agent 1 every 7, agent 2 once. *)
Definition pacers : user nat := User nat
  (fun _ a w => (S w, [], Ret (match a with 0 => Some (Fin 2) | 1 => Some (Fin 7) | _ => Some PInf end)))
  (fun l w => (w, rev l)).
Example C210_case :
  forward_only pacers /\ adds_none pacers /\ never_fails pacers /\ fair_shuffle pacers /\
  let '(s, w1, tr) := run_hist (AR := exact) pacers [CAdd 0 None; CAdd 1 None; CStep; CAdd 2 None] (timed_init true (Fin 1)) 0 in
  agenda (AR := exact) (Fin 1) [] tr = [(Fin 7, 1); (Fin 2, 0); (Fin 2, 2)] /\
  (In (Fin 7, 1) (acts (snd (run_hist (AR := exact) pacers (repeat CStep 4) s w1))) /\
   ~ In (Fin 7, 1) (acts (snd (run_hist (AR := exact) pacers (repeat CStep 3) s w1)))).
Proof.
  split; [intros s [|[|a]] w; reflexivity|]. split; [intros s a w; exact I || reflexivity || cbn; auto|].
  split; [intros s [|[|a]] w; discriminate|]. split; [intros l w; apply Permutation.Permutation_rev|].
  vm_compute. intuition discriminate.
Qed.

(** C211: an agent that is added once, at [t0], and always asks for the same delay [d] (or leaves it to the default interval) acts
    exactly at [t0], [t0 + d], [t0 + 2 d], ..., up to the clock, whatever the others do. *)
Theorem C211_steady_rate : forall W (u : user W) sh di h w s w1 tr a d t0,
  forward_only u -> (sh = true -> fair_shuffle u) -> nonneg di = true -> keeps_pace u di a d ->
  run_hist (AR := exact) u h (timed_init sh di) w = (s, w1, tr) -> no_exc tr ->
  adds_of a tr = 1 -> In (EvAdd (Fin t0) a) tr ->
  exists n, acts_of a tr = map (fun k => Fin (t0 + Z.of_nat k * d)) (seq 0 n) /\
    n_leb (s_time s) (Fin (t0 + Z.of_nat n * d)) = true /\
    (0 < n -> n_leb (Fin (t0 + (Z.of_nat n - 1) * d)) (s_time s) = true).
Proof. exact steady_rate. Qed.
Print Assumptions C211_steady_rate.

Example C211_case :
  keeps_pace pacers (Fin 1) 0 2 /\ keeps_pace pacers (Fin 1) 1 7 /\
  let '(s, _, tr) := run_hist (AR := exact) pacers ([CAdd 0 None; CStep; CAdd 1 None] ++ repeat CStep 9) (timed_init true (Fin 1)) 0 in
  no_exc tr /\ adds_of 0 tr = 1 /\ adds_of 1 tr = 1 /\ In (EvAdd (Fin 2) 1) tr /\
  acts_of 1 tr = [Fin 2; Fin 9; Fin 16]%Z /\ s_time s = Fin 18 /\ acts_of 0 tr = [Fin 0; Fin 2; Fin 4; Fin 6; Fin 8; Fin 10; Fin 12; Fin 14; Fin 16]%Z.
Proof. split; [split; [reflexivity|left; reflexivity]|]. split; [split; [reflexivity|left; reflexivity]|]. vm_compute. intuition. Qed.
