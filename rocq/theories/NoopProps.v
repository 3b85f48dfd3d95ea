(** C186: the benchmarks of benchmarks/noop. *)
From Coq Require Import ZArith List Bool Arith Permutation Lia.
From Verif Require Import Num TimedModel PQueueModel Binary64Model Binary64Proofs NoopModel NoopSpec NoopProofs.
Import ListNotations.
Local Open Scope nat_scope.

(** C186.  After [k] steps of a model with [n] agents each of them has been called [k] times, however the step is written: what
    benchmarks/noop/_config.py:20-25 asserts. *)
Theorem C186_everyone_is_called_in_each_step :
  forall (AR : Arith) (R : Type) kind di one (shuffle : list aid -> R -> R * list aid) shuffled n k g s w tr,
  n_truthy one = true -> (forall l g, Permutation l (snd (shuffle l g))) -> ticks (pause kind di one) k -> 0 < n ->
  noop_run kind one shuffle shuffled di n k g = (s, w, tr) ->
  (forall a, 1 <= a <= n -> nw_calls w a = k) /\ s_reg s = seq 1 n /\ s_steps s = k /\ total_calls (s_reg s) w = n * k.
Proof. intros AR R. apply timed_noop. Qed.
Print Assumptions C186_everyone_is_called_in_each_step.
(** C186.  The same with PQueueActivation; its steps end ([fuel] bounds the turns of its loop). *)
Theorem C186_everyone_is_called_in_each_step_of_a_queue :
  forall (AR : Arith) (R : Type) kind di one (random : R -> R * Z) shuffled n k g fuel,
  n_truthy one = true -> ticks (pause kind di one) k -> 0 < n < fuel ->
  exists s w tr, noop_prun kind one random fuel shuffled di n k g = Some (s, w, tr) /\
  (forall a, 1 <= a <= n -> nw_calls w a = k) /\ p_reg s = seq 1 n /\ p_steps s = k /\ total_calls (p_reg s) w = n * k.
Proof. intros AR R. apply pq_noop. Qed.
Print Assumptions C186_everyone_is_called_in_each_step_of_a_queue.
(** C186.  The hypothesis on delays: any positive delay with exact additions, and 1 (or any power of two below 2^970, counted in units
    of 2^-1074) with those of floats, for 2^53 steps. *)
Theorem C186_delays :
  (forall d k, n_ltb (Fin 0) d = true -> n_ltb d PInf = true -> @ticks exact d k) /\
  (forall e k, (0 <= e <= 2044)%Z -> (Z.of_nat k <= 2 ^ 53)%Z -> @ticks binary64 (Fin (2 ^ e)) k).
Proof. split; [exact ticks_exact|]. intros e k H1 H2. exact (ticks_float e k H1 H2). Qed.
Print Assumptions C186_delays.

(** Five agents of each kind, and seven steps. *)
Example C186_not_vacuous :
  let run kind := noop_run (AR := exact) kind (Fin 10) (fun l (g : nat) => (S g, rev l)) true (Fin 10) 5 7 0 in
  let prun kind := noop_prun (AR := exact) kind (Fin 10) (fun g : nat => (S g, Z.of_nat (g * 7 mod 5))) 6 true (Fin 10) 5 7 0 in
  map (fun kind => let '(s, w, tr) := run kind in (map (nw_calls w) (s_reg s), total_calls (s_reg s) w, s_time s)) [NStep; NGen; NAsync] =
    repeat ([7; 7; 7; 7; 7], 35, Fin 70) 3 /\
  map (fun kind => match prun kind with Some (s, w, tr) => Some (map (nw_calls w) (p_reg s), total_calls (p_reg s) w, p_time s) | None => None end)
    [NStep; NGen; NAsync] = repeat (Some ([7; 7; 7; 7; 7], 35, Fin 70)) 3.
Proof. vm_compute. auto. Qed.
