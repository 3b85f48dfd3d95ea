(** C265: agents in a ring, each of which asks the next one, for all numbers of agents and steps. *)
From Coq Require Import ZArith List Bool Arith Lia.
From Verif Require Import Num TimedModel AgentModel FsmModel EventModel NoopSpec NoopProofs PingModel RingSpec RingProofs.
Import ListNotations.
Local Open Scope nat_scope.

(** C265: after [k] steps of [n] agents, the instants of the questions and those of the answers are those of the activations that [asking] and
    [answering] tell, one of each; [ask] has returned once for each answer after the first step.  Nobody has raised or given up, and nobody waits in
    [received]: everybody is in an [ask] without a deadline, has at most one message, and waits for an answer that has not been given, but for one agent. *)
Theorem C265_ring : forall (AR : Arith) one sixty n di k s x tr,
  2 <= n -> n_truthy one = true -> ticks one k -> 0 < k -> ping_run one sixty n di k = (s, x, tr) ->
  let w := fw_rest (fst x) in
  s_time s = tick one k /\ s_steps s = k /\
  pl_pings (e_rest w) = instants_of one n (asking n) 0 (n * k) /\ pl_pongs (e_rest w) = instants_of one n (answering n) 0 (n * k) /\
  pl_responses (e_rest w) = List.length (filter (answering n) (seq n (n * k - n))) /\
  exists cur h, h < n /\ forall a, a < n ->
    get_co (snd x) a = Some (GSusp (FIn (PAsk (cur a) PInf))) /\ e_reply w (cur a) = (a =? h) /\
    exists l, e_inbox w a = Some l /\ List.length l <= 1.
Proof.
  intros AR one sixty n di k s x tr N TR T K E. cbv zeta. destruct (ring_run one sixty n N di k TR T) as (s0 & x0 & tr0 & c & cur & E0 & A & B & [_ SP M R C]).
  rewrite E in E0. injection E0 as <- <- <-. rewrite (Nat.mul_comm n k), R. repeat (split; [assumption||reflexivity|]).
  exists cur, ((1 + c * (n - 1)) mod n). split; [apply Nat.mod_upper_bound; lia|]. intros a L.
  assert (ST : a <? k * n = true) by (apply Nat.ltb_lt; nia).
  assert (C1 : 1 <= c). { destruct SP as [_ SP]. destruct c; [nia|lia]. }
  split; [rewrite C, ST by auto; reflexivity|]. split.
  - rewrite (ml_reply _ _ _ _ _ M a L ST). unfold holder. apply Nat.leb_le in C1. now rewrite C1.
  - pose proof (ml_inbox _ _ _ _ _ M (prev n a) (prev_lt n N a)) as I. rewrite (next_prev n N a L) in I. eexists. split; [exact I|].
    destruct (_ && _); cbn; lia.
Qed.
Print Assumptions C265_ring.

(** C265: the number of answers of [k] steps is [k] and one more for each [n - 1] steps, or part of them, after the first: the more agents there are, the
    fewer of them are answered; not more than two in a step, and one more than the steps when there are at least as many agents as steps. *)
Theorem C265_rate : forall (AR : Arith) one sixty n di k s x tr,
  2 <= n -> n_truthy one = true -> ticks one k -> 0 < k -> ping_run one sixty n di k = (s, x, tr) ->
  let answers := List.length (pl_pongs (e_rest (fw_rest (fst x)))) in
  answers = k + (k - 1 + (n - 2)) / (n - 1) /\ k <= answers < 2 * k /\ (2 <= k <= n -> answers = k + 1).
Proof.
  intros AR one sixty n di k s x tr N TR T K E. cbv zeta. destruct (C265_ring AR one sixty n di k s x tr N TR T K E) as (_ & _ & _ & P & _).
  rewrite P. unfold instants_of. rewrite map_length, Nat.sub_0_r, (answers_count n N _ _ (ring_span n N k K)).
  set (q := (k - 1 + (n - 2)) / (n - 1)). pose proof (Nat.div_mod (k - 1 + (n - 2)) (n - 1) ltac:(lia)) as D.
  pose proof (Nat.mod_upper_bound (k - 1 + (n - 2)) (n - 1) ltac:(lia)) as U. fold q in D. split; [reflexivity|]. split; [nia|]. intros L. assert (q = 1) by nia. lia.
Qed.
Print Assumptions C265_rate.

(** Two, three and five agents.  With two it is as in C250. *)
Definition ring_lists (x : sched * (fworld unit aworld * cors (frame ppoint)) * list ev) : plists := e_rest (fw_rest (fst (snd (fst x)))).
Example C265_case : @ticks exact (Fin 1) 4 /\ n_truthy (Fin 1) = true /\
  @instants_of exact (Fin 1) 5 (answering 5) 0 20 = map Fin [0; 1; 1; 2; 3]%Z /\
  ring_lists (@ping_run exact (Fin 1) (Fin 60) 5 (Fin 1) 4) = PLists (map Fin [0; 0; 0; 0; 0; 1; 1; 2; 3]%Z) (map Fin [0; 1; 1; 2; 3]%Z) 4 /\
  ring_lists (@ping_run exact (Fin 1) (Fin 60) 3 (Fin 1) 4) = PLists (map Fin [0; 0; 0; 1; 1; 2; 3; 3]%Z) (map Fin [0; 1; 1; 2; 3; 3]%Z) 5 /\
  ring_lists (@ping_run exact (Fin 1) (Fin 60) 2 (Fin 1) 3) = PLists (map Fin [0; 0; 1; 1; 2; 2]%Z) (map Fin [0; 1; 1; 2; 2]%Z) 4.
Proof. split; [apply ticks_exact; reflexivity|]. vm_compute. auto 6. Qed.
