(** C227 and C228: everyone gets a turn, at the rate asked for, with PQueueActivation (soil/time.py:43-118). *)
From Coq Require Import ZArith List Bool Arith Lia.
From Verif Require Import Num TimedModel TimedSpec PQueueModel PQueueSpec TurnSpec TurnPqSpec TurnPqProofs.
Import ListNotations.

(** Agent 0 acts every 2, agent 1 every 7, the others once. *)
Definition pq_pacers : puser nat := PUser nat
  (fun _ a w => (S w, [], Ret (match a with 0 => Some (Fin 2) | 1 => Some (Fin 7) | _ => Some PInf end)))
  (fun w => (S w, Z.of_nat w)).

(** C227 is false: agent 2 is added at time 2 and takes the place of agent 0, which was due then and never acts again (line 64). *)
Theorem C227_no_turn_refuted : exists W (u : puser W) di h w s w1 tr t a,
  p_forward_only u /\ p_adds_nobody u /\ p_never_fails u /\ n_ltb (Fin 0) di = true /\
  pq_hist (AR := exact) u 9 h (pq_init false di) w = Some (s, w1, tr) /\ no_exc tr /\
  In (Fin t, a) (agenda (AR := exact) di [] tr) /\
  forall n, exists s2 w2 tr2, pq_hist (AR := exact) u 9 (repeat CStep n) s w1 = Some (s2, w2, tr2) /\ ~ In (Fin t, a) (acts tr2).
Proof.
  exists nat, pq_pacers, (Fin 1), [CAdd 0 None; CStep; CAdd 2 None], 0. do 3 eexists. exists 2%Z, 0.
  split; [intros s [|[|a]] w; reflexivity|]. split; [intros s a w; reflexivity|]. split; [intros s a w; discriminate|]. split; [reflexivity|].
  split; [vm_compute; reflexivity|]. split; [reflexivity|]. split; [vm_compute; auto|].
  assert (K : forall n st rg r x, pq_hist (AR := exact) pq_pacers 9 (repeat CStep n) (PQ PInf st [] rg false (Fin 1) r) x =
            Some (PQ PInf st [] rg false (Fin 1) r, x, [])).
  { induction n as [|n IH]; intros; [reflexivity|]. cbn [repeat pq_hist pq_cmd pq_step p_time n_eqb]. rewrite IH. reflexivity. }
  intros [|n].
  - cbn. do 3 eexists. split; [reflexivity|]. cbn. auto.
  - cbn [repeat pq_hist].
    match goal with |- context [pq_cmd ?u 9 ?s ?w CStep] => let r := eval vm_compute in (pq_cmd (AR := exact) u 9 s w CStep) in
      change (pq_cmd u 9 s w CStep) with r end.
    cbv iota beta. rewrite K. do 3 eexists. split; [reflexivity|]. cbn. intros [X|[]]. discriminate.
Qed.
Print Assumptions C227_no_turn_refuted.

(** C227, what holds: if everyone is added before the first step, whoever has an appointment at [t] acts at [t], and after at most
    [t - now + 1] further steps (in ticks of the clock), each of which ends. *)
Theorem C227_everyone_gets_a_turn_partial : forall (AR : Arith) (HP : Precise AR) W (u : puser W) fuel sh di l h w s w1 tr t a,
  p_forward_only u -> p_adds_nobody u -> p_never_fails u -> n_ltb (Fin 0) di = true -> adds_nobody h -> length l < fuel ->
  pq_hist u fuel (add_all l ++ h) (pq_init sh di) w = Some (s, w1, tr) -> In (Fin t, a) (agenda di [] tr) ->
  exists now n s2 w2 tr2, p_time s = Fin now /\ (Z.of_nat n <= t - now + 1)%Z /\
    pq_hist u fuel (repeat CStep n) s w1 = Some (s2, w2, tr2) /\ In (Fin t, a) (acts tr2).
Proof. exact pq_everyone. Qed.
Print Assumptions C227_everyone_gets_a_turn_partial.

Example C227_case :
  p_forward_only pq_pacers /\ p_adds_nobody pq_pacers /\ p_never_fails pq_pacers /\
  exists s w1 tr, pq_hist (AR := exact) pq_pacers 4 (add_all [0; 1; 2] ++ [CStep; CRem 1]) (pq_init true (Fin 1)) 0 = Some (s, w1, tr) /\
  agenda (AR := exact) (Fin 1) [] tr = [(Fin 2, 0); (Fin 7, 1)] /\ p_time s = Fin 2 /\
  (exists s2 w2 tr2, pq_hist (AR := exact) pq_pacers 4 (repeat CStep 4) s w1 = Some (s2, w2, tr2) /\ In (Fin 7, 1) (acts tr2)) /\
  (exists s2 w2 tr2, pq_hist (AR := exact) pq_pacers 4 (repeat CStep 3) s w1 = Some (s2, w2, tr2) /\ ~ In (Fin 7, 1) (acts tr2)).
Proof.
  split; [intros s [|[|a]] w; reflexivity|]. split; [intros s a w; reflexivity|]. split; [intros s a w; discriminate|].
  do 3 eexists. split; [vm_compute; reflexivity|]. split; [vm_compute; reflexivity|]. split; [reflexivity|]. split.
  - do 3 eexists. split; [vm_compute; reflexivity|]. vm_compute. intuition discriminate.
  - do 3 eexists. split; [vm_compute; reflexivity|]. vm_compute. intuition discriminate.
Qed.

(** C228 is false: agent 0 asks for a turn every 2, agent 1 is added at 2, and when the clock is at 9 agent 0 has acted only at 0. *)
Theorem C228_rate_refuted : exists W (u : puser W) di h w s w1 tr a d,
  p_forward_only u /\ p_adds_nobody u /\ p_keeps_pace u di a d /\
  pq_hist (AR := exact) u 9 h (pq_init false di) w = Some (s, w1, tr) /\ no_exc tr /\ adds_of a tr = 1 /\
  In (EvAdd (Fin 0) a) tr /\ acts_of a tr = [Fin 0] /\ n_ltb (Fin (2 * d)) (p_time s) = true.
Proof.
  exists nat, pq_pacers, (Fin 1), [CAdd 0 None; CStep; CAdd 1 None; CStep], 0. do 3 eexists. exists 0, 2%Z.
  split; [intros s [|[|a]] w; reflexivity|]. split; [intros s a w; reflexivity|]. split; [split; [reflexivity|left; reflexivity]|].
  split; [vm_compute; reflexivity|]. vm_compute. intuition.
Qed.
Print Assumptions C228_rate_refuted.

(** C228, what holds: if everyone is added, once, before the first step, an agent that always asks for the same delay [d] (or leaves it
    to the default interval) acts exactly at [0], [d], [2 d], ..., up to the clock, whatever the others do. *)
Theorem C228_steady_rate_partial : forall W (u : puser W) fuel sh di l h w s w1 tr a d,
  p_forward_only u -> p_adds_nobody u -> nonneg di = true -> adds_nobody h -> NoDup l -> In a l -> p_keeps_pace u di a d ->
  pq_hist (AR := exact) u fuel (add_all l ++ h) (pq_init sh di) w = Some (s, w1, tr) -> no_exc tr ->
  exists n, acts_of a tr = map (fun k => Fin (Z.of_nat k * d)) (seq 0 n) /\
    n_leb (p_time s) (Fin (Z.of_nat n * d)) = true /\
    (0 < n -> n_leb (Fin ((Z.of_nat n - 1) * d)) (p_time s) = true).
Proof. exact pq_steady_rate. Qed.
Print Assumptions C228_steady_rate_partial.

Example C228_case :
  p_keeps_pace pq_pacers (Fin 1) 0 2 /\ p_keeps_pace pq_pacers (Fin 1) 1 7 /\
  exists s w1 tr, pq_hist (AR := exact) pq_pacers 9 (add_all [0; 1; 2] ++ repeat CStep 9) (pq_init true (Fin 1)) 0 = Some (s, w1, tr) /\
  no_exc tr /\ acts_of 1 tr = [Fin 0; Fin 7; Fin 14]%Z /\ p_time s = Fin 16 /\ acts_of 0 tr = [Fin 0; Fin 2; Fin 4; Fin 6; Fin 8; Fin 10; Fin 12; Fin 14]%Z.
Proof.
  split; [split; [reflexivity|left; reflexivity]|]. split; [split; [reflexivity|left; reflexivity]|].
  do 3 eexists. split; [vm_compute; reflexivity|]. vm_compute. intuition.
Qed.
