(** Theorems about agents that wait for messages with [received] (soil/agents/evented.py:17-31). *)
From Coq Require Import ZArith List Bool Arith Permutation.
From Verif Require Import Num TimedModel TimedSpec TraceProofs AgentModel FsmModel EventModel TutorSpec WaitModel WaitSpec WaitProofs.
Import ListNotations.


(** C267.  Whatever is told and whoever times out: the payloads handled and those in the inbox are the payloads told, in order; nothing is lost or
    handled twice.  For any arithmetic, any delays and any timeouts. *)
Theorem C267_nothing_lost {AR : Arith} {V R : Type} (v_none : V) plan script (shuffle : list aid -> R -> R * list aid) sh di h g s w c tr :
  (forall f, ~ In (CWorld f) h) ->
  run_hist (wait_user v_none plan script shuffle) h (timed_init sh di) (wait_world v_none g) = (s, (w, c), tr) ->
  forall a, exists box, e_inbox (fw_rest w) a = Some box /\
    map text_of (l_told (e_rest (fw_rest w)) a) = map text_of (l_done (e_rest (fw_rest w)) a) ++ map m_payload box.
Proof. intros Ho Q a. exact (wait_fifo v_none plan script shuffle sh di h g s (w, c) tr a Ho Q). Qed.
Print Assumptions C267_nothing_lost.

(** With exact arithmetic, an agent that was added once and waits with a positive timeout and a positive delay handles each message in its next
    activation, or in the one after it if its wait ends with the next one; not before it was told, and in time; and the clock does not pass the limit of
    a message that is still in the inbox. *)
Theorem C267_handled_in_time {V R : Type} (v_none : V) plan script (shuffle : list aid -> R -> R * list aid) sh di h g s w c tr a t0 T d :
  (forall l g, Permutation l (snd (shuffle l g))) -> (forall f, ~ In (CWorld f) h) -> (0 <= di)%Z -> onward plan script ->
  run_hist (AR := exact) (wait_user (AR := exact) v_none plan script shuffle) h (timed_init sh (Fin di)) (wait_world v_none g) = (s, (w, c), tr) ->
  adds_of a tr = 1 -> In (EvAdd (Fin t0) a) tr -> plan a = Some (Fin T, Fin d) -> (0 < T)%Z -> (0 < d)%Z ->
  (forall k e f, nth_error (l_told (e_rest (fw_rest w)) a) k = Some e -> nth_error (l_done (e_rest (fw_rest w)) a) k = Some f ->
     in_turn (acts_of a tr) (turn_of e) (turn_of f) /\ nth_error (instants a tr) (turn_of f) = Some (when_of f) /\
     n_leb (when_of e) (when_of f) = true /\ n_leb (when_of f) (handled_by t0 d di (turn_of e) (when_of e)) = true) /\
  (forall k e, List.length (l_done (e_rest (fw_rest w)) a) <= k -> nth_error (l_told (e_rest (fw_rest w)) a) k = Some e ->
     n_leb (s_time s) (handled_by t0 d di (turn_of e) (when_of e)) = true).
Proof.
  intros P Ho DI ON Q A IA PA TP DP.
  exact (proj2 (wait_life v_none plan script shuffle sh di h g s w c tr a t0 T d P Ho DI ON Q A IA PA TP DP)).
Qed.
Print Assumptions C267_handled_in_time.

(** Agent 0 waits with timeout 3 and delay 2; agent 1 says 7 at 2 and 8 at 4, and agent 2 says 9 at 4. *)
Definition plan3 (a : aid) : option (num * num) := match a with O => Some (Fin 3, Fin 2) | _ => None end.
Definition script3 (a : aid) (i : nat) : list (aid * nat) * option num :=
  match a, i with 1, 1 => ([(0, 7)], Some (Fin 2)) | 1, 2 => ([(0, 8)], None) | 2, 2 => ([(0, 9)], None) | _, _ => ([], Some (Fin 2)) end.
Notation run3 k := (run_hist (AR := exact) (wait_user (AR := exact) 0 plan3 script3 (fun l (g : unit) => (g, l))) (PingModel.with_agents 3 k)
  (timed_init false (Fin 5)) (wait_world 0 tt)).
(** The deadline of the first wait is 3; what was said at 2 is in the inbox then, but the agent looks at 4, where it times out; the next wait begins 5
    later, and handles everything at once. *)
Lemma onward3 : onward plan3 script3.
Proof.
  split.
  - intros [|b] T d H; [|discriminate]. injection H as <- <-. reflexivity.
  - intros [|[|[|b]]] [|[|[|i]]] d H; cbn in H; try discriminate; injection H as <-; reflexivity.
Qed.
Example C267_case :
  let '(s, (w, c), tr) := run3 8 in
  hd_error (acts_of 0 tr) = Some (Fin 0, Ret (Some (Fin 2))) /\ instants 0 tr = [Fin 0; Fin 2; Fin 4; Fin 9; Fin 14] /\ l_out (e_rest (fw_rest w)) 0 = [Fin 4] /\
  l_told (e_rest (fw_rest w)) 0 = [(Fin 2, 2, 7); (Fin 4, 3, 8); (Fin 4, 3, 9)] /\
  l_done (e_rest (fw_rest w)) 0 = [(Fin 9, 3, 7); (Fin 9, 3, 8); (Fin 9, 3, 9)] /\
  adds_of 0 tr = 1 /\ In (EvAdd (Fin 0) 0) tr /\ handled_by 0 2 5 2 (Fin 2) = Fin 9 /\ onward plan3 script3.
Proof. vm_compute. do 6 (split; [reflexivity|]). split; [now left|]. split; [reflexivity|exact onward3]. Qed.

Lemma parts {A B C D} (P : A -> B -> C -> D -> Prop) (r : A * (B * C) * D) :
  (let '(s, (w, c), tr) := r in P s w c tr) -> exists s w c tr, r = (s, (w, c), tr) /\ P s w c tr.
Proof. destruct r as [[s [w c]] tr]. eauto 6. Qed.
(** It is not so that a message which arrives before the deadline ends the wait: the agent may look after the deadline, and [TimedOut] is raised with the
    message in the inbox. *)
Theorem C267_may_time_out :
  ~ (forall (V R : Type) (v_none : V) plan script (shuffle : list aid -> R -> R * list aid) sh di h g s w c tr a T d,
     (forall f, ~ In (CWorld f) h) -> onward plan script ->
     run_hist (AR := exact) (wait_user (AR := exact) v_none plan script shuffle) h (timed_init sh di) (wait_world v_none g) = (s, (w, c), tr) ->
     plan a = Some (T, d) ->
     (* the first wait begins with the first activation, and [e] is told before its deadline: then it is handled before the first timeout *)
     forall t o k e out, nth_error (acts_of a tr) 0 = Some (t, o) -> nth_error (l_told (e_rest (fw_rest w)) a) k = Some e ->
     n_ltb (when_of e) (n_add (Arith := exact) t T) = true -> hd_error (l_out (e_rest (fw_rest w)) a) = Some out ->
     exists f, nth_error (l_done (e_rest (fw_rest w)) a) k = Some f /\ n_leb (when_of f) out = true).
Proof.
  intros H.
  destruct (parts (fun _ w _ tr => nth_error (acts_of 0 tr) 0 = Some (Fin 0, Ret (Some (Fin 2))) /\ l_out (e_rest (fw_rest w)) 0 = [Fin 4] /\
      l_told (e_rest (fw_rest w)) 0 = [(Fin 2, 2, 7); (Fin 4, 3, 8); (Fin 4, 3, 9)] /\
      l_done (e_rest (fw_rest w)) 0 = [(Fin 9, 3, 7); (Fin 9, 3, 8); (Fin 9, 3, 9)]) (run3 8) ltac:(vm_compute; auto))
    as (s & w & c & tr & Q & K1 & K2 & K3 & K4).
  assert (NC : forall f, ~ In (CWorld f) (PingModel.with_agents (W := fworld unit (wworld nat unit) * cors (frame wpoint)) 3 8)).
  { intros f I. cbn in I. repeat (destruct I as [I|I]; [discriminate|]). exact I. }
  assert (T3 : nth_error (l_told (e_rest (fw_rest w)) 0) 0 = Some (Fin 2, 2, 7)) by (rewrite K3; reflexivity).
  assert (O3 : hd_error (l_out (e_rest (fw_rest w)) 0) = Some (Fin 4)) by (rewrite K2; reflexivity).
  destruct (H nat unit 0 plan3 script3 (fun l g => (g, l)) false (Fin 5) _ tt s w c tr 0 (Fin 3) (Fin 2) NC onward3 Q eq_refl
    (Fin 0) (Ret (Some (Fin 2))) 0 (Fin 2, 2, 7) (Fin 4) K1 T3 eq_refl O3) as (f & E & L).
  assert (D3 : nth_error (l_done (e_rest (fw_rest w)) 0) 0 = Some (Fin 9, 3, 7)) by (rewrite K4; reflexivity).
  assert (EF : Some f = Some (Fin 9, 3, 7)) by exact (eq_trans (eq_sym E) D3). injection EF as ->. discriminate.
Qed.
Print Assumptions C267_may_time_out.
