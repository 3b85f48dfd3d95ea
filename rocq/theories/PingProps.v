(** C249 and C250: agents that broadcast and that ask each other, as in two of the tests, for all numbers of agents and steps. *)
From Coq Require Import ZArith List Bool Arith Lia Permutation.
From Verif Require Import Num TimedModel AgentModel FsmModel EventModel NoopSpec NoopProofs PingModel PingSpec PingProofs.
Import ListNotations.
Local Open Scope nat_scope.

(** * C249: everybody broadcasts at the first activation and processes the messages at each one *)
(** C249: the activation that is [i]-th in the first step (from 0) processes [i + 1] messages, so that after that step the numbers of messages
    received are 1, ..., n in some order; after each later step everybody has received all [n] messages, each once. *)
Theorem C249_broadcast : forall (AR : Arith) (R : Type) (shuffle : list aid -> R -> R * list aid) sh di n k r s x tr,
  shuffles shuffle -> 0 < n -> ticks di k -> bcast_run shuffle sh di n k r = (s, x, tr) ->
  let received a := p_received (e_rest (fw_rest (fst x))) a in
  s_time s = tick di k /\ s_steps s = k /\
  (k = 0 -> forall a, received a = 0) /\
  (k = 1 -> Permutation (map received (seq 0 n)) (seq 1 n)) /\
  (2 <= k -> forall a, a < n -> received a = n /\ e_inbox (fw_rest (fst x)) a = Some []).
Proof.
  intros AR R shuffle sh di n k r s x tr SH N T E. cbv zeta. destruct (bcast_all n shuffle sh di k r SH N T) as (s0 & x0 & l & tr0 & E0 & A & B & _ & P & (_ & BI) & _ & R1 & R2).
  rewrite E in E0. injection E0 as <- <- <-. split; [exact A|]. split; [exact B|]. split; [|split].
  - intros -> a. destruct (BI a) as (i & _ & _ & H). unfold received in H. destruct (a <? n); cbn in H; lia.
  - intros K1. rewrite <- P. replace (map (fun a => p_received (e_rest (fw_rest (fst x))) a) l) with (seq 1 n); [reflexivity|].
    assert (LL : List.length l = n) by (rewrite (Permutation_length P); apply seq_length).
    specialize (R1 K1). unfold received in R1. clear - R1 LL. subst n. set (f := fun a => p_received (e_rest (fw_rest (fst x))) a) in *. change (forall i a, nth_error l i = Some a -> f a = S i) in R1.
    assert (G : forall q, (forall i a, nth_error l i = Some a -> f a = q + i) -> seq q (List.length l) = map f l).
    { clear R1. induction l as [|a l IH]; intros q H; [reflexivity|]. cbn. f_equal.
      - rewrite (H 0 a eq_refl). lia.
      - apply IH. intros i b I. rewrite (H (S i) b I). lia. }
    apply G. intros i a I. rewrite (R1 i a I). lia.
  - intros K2 a L. assert (I : In a l) by (eapply Permutation_in; [symmetry; exact P|]; apply in_seq; lia).
    specialize (R2 ltac:(lia) a I). destruct (BI a) as (i & H1 & _ & H). assert (X : a <? n = true) by now apply Nat.ltb_lt. rewrite X in H.
    assert (Y : k =? 0 = false) by (apply Nat.eqb_neq; lia). rewrite Y, R2 in H. split; [exact R2|]. rewrite H1. f_equal. destruct i; [reflexivity|cbn in H; lia].
Qed.
Print Assumptions C249_broadcast.
(** Four agents; the shuffle alternates between two orders. *)
Definition two_orders (l : list aid) (r : bool) : bool * list aid := (negb r, if r then rev l else match l with a :: l' => l' ++ [a] | [] => [] end).
Example C249_shuffles : shuffles two_orders.
Proof.
  intros l r. unfold two_orders. cbn [snd]. destruct r; [apply Permutation_rev|]. destruct l as [|a l]; [constructor|]. apply Permutation_cons_append.
Qed.
Definition got {R} k (x : sched * (fworld unit (bworld (R := R)) * cors (frame bool)) * list ev) : list nat :=
  map (p_received (e_rest (fw_rest (fst (snd (fst x)))))) (seq 0 k).
Example C249_case : @ticks exact (Fin 1) 2 /\
  got 4 (@bcast_run exact bool two_orders true (Fin 1) 4 1 true) = [4; 3; 2; 1] /\
  got 4 (@bcast_run exact bool two_orders true (Fin 1) 4 1 false) = [4; 1; 2; 3] /\
  got 4 (@bcast_run exact bool two_orders true (Fin 1) 4 2 true) = [4; 4; 4; 4].
Proof. split; [apply ticks_exact; reflexivity|]. vm_compute. auto. Qed.

(** * C250: agents that ask each other *)
(** C250: two agents in order.  After [k] steps, both have asked once in each step, and each question but the last one has been answered in the step
    in which it was asked, or, by the first agent, in the next one; everybody has got the answers of all steps but the last. *)
Theorem C250_ask : forall (AR : Arith) one sixty di k s x tr,
  n_truthy one = true -> ticks one k -> ping_run one sixty 2 di k = (s, x, tr) ->
  let w := fw_rest (fst x) in
  s_time s = tick one k /\ s_steps s = k /\ pl_pings (e_rest w) = times one 2 k /\ pl_pongs (e_rest w) = tl (times one 2 k) /\
  pl_responses (e_rest w) = 2 * (k - 1) /\ forall q, S q < 2 * k -> e_reply w q = true.
Proof.
  intros AR one sixty di k s x tr TR T E. cbv zeta. destruct (ping_two one sixty di k TR T) as (s0 & x0 & tr0 & E0 & A & B & [_ _ C D _ _]).
  rewrite E in E0. injection E0 as <- <- <-. split; [exact A|]. split; [exact B|]. rewrite C. cbn [pl_pings pl_pongs pl_responses].
  assert (P : pinged one k 0 = times one 2 k). { unfold pinged, times. rewrite app_nil_r. apply flat_map_concat_map. }
  rewrite P. split; [reflexivity|]. split; [reflexivity|]. split; [|intros q L; apply D; lia]. destruct k; cbn; lia.
Qed.
Print Assumptions C250_ask.
(** An agent that is alone asks itself, and waits for ever: it does not process its messages before it has got an answer. *)
Theorem C250_alone : forall (AR : Arith) one sixty di k s x tr,
  n_truthy one = true -> ticks one k -> 0 < k -> ping_run one sixty 1 di k = (s, x, tr) ->
  let w := fw_rest (fst x) in
  s_time s = tick one k /\ s_steps s = k /\ e_rest w = PLists [Fin 0] [] 0 /\ e_reply w 0 = false /\
  exists m, e_inbox w 0 = Some [m] /\ m_ask m = Some 0.
Proof.
  intros AR one sixty di k s x tr TR T K E. cbv zeta. destruct (ping_alone one sixty di k TR T) as (s0 & x0 & tr0 & E0 & A & B & [_ _ C D F _]).
  rewrite E in E0. injection E0 as <- <- <-. assert (X : k =? 0 = false) by (apply Nat.eqb_neq; lia). rewrite X in *.
  split; [exact A|]. split; [exact B|]. split; [exact C|]. split; [exact D|]. exists (an_ask 0 0). auto.
Qed.
Print Assumptions C250_alone.
Definition lists (x : sched * (fworld unit aworld * cors (frame ppoint)) * list ev) : plists := e_rest (fw_rest (fst (snd (fst x)))).
Example C250_case : @ticks exact (Fin 1) 3 /\ n_truthy (Fin 1) = true /\
  lists (@ping_run exact (Fin 1) (Fin 60) 2 (Fin 1) 3) = PLists [Fin 0; Fin 0; Fin 1; Fin 1; Fin 2; Fin 2] [Fin 0; Fin 1; Fin 1; Fin 2; Fin 2] 4 /\
  lists (@ping_run exact (Fin 1) (Fin 60) 1 (Fin 1) 3) = PLists [Fin 0] [] 0 /\
  (* With three agents not everybody is answered at once. *)
  lists (@ping_run exact (Fin 1) (Fin 60) 3 (Fin 1) 3) = PLists [Fin 0; Fin 0; Fin 0; Fin 1; Fin 1; Fin 2] [Fin 0; Fin 1; Fin 1; Fin 2] 3.
Proof. split; [apply ticks_exact; reflexivity|]. vm_compute. auto. Qed.
