(** C63: the agents of the custom_timeouts example. *)
From Coq Require Import ZArith List Bool Arith String Lia Permutation.
From Verif Require Import Num PyDict TimedModel AgentModel FsmModel Binary64Proofs
  TimeoutsModel TimeoutsSpec TimeoutsProofs.
Import ListNotations.
Local Open Scope Z_scope.

Section Any.
(** Any random generator and any number of agents of the two classes, in any order. *)
Context {R : Type}.
Variables (shuffle : list aid -> R -> R * list aid) (fib : aid -> bool).
Hypothesis Perm : forall l r, Permutation l (snd (shuffle l r)).

(** C63 for exact arithmetic: after any number of steps, each Fibonacci agent has been
    activated at the first instants of 0, 1, 2, 3, 5, 8, ..., and at no others; the next one is
    not in the past; and each number of activations is reached. *)
Theorem C63_fibonacci_exact_partial : forall one sh agents n rng s x tr a, 0 < one ->
  NoDup agents -> In a agents -> fib a = true ->
  timeouts_run (AR := exact) one sh shuffle fib agents n rng = (s, x, tr) ->
  let m := List.length (instants a tr) in
  instants a tr = map (fun k => Fin (fib_instant k * one)) (seq 0 m) /\
  n_leb (s_time s) (Fin (fib_instant m * one)) = true /\
  (forall k, fib_instant k * one < Z.of_nat n -> (k < m)%nat).
Proof.
  intros one sh agents n rng s x tr a O N I F E m.
  destruct (whole_course fib_instant one (instants a tr) (s_time s) O fib_rising) as (H1 & H2 & H3).
  - intros bound. apply (fib_run (AR := exact) one shuffle fib O (fun x y _ _ => exact_small x y) sh agents n rng s x tr bound a);
      auto using exact_all.
  - split; auto. split; auto. intros k. apply H3.
    eapply (later_run (AR := exact) one shuffle fib O (fun x y _ _ => exact_small x y)); eauto using exact_precise.
    intros ->. destruct I.
Qed.

(** The same for the Odds agents: 0, and then 1, 3, 5, 7, ... *)
Theorem C63_odds_exact_partial : forall one sh agents n rng s x tr a, 0 < one ->
  NoDup agents -> In a agents -> fib a = false ->
  timeouts_run (AR := exact) one sh shuffle fib agents n rng = (s, x, tr) ->
  let m := List.length (instants a tr) in
  instants a tr = map (fun k => Fin (odd_instant k * one)) (seq 0 m) /\
  n_leb (s_time s) (Fin (odd_instant m * one)) = true /\
  (forall k, odd_instant k * one < Z.of_nat n -> (k < m)%nat).
Proof.
  intros one sh agents n rng s x tr a O N I F E m.
  destruct (whole_course odd_instant one (instants a tr) (s_time s) O odd_rising) as (H1 & H2 & H3).
  - intros bound.
    destruct (odd_run (AR := exact) one shuffle fib O (fun x y _ _ => exact_small x y) sh agents n rng s x tr (Z.max 2 bound) a)
      as [G1 G2]; auto using exact_all; [lia|]. split; [intros j L B|intros B]; [apply G1|apply G2]; auto; lia.
  - split; auto. split; auto. intros k. apply H3.
    eapply (later_run (AR := exact) one shuffle fib O (fun x y _ _ => exact_small x y)); eauto using exact_precise.
    intros ->. destruct I.
Qed.

(** C63 with Python floats, up to instant 2^53.  (The instants are floats: [delay] calls
    [float].)  Missing: that each number of activations is reached. *)
Theorem C63_fibonacci_floats_partial : forall sh agents n rng s x tr a,
  NoDup agents -> In a agents -> fib a = true ->
  timeouts_run (AR := binary64) float_one sh shuffle fib agents n rng = (s, x, tr) ->
  forall k, (k < List.length (instants a tr))%nat -> fib_instant k <= 2 ^ 53 ->
  nth_error (instants a tr) k = Some (Fin (fib_instant k * float_one)).
Proof.
  intros sh agents n rng s x tr a N I F E.
  apply (fib_run (AR := binary64) float_one shuffle fib float_one_pos float_small sh agents n rng s x tr (2 ^ 53) a);
    auto using float_exact.
Qed.
Theorem C63_odds_floats_partial : forall sh agents n rng s x tr a,
  NoDup agents -> In a agents -> fib a = false ->
  timeouts_run (AR := binary64) float_one sh shuffle fib agents n rng = (s, x, tr) ->
  forall k, (k < List.length (instants a tr))%nat -> odd_instant k <= 2 ^ 53 ->
  nth_error (instants a tr) k = Some (Fin (odd_instant k * float_one)).
Proof.
  intros sh agents n rng s x tr a N I F E.
  assert (2 <= 2 ^ 53) as B2 by (vm_compute; discriminate).
  apply (odd_run (AR := binary64) float_one shuffle fib float_one_pos float_small sh agents n rng s x tr (2 ^ 53) a);
    auto using float_exact.
Qed.
End Any.
Print Assumptions C63_fibonacci_exact_partial.
Print Assumptions C63_odds_exact_partial.
Print Assumptions C63_fibonacci_floats_partial.
Print Assumptions C63_odds_floats_partial.

(** The agents of the example. *)
Definition same_order (l : list aid) (r : unit) : unit * list aid := (r, l).
Definition first_is_fibonacci (a : aid) : bool := Nat.eqb a 0.
Example C63_not_vacuous :
  (forall l r, Permutation l (snd (same_order l r))) /\ NoDup [0%nat; 1%nat] /\
  let '(s, _, tr) := timeouts_run (AR := exact) 1 true same_order first_is_fibonacci [0%nat; 1%nat] 9 tt in
  instants 0%nat tr = map Fin [0; 1; 2; 3; 5; 8] /\ instants 1%nat tr = map Fin [0; 1; 3; 5; 7; 9; 11] /\ s_time s = Fin 13.
Proof.
  split; [intros l r; apply Permutation_refl|]. split; [|vm_compute; auto].
  repeat constructor; simpl; intuition discriminate.
Qed.
Example C63_floats_not_vacuous :
  let '(s, _, tr) := timeouts_run (AR := binary64) float_one true same_order first_is_fibonacci [0%nat; 1%nat] 3 tt in
  instants 0%nat tr = map (fun k => Fin (k * float_one)) [0; 1; 2] /\
  instants 1%nat tr = map (fun k => Fin (k * float_one)) [0; 1].
Proof. vm_compute. auto. Qed.

(** C63 is false for ever: a Fibonacci agent on its own is activated for the 79th time at
    14472334024676220, which is no number of Fibonacci (14472334024676221 is, but it is not a
    float). *)
Theorem C63_for_ever_refuted :
  nth_error (instants 0%nat (snd (timeouts_run (AR := binary64) float_one true same_order first_is_fibonacci [0%nat] 79 tt))) 78
  = Some (Fin (14472334024676220 * float_one)) /\
  forall k, fib_instant k <> 14472334024676220.
Proof.
  split.
  { rewrite floats_alone by reflexivity. rewrite nth_error_map. reflexivity. }
  intros k E. destruct (Nat.le_gt_cases k 77) as [L|L]; apply (rising _ fib_rising) in L; rewrite E in L.
  - rewrite fib_77 in L. lia.
  - rewrite fib_78 in L. lia.
Qed.
Print Assumptions C63_for_ever_refuted.
