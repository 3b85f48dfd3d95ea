(** Theorems about [Lockstepper] (soil/time.py:206-228): properties C12 and C13. *)
From Coq Require Import ZArith List Bool Arith Permutation.
From Verif Require Import Num TimedModel TimedSpec TimedProofs LockstepModel LockstepSpec LockstepProofs.
Import ListNotations.
#[local] Existing Instance exact | 100.
#[local] Existing Instance exact_precise.

(** C12.  A TimedActivation, with any history [h0] of its own, is wrapped in a
    Lockstepper of interval [i].  After any further history [h] of steps, additions,
    removals and outside changes in which every step of the wrapper returned: the wrapper's
    clock is the [nsteps h]-th point of the grid that starts at the moment of wrapping, its
    step counter is [nsteps h]; every activation had an appointment and was before the
    clock; and every appointment still pending is at the clock or after it. *)
Theorem C12_lockstep_grid :
  forall {AR : Arith} W (u : user W) fuel h0 h sh di i w0 s w tr0 l' w' tr,
  forward_only u -> (sh = true -> fair_shuffle u) -> nonneg di = true -> nonneg i = true ->
  run_hist u h0 (timed_init sh di) w0 = (s, w, tr0) -> no_exc tr0 ->
  lock_hist u fuel h (lock_init s i) w = Some (l', w', tr) -> no_exc tr ->
  l_time l' = grid (s_time s) i (nsteps h) /\
  l_steps l' = nsteps h /\
  punctual di (agenda di [] tr0) tr /\
  (forall t a, In (t, a) (acts tr) -> n_ltb t (l_time l') = true) /\
  (forall t a, In (t, a) (agenda di [] (tr0 ++ tr)) -> n_leb (l_time l') t = true).
Proof. exact @lock_hist_main. Qed.

(** Agent 1 acts every 2 ticks and agent 2 every 3; the grid has points every 4 ticks. *)
Definition metronomes : user unit := User unit
  (fun _ a w => (w, [], Ret (Some (Fin (Z.of_nat (S a))))))
  (fun l w => (w, rev l)).

Example C12_example :
  let '(s, w, tr0) := run_hist metronomes [CAdd 1 None; CAdd 2 None; CStep]
                        (timed_init true (Fin 1)) tt in
  s_time s = Fin 2 /\
  match lock_hist metronomes 10 [CStep; CAdd 3 None; CStep] (lock_init s (Fin 4)) w with
  | Some (l, _, tr) =>
      l_time l = Fin 10 /\ l_steps l = 2 /\
      acts tr = [(Fin 2, 1); (Fin 3, 2); (Fin 4, 1);
                 (Fin 6, 3); (Fin 6, 1); (Fin 6, 2);
                 (Fin 8, 1); (Fin 9, 2)]
  | None => False
  end.
Proof. vm_compute. repeat split. Qed.

(** C13, refuted.  Wrapping a scheduler that has no agents (yet) gives a wrapper whose
    first step never returns, whatever the number of iterations allowed. *)
Theorem C13_empty_lockstep_does_not_return_refuted :
  exists (u : user unit) i s,
    nonneg i = true /\ s = timed_init true (Fin 1) /\
    forall fuel, lock_step u fuel (lock_init s i) tt = None.
Proof.
  exists metronomes, (Fin 1), (timed_init true (Fin 1)). repeat split.
  intros fuel. unfold lock_step. rewrite lock_loop_empty; reflexivity.
Qed.

(** C13, partial.  If the delays are not negative, the default interval is positive, the
    interval is finite, agents add no agents while they act, and the wrapped scheduler
    holds at least one appointment (or has exhausted them all, so that its clock is
    infinite), the step returns.  Missing: agents that add agents while they act, which
    can keep an instant busy for ever, and the empty scheduler, which is refuted. *)
Theorem C13_lockstep_returns_partial :
  forall {AR : Arith} {HP : Precise AR} W (u : user W) h sh di w0 s w tr t i steps,
  forward_only u -> adds_none u -> n_ltb (Fin 0) di = true ->
  run_hist u h (timed_init sh di) w0 = (s, w, tr) ->
  s_queue s <> [] \/ s_time s = PInf ->
  exists fuel r, lock_step u fuel (Lock s (Fin t) steps (Fin i)) w = Some r.
Proof. intros AR HP. exact (@lock_step_returns AR HP). Qed.

Example C13_example :
  forward_only metronomes /\ adds_none metronomes /\
  (let '(s, _, _) := run_hist metronomes [CAdd 1 None] (timed_init true (Fin 1)) tt in
   s_queue s <> []).
Proof.
  split; [|split].
  - intros s a w. reflexivity.
  - intros s a w. reflexivity.
  - discriminate.
Qed.

Print Assumptions C12_lockstep_grid.
Print Assumptions C13_empty_lockstep_does_not_return_refuted.
Print Assumptions C13_lockstep_returns_partial.
