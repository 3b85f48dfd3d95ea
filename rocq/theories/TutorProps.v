(** C241 and C242: the first agents of the tutorial. *)
From Coq Require Import ZArith List Bool Arith String Lia Permutation.
From Verif Require Import Num PyDict TimedModel TimedSpec AgentModel FsmModel TutorModel TutorSpec TutorProofs.
Import ListNotations.
Local Open Scope string_scope.
Local Open Scope list_scope.
#[local] Existing Instance exact.

(** C241.  In any run with any number of agents of the three classes, an [ExampleAgent] that is added once, at the
    instant [t0], is activated at [t0], [t0 + d], [t0 + 2 d]... and at no other instant.  After [n]
    activations it is infected if [n > max_steps_neutral], and dead after [max_steps_neutral + 2]
    activations, which are the last ones.  Until then the clock does not pass its next activation. *)
Theorem C241_example_agent :
  forall m d kinds s w tr a, lesson_run m d kinds s w tr -> adds_of a tr = 1 -> kinds a = LExample ->
  exists t0 n, In (EvAdd (Fin t0) a) tr /\ n <= m + 2 /\ instants a tr = every t0 d n /\
    is_infected w a = Nat.ltb m n /\ alive w a = Nat.ltb n (m + 2) /\
    (n < m + 2 -> n_leb (s_time s) (Fin (t0 + Z.of_nat n * d)) = true).
Proof. exact example_life. Qed.
Print Assumptions C241_example_agent.

(** C241.  The same for [FSMExample]: the same instants, infected and dead after as many activations. *)
Theorem C241_fsm_example :
  forall m d kinds s w tr a, lesson_run m d kinds s w tr -> adds_of a tr = 1 -> kinds a = LFsm ->
  exists t0 n, In (EvAdd (Fin t0) a) tr /\ n <= m + 2 /\ instants a tr = every t0 d n /\
    state_id w a = Some (if Nat.leb n m then "neutral" else if Nat.leb n (m + 1) then "infected" else "dead") /\
    alive w a = Nat.ltb n (m + 2) /\
    (n < m + 2 -> n_leb (s_time s) (Fin (t0 + Z.of_nat n * d)) = true).
Proof. exact fsm_life. Qed.
Print Assumptions C241_fsm_example.

(** C242 is false: an agent of the third class is not neutral any more once it has been activated, however large
    [max_steps_neutral] is. *)
Theorem C242_infected_at_once_refuted :
  forall m d kinds s w tr a, lesson_run m d kinds s w tr -> adds_of a tr = 1 -> kinds a = LDelayed ->
  instants a tr <> [] -> state_id w a <> Some "neutral".
Proof.
  intros m d kinds s w tr a R A K N. destruct (delayed_life m d kinds s w tr a R A K) as (t0 & n & _ & _ & I & S & _).
  rewrite S. destruct n as [|[|n]]; try discriminate. rewrite I in N. now contradict N.
Qed.
Print Assumptions C242_infected_at_once_refuted.

(** C242, what holds: it is activated twice, the second time [max_steps_neutral] units of time later (not that many
    steps), or after one step if that is zero; it is infected in between and then dead. *)
Theorem C242_delayed_partial :
  forall m d kinds s w tr a, lesson_run m d kinds s w tr -> adds_of a tr = 1 -> kinds a = LDelayed ->
  let wait := if Nat.eqb m 0 then d else Z.of_nat m in
  exists t0 n, In (EvAdd (Fin t0) a) tr /\ n <= 2 /\ instants a tr = every t0 wait n /\
    state_id w a = Some (if Nat.eqb n 0 then "neutral" else if Nat.eqb n 1 then "infected" else "dead") /\
    alive w a = Nat.ltb n 2 /\
    (n < 2 -> n_leb (s_time s) (Fin (t0 + Z.of_nat n * wait)) = true).
Proof. exact delayed_life. Qed.
Print Assumptions C242_delayed_partial.

(** The runs of docs/tutorial/soil_tutorial.ipynb:342-345, 427-430 and 486-489 with one agent, and what is printed after each step
    (lines 333-337, 418-422 and 477-481 show it). *)
Section Cases.
Let after (k : lesson) (steps : nat) :=
  run_hist (tutor_user 3 (fun _ l => l)) (CAdd 0 None :: repeat CStep steps) (timed_init false (Fin 1)) (classroom (fun _ => k), no_cors).
Let printed (k : lesson) (steps : nat) :=
  let '(s, (w, _), _) := after k steps in (alive w 0, state_id w 0, s_time s).
Example C241_case_fsm : map (printed LFsm) [1; 2; 3; 4; 5] =
  [(true, Some "neutral", Fin 1); (true, Some "neutral", Fin 2); (true, Some "neutral", Fin 3);
   (true, Some "infected", Fin 4); (false, Some "dead", PInf)].
Proof. vm_compute. reflexivity. Qed.
Example C242_case_delayed : map (printed LDelayed) [1; 2; 3; 4; 5] =
  [(true, Some "infected", Fin 3); (false, Some "dead", PInf); (false, Some "dead", PInf); (false, Some "dead", PInf);
   (false, Some "dead", PInf)].
Proof. vm_compute. reflexivity. Qed.
Example C241_case_example :
  map (fun n => let '(s, (w, _), _) := after LExample n in (alive w 0, is_infected w 0, s_time s)) [1; 2; 3; 4; 5] =
  [(true, false, Fin 1); (true, false, Fin 2); (true, false, Fin 3); (true, true, Fin 4); (false, true, PInf)].
Proof. vm_compute. reflexivity. Qed.

(** Three agents of the three classes, added at 0, 0 and 2, with default interval 2 and shuffling. *)
Let kinds (a : aid) := match a with 0 => LExample | 1 => LFsm | _ => LDelayed end.
Let three := run_hist (tutor_user 3 (fun _ => @rev aid)) ([CAdd 0 None; CAdd 1 None; CStep; CAdd 2 None] ++ repeat CStep 4)
  (timed_init true (Fin 2)) (classroom kinds, no_cors).
Let s := fst (fst three).
Let w := fst (snd (fst three)).
Let tr := snd three.
Example C241_not_vacuous :
  lesson_run 3 2 kinds s w tr /\ adds_of 0 tr = 1 /\ adds_of 1 tr = 1 /\ adds_of 2 tr = 1 /\
  instants 0 tr = [Fin 0; Fin 2; Fin 4; Fin 6] /\ is_infected w 0 = true /\
  instants 1 tr = [Fin 0; Fin 2; Fin 4; Fin 6] /\ state_id w 1 = Some "infected" /\
  instants 2 tr = [Fin 2; Fin 5] /\ state_id w 2 = Some "dead" /\ s_time s = Fin 8.
Proof.
  split.
  - split.
    + exists (fun _ => @rev aid), true, ([CAdd 0 None; CAdd 1 None; CStep; CAdd 2 None] ++ repeat CStep 4), (snd (snd (fst three))).
      split; [intros _; apply Permutation_rev|]. split.
      * intros f H. cbn in H. repeat destruct H as [H|H]; try discriminate H; auto.
      * unfold s, w, tr. change (three = (fst (fst three), (fst (snd (fst three)), snd (snd (fst three))), snd three)).
        destruct three as [[s0 [w0 c0]] tr0]. reflexivity.
    + lia.
    + intros t a H. vm_compute in H. repeat destruct H as [H|H]; try discriminate H; try (injection H as <- _; eauto); destruct H.
  - vm_compute. repeat split.
Qed.
End Cases.
