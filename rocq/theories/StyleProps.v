(** C254 and C255: the styles of tests/test_agents.py:181-375. *)
From Coq Require Import ZArith List Bool Arith String Lia Permutation.
From Verif Require Import Num PyDict TimedModel TimedSpec TraceProofs AgentModel FsmModel TutorSpec StyleModel StyleSpec StyleProofs.
Import ListNotations.
Local Open Scope nat_scope.
Local Open Scope list_scope.

(** C254: whether each agent is a chain of states, handles its state by hand or is a generator makes no difference.  The same history of steps,
    additions and removals gives the same trace (all activations, with their instants and what they ask for), the
    same clock, queue and counters, and each agent is in the same state. *)
Theorem C254_styles_agree :
  forall (AR : Arith) (R : Type) (scripts : aid -> script) (shuffle : list aid -> R -> R * list aid) styles styles' sh di h g s w c tr,
  (forall f, ~ In (CWorld f) h) ->
  run_hist (style_user scripts shuffle) h (timed_init sh di) (style_world scripts styles g) = (s, (w, c), tr) ->
  exists w' c',
    run_hist (style_user scripts shuffle) h (timed_init sh di) (style_world scripts styles' g) = (s, (w', c'), tr) /\
    forall a i, in_state styles w a i <-> in_state styles' w' a i.
Proof. intros AR R. exact styles_agree. Qed.
Print Assumptions C254_styles_agree.

(** C254: the [n]-th activation of an agent (from 0) asks for its [n]-th wait, and after [n] activations it is in the state of its script after [n]
    waits and in no other. *)
Theorem C254_waits_in_order :
  forall (AR : Arith) (R : Type) (scripts : aid -> script) (shuffle : list aid -> R -> R * list aid) styles sh di h g s w c tr a,
  (forall f, ~ In (CWorld f) h) ->
  run_hist (style_user scripts shuffle) h (timed_init sh di) (style_world scripts styles g) = (s, (w, c), tr) ->
  (forall n t o, nth_error (acts_of a tr) n = Some (t, o) -> o = asks t (fst (nth_wait (scripts a) n))) /\
  forall i, in_state styles w a i <-> i = state_after (scripts a) (List.length (acts_of a tr)).
Proof. intros AR R. exact script_track. Qed.
Print Assumptions C254_waits_in_order.

(** C255: when nobody asks for the past, an agent that is added once, at [t0], is activated exactly at the instants of its script: after a delay, at
    the instant given, or after the default interval; and the clock does not pass the next of them. *)
Theorem C255_instants_of_a_script :
  forall (R : Type) (scripts : aid -> script) (shuffle : list aid -> R -> R * list aid) styles sh di h g s w c tr a t0,
  (forall l g, Permutation l (snd (shuffle l g))) -> (forall f, ~ In (CWorld f) h) -> (0 <= di)%Z ->
  @run_hist exact _ (@style_user exact _ scripts shuffle) h (timed_init sh (Fin di)) (style_world scripts styles g) = (s, (w, c), tr) ->
  forward_trace tr -> adds_of a tr = 1 -> In (EvAdd (Fin t0) a) tr ->
  let n := List.length (instants a tr) in
  instants a tr = timeline di (scripts a) n 0 t0 /\
  (forall t', nth_error (timeline di (scripts a) (S n) 0 t0) n = Some t' -> n_leb (s_time s) t' = true) /\
  in_state styles w a (state_after (scripts a) n).
Proof. intros R. exact script_life. Qed.
Print Assumptions C255_instants_of_a_script.

(** The script of the tests: [one] goes to [two], [two] to [three] at 10, [three] to [four] after 1, [four] waits for 2 and goes to [five] after 3, and
    [five] waits for 1 again and again. *)
Definition test_script : script :=
  Script [Phase [] WNone; Phase [] (WAt (Fin 10)); Phase [] (WDelay (Fin 1)); Phase [WDelay (Fin 2)] (WDelay (Fin 3))] (WDelay (Fin 1)).
Section Cases.
#[local] Existing Instance exact.
Let run (st : style) (k : nat) :=
  run_hist (style_user (fun _ => test_script) (fun l (g : unit) => (g, l))) (CAdd 0 None :: repeat CStep k) (timed_init true (Fin 1))
    (style_world (fun _ => test_script) (fun _ => st) tt).
(** What the tests look at: the clock after each step, and the state. *)
Example C255_case :
  timeline 1 test_script 8 0 0 = map Fin [0; 1; 10; 11; 13; 16; 17; 18]%Z /\
  map (state_after test_script) (seq 0 8) = [0; 1; 2; 3; 3; 4; 4; 4] /\
  forall st, In st [ByStates; ByHand; ByGenerator] ->
    map (fun k => s_time (fst (fst (run st k)))) (seq 0 7) = map Fin [0; 1; 10; 11; 13; 16; 17]%Z /\
    instants 0 (snd (run st 6)) = map Fin [0; 1; 10; 11; 13; 16]%Z.
Proof.
  split; [vm_compute; reflexivity|]. split; [vm_compute; reflexivity|].
  intros st [<-|[<-|[<-|[]]]]; vm_compute; split; reflexivity.
Qed.
(** Three agents, one of each style, with different scripts; every second shuffle reverses. *)
Let scripts (a : aid) : script :=
  match a with 0 => test_script | 1 => Script [Phase [WDelay (Fin 2); WNone] (WAt (Fin 7))] WNone | _ => Script [] (WDelay (Fin 5)) end.
Let mixed (styles : aid -> style) (k : nat) :=
  run_hist (style_user scripts (fun l (g : nat) => (S g, if Nat.even g then rev l else l))) (map (fun a => CAdd a None) [0; 1; 2] ++ repeat CStep k)
    (timed_init true (Fin 1)) (style_world scripts styles 0).
Example C254_case :
  let tr := snd (mixed (fun a => match a with 0 => ByStates | 1 => ByGenerator | _ => ByHand end) 10) in
  snd (mixed (fun a => match a with 0 => ByHand | 1 => ByStates | _ => ByGenerator end) 10) = tr /\
  map fst (acts_of 0 tr) = map Fin [0; 1; 10; 11]%Z /\ map fst (acts_of 1 tr) = map Fin [0; 2; 3; 7; 8; 9; 10; 11]%Z /\
  map fst (acts_of 2 tr) = map Fin [0; 5; 10]%Z /\ forward_trace tr.
Proof.
  cbn zeta. repeat (split; [vm_compute; reflexivity|]).
  apply Forall_forall. apply Forall_forall. vm_compute. repeat (apply Forall_cons; [first [reflexivity|exact Logic.I]|]). apply Forall_nil.
Qed.
End Cases.
