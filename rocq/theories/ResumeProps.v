(** C270: agents whose step is a generator with a loop. *)
From Coq Require Import ZArith List Bool Arith String Lia Permutation.
From Verif Require Import Num PyDict TimedModel TimedSpec AgentModel FsmModel TutorSpec ResumeModel ResumeSpec ResumeProofs.
Import ListNotations.
Local Open Scope nat_scope.
Local Open Scope list_scope.

(** C270: in any run, what the agents count together is the number of activations of each of them that go on with its generator: all but the first one
    and those that come after the end of the loop, which start it (again). *)
Theorem C270_goes_on :
  forall (AR : Arith) (R : Type) turns (shuffle : list aid -> R -> R * list aid) sh di h g s w c tr ids,
  (forall f, ~ In (CWorld f) h) -> run_hist (resume_user turns shuffle) h (timed_init sh di) (resume_world g) = (s, (w, c), tr) ->
  everybody ids tr -> fst (fw_rest w) = list_sum (map (fun a => resumed (turns a) (List.length (instants a tr))) ids).
Proof. intros AR R. exact resume_count. Qed.
Print Assumptions C270_goes_on.

(** C270: an agent that is added once, at [t0], is activated at [t0] and then at each default interval, and the clock does not pass its next activation. *)
Theorem C270_every_interval :
  forall (R : Type) turns (shuffle : list aid -> R -> R * list aid) sh di h g s x tr a t0,
  (forall l g, Permutation l (snd (shuffle l g))) -> (forall f, ~ In (CWorld f) h) -> (0 <= di)%Z ->
  @run_hist exact _ (resume_user turns shuffle) h (timed_init sh (Fin di)) (resume_world g) = (s, x, tr) ->
  adds_of a tr = 1 -> In (EvAdd (Fin t0) a) tr ->
  let n := List.length (instants a tr) in
  instants a tr = map (fun k => Fin (t0 + Z.of_nat k * di)) (seq 0 n) /\ n_leb (s_time s) (Fin (t0 + Z.of_nat n * di)) = true.
Proof. intros R. exact resume_times. Qed.
Print Assumptions C270_every_interval.

Section Cases.
#[local] Existing Instance exact.
Let run (adds : list aid) (k : nat) :=
  run_hist (resume_user (fun a => match a with 0 => 5 | 1 => 0 | _ => 2 end) (fun l (g : unit) => (g, l)))
    (map (fun a => CAdd a None) adds ++ repeat CStep k) (timed_init true (Fin 1)) (resume_world tt).
(** The agent of the test: after [i + 1] steps [a] is [i] ([i] up to 5), and the seventh step does not count; and a run with two more agents, one with an
    empty loop and one with two turns. *)
Example C270_case :
  map (fun k => let '(_, (w, _), _) := run [0] k in fst (fw_rest w)) [1; 2; 3; 4; 5; 6; 7; 8] = [0; 1; 2; 3; 4; 5; 5; 6] /\
  map (resumed 5) [1; 6; 7; 8] = [0; 5; 5; 6] /\ map (resumed 2) [1; 2; 3; 4; 5] = [0; 1; 2; 2; 3] /\ resumed 0 8 = 0 /\
  (let '(s, (w, _), tr) := run [0; 1; 2] 4 in
   fst (fw_rest w) = 3 + 0 + 2 /\ s_time s = Fin 4 /\ instants 2 tr = map Fin [0; 1; 2; 3]%Z /\ adds_of 2 tr = 1 /\ In (EvAdd (Fin 0) 2) tr /\
   forallb (fun e => match e with EvAct _ a _ => Nat.ltb a 3 | _ => true end) tr = true).
Proof. vm_compute. repeat (split; [first [reflexivity|tauto]|]). reflexivity. Qed.
End Cases.
