(** C269: agents that go to and fro between two states. *)
From Coq Require Import ZArith List Bool Arith String Lia Permutation.
From Verif Require Import Num PyDict TimedModel TimedSpec AgentModel FsmModel TutorSpec ToggleModel ToggleSpec ToggleProofs.
Import ListNotations.
Local Open Scope nat_scope.
Local Open Scope list_scope.

(** C269: an agent that is added once, at [t0], among others that go to and fro with their own delays: it is activated first at [t0], then after the wait
    of the first state and that of the second in turn; the clock does not pass its next activation; and its state is the first one after an even number
    of activations and the second one after an odd number. *)
Theorem C269_to_and_fro :
  forall (R : Type) (d_ping d_pong : aid -> option num) (shuffle : list aid -> R -> R * list aid) sh di h g s w c tr a t0 p q,
  (forall l g, Permutation l (snd (shuffle l g))) -> (forall f, ~ In (CWorld f) h) -> (0 <= di)%Z ->
  (forall b, exists p q, gap di (d_ping b) p /\ gap di (d_pong b) q) ->
  @run_hist exact _ (toggle_user d_ping d_pong shuffle) h (timed_init sh (Fin di)) (toggle_world g) = (s, (w, c), tr) ->
  adds_of a tr = 1 -> In (EvAdd (Fin t0) a) tr -> gap di (d_ping a) p -> gap di (d_pong a) q ->
  let n := List.length (instants a tr) in
  instants a tr = map (fun k => Fin (toggle_at t0 p q k)) (seq 0 n) /\
  n_leb (s_time s) (Fin (toggle_at t0 p q n)) = true /\
  state_id w a = Some (if Nat.even n then "ping" else "pong")%string.
Proof. intros R. exact toggle_life. Qed.
Print Assumptions C269_to_and_fro.

Section Cases.
#[local] Existing Instance exact.
Let run (k : nat) :=
  run_hist (toggle_user (fun a => match a with 0 => Some (Fin 2) | 1 => None | _ => Some (Fin 0) end)
             (fun a => match a with 2 => Some (Fin 4) | _ => None end) (fun l (g : unit) => (g, l)))
    (CAdd 0 None :: CAdd 1 None :: CStep :: CAdd 2 None :: repeat CStep k) (timed_init true (Fin 1)) (toggle_world tt).
(** The agents of the two tests, and one that is added later, with a delay of 0 and one of 4. *)
Example C269_case :
  gap 1 (Some (Fin 2)) 2 /\ gap 1 None 1 /\ gap 1 (Some (Fin 0)) 1 /\ gap 1 (Some (Fin 4)) 4 /\
  let '(s, (w, _), tr) := run 6 in
  s_time s = Fin 7 /\ adds_of 0 tr = 1 /\ In (EvAdd (Fin 0) 0) tr /\ In (EvAdd (Fin 1) 2) tr /\
  instants 0 tr = map Fin [0; 2; 3; 5; 6]%Z /\ state_id w 0 = Some "pong"%string /\
  instants 1 tr = map Fin [0; 1; 2; 3; 4; 5; 6]%Z /\ state_id w 1 = Some "pong"%string /\
  instants 2 tr = map Fin [1; 2; 6]%Z /\ state_id w 2 = Some "pong"%string.
Proof.
  split; [constructor; lia|]. split; [constructor|]. split; [constructor|]. split; [constructor; lia|].
  vm_compute. repeat (split; [first [reflexivity|tauto]|]). reflexivity.
Qed.
End Cases.
