(** C256: the agent of tests/test_time.py, which waits for a condition by asking again and again. *)
From Coq Require Import ZArith List Bool Arith String Lia Permutation.
From Verif Require Import Num PyDict TimedModel TimedSpec AgentModel FsmModel TutorSpec PollModel PollSpec PollProofs.
Import ListNotations.
Local Open Scope nat_scope.
Local Open Scope list_scope.

(** C256: an agent that is added once, at [t0], and waits for the instant [T] by asking every [d], among others that do the same with their own
    delays and instants: it is activated every [d] until it sees the clock at [T] or later, and every [di] from then on, and the clock does not pass
    its next activation.  Its function begins at the first activation and again at each one after the end of the wait; it finds the condition at
    those from the end of the wait on, and at no other. *)
Theorem C256_polling :
  forall (R : Type) (delay target : aid -> num) (shuffle : list aid -> R -> R * list aid) sh di h g s w c tr a t0 d T m,
  (forall l g, Permutation l (snd (shuffle l g))) -> (forall f, ~ In (CWorld f) h) -> (0 <= di)%Z ->
  (forall b, exists z, delay b = Fin z /\ (0 <= z)%Z) ->
  @run_hist exact _ (poll_user delay target shuffle) h (timed_init sh (Fin di)) (poll_world g) = (s, (w, c), tr) ->
  adds_of a tr = 1 -> In (EvAdd (Fin t0) a) tr -> delay a = Fin d -> target a = Fin T -> (0 < d)%Z -> seen_first t0 d T m ->
  let n := List.length (instants a tr) in
  let ts := poll_times t0 d di m n in
  instants a tr = ts /\ n_leb (s_time s) (Fin (poll_at t0 d di m n)) = true /\
  p_started (fw_rest w) a = firstn 1 ts ++ skipn (S m) ts /\ p_asleep (fw_rest w) a = firstn 1 ts ++ skipn (S m) ts /\
  p_awake (fw_rest w) a = skipn m ts /\ p_done (fw_rest w) a = skipn m ts.
Proof. intros R. exact poll_life. Qed.
Print Assumptions C256_polling.

(** C256: there is always such a number of waits, and only one; the condition is seen less than [d] after it is met. *)
Theorem C256_less_than_a_delay_late :
  forall t0 d T, (0 < d)%Z ->
  exists m, seen_first t0 d T m /\ (forall m', seen_first t0 d T m' -> m' = m) /\
  forall di, (Z.max t0 T <= poll_at t0 d di m m < Z.max t0 T + d)%Z.
Proof. exact poll_late. Qed.
Print Assumptions C256_less_than_a_delay_late.

Section Cases.
#[local] Existing Instance exact.
Let run (k : nat) :=
  run_hist (poll_user (fun a => Fin (match a with 0 => 2 | _ => 3 end)) (fun _ => Fin 10) (fun l (g : unit) => (g, l)))
    (CAdd 0 None :: CAdd 1 None :: repeat CStep k) (timed_init true (Fin 1)) (poll_world tt).
(** The agent of the test, and one that asks every 3 and is late. *)
Example C256_case :
  seen_first 0 2 10 5 /\ seen_first 0 3 10 4 /\
  poll_times 0 2 1 5 8 = map Fin [0; 2; 4; 6; 8; 10; 11; 12]%Z /\ poll_times 0 3 1 4 5 = map Fin [0; 3; 6; 9; 12]%Z /\
  let '(s, (w, _), tr) := run 10 in
  s_time s = Fin 13 /\ adds_of 0 tr = 1 /\ In (EvAdd (Fin 0) 0) tr /\ instants 0 tr = map Fin [0; 2; 4; 6; 8; 10; 11; 12]%Z /\
  p_started (fw_rest w) 0 = map Fin [0; 11; 12]%Z /\ p_awake (fw_rest w) 0 = map Fin [10; 11; 12]%Z /\ p_done (fw_rest w) 0 = map Fin [10; 11; 12]%Z /\
  instants 1 tr = map Fin [0; 3; 6; 9; 12]%Z /\ p_awake (fw_rest w) 1 = [Fin 12].
Proof.
  split; [split; [lia|intros k H; lia]|]. split; [split; [lia|intros k H; lia]|].
  vm_compute. repeat (split; [first [reflexivity|now left]|]). reflexivity.
Qed.
End Cases.
