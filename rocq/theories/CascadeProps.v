(** C126: IndependentCascadeModel. *)
From Coq Require Import ZArith List Bool Arith String.
From Verif Require Import Num PyDict TimedModel AgentModel FsmModel CascadeModel CascadeSpec CascadeProofs.
Import ListNotations.
Local Open Scope string_scope.

(** C126 is false: no neighbour counts, because no state is called 1; an agent that imitates stays as
    it is for ever, whatever its neighbours, the parameters and the draws. *)
Theorem C126_imitators_stay_refuted :
  forall times pred (AR : Arith) shuffle, zero_product times -> only_draws shuffle ->
  forall h s s' w w' c' tr, hands_off h -> good_draws (fw_rest w) -> all_cascade w ->
  run_hist (cascade_user times pred shuffle) h s (w, no_cors) = (s', (w', c'), tr) ->
  forall a, in_state "imitate" w a -> in_state "imitate" w' a /\
    ar_correlation (fw_rest w') a = ar_correlation (fw_rest w) a /\ ar_aware (fw_rest w') a = ar_aware (fw_rest w) a.
Proof. exact for_ever. Qed.
Print Assumptions C126_imitators_stay_refuted.
(** C126 for agents that are outside: with the probability of innovation they become aware. *)
Theorem C126_innovation_partial :
  forall times pred fs s a w c, all_cascade w -> in_state "outside" w a ->
  fa_alive (fw_agents w a) = true -> get_co c a = None ->
  exists w' c', agent_step (cascade_code times pred) fs s a (w, c) = (w', c', [], Ret None) /\
  if n_ltb (ar_draws (fw_rest w) 0) (ar_innovation (fw_rest w))
  then in_state "imitate" w' a /\ ar_correlation (fw_rest w') a = 1 /\ ar_aware (fw_rest w') a = s_time s
  else in_state "outside" w' a /\ ar_correlation (fw_rest w') a = ar_correlation (fw_rest w) a /\
       ar_aware (fw_rest w') a = ar_aware (fw_rest w) a.
Proof. exact outside_activation. Qed.
Print Assumptions C126_innovation_partial.

(** Two neighbours that become aware at once; imitation is sure (in tenths: 10, and all draws 0). *)
Definition pair : fworld afun arest :=
  FWorld (fun _ => new_cascade)
    (ARest (Fin 10) (Fin 10) (fun a => match a with 0 => [1] | 1 => [0] | _ => [] end)
       (fun _ => 0) (fun _ => Fin 0) (fun _ => Fin 0)).
Definition by_count (n : nat) (p : num) : num := match p with Fin z => Fin (Z.of_nat n * z) | _ => NaN end.
Definition before (t : num) : num := match t with Fin z => Fin (z - 1) | _ => t end.
#[local] Instance tenths : Arith := exact.
Definition after (n : nat) : list (string * nat * num) :=
  let '(_, (w, _), _) := run_hist (cascade_user by_count before (fun l r => (r, l)))
      ([CAdd 0 None; CAdd 1 None] ++ repeat CStep n)%list (timed_init false (Fin 1)) (pair, no_cors) in
  map (fun a => (match fa_cur (fw_agents w a) with Some st => st_name st | None => "" end,
                 ar_correlation (fw_rest w) a, ar_aware (fw_rest w) a)) [0; 1].
Example C126_not_vacuous :
  zero_product by_count /\ only_draws (fun l r => (r, l)) /\ good_draws (fw_rest pair) /\ all_cascade pair /\
  map after [0; 1; 5] =
  [[("outside", 0, Fin 0); ("outside", 0, Fin 0)]; [("imitate", 1, Fin 0); ("imitate", 1, Fin 0)];
   [("imitate", 1, Fin 0); ("imitate", 1, Fin 0)]].
Proof.
  split; [|split; [|split; [|split]]]; try reflexivity.
  - intros [z| | |]; cbn; auto.
  - intros l r G. auto.
  - intros n. reflexivity.
  - intros a. split; [reflexivity|]. exists "outside", outside. split; [cbn; auto|split; reflexivity].
Qed.
