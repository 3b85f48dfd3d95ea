(** C124 and C125: the counters, and BassModel. *)
From Coq Require Import ZArith List Bool Arith.
From Verif Require Import Num TimedModel CounterModel CounterSpec CounterProofs.
Import ListNotations.

(** C124.  The attribute [times] of Ticker, CounterModel and AggregatedCounter counts the
    activations, whatever is added and removed and whoever raises. *)
Theorem C124_activations_are_counted :
  forall (AR : Arith) shuffle h s w s' w' tr, hands_off h ->
  run_hist (counter_user shuffle) h s w = (s', w', tr) ->
  forall a, cw_class w a <> Bass -> cw_times w' a = cw_times w a + activated a tr.
Proof. exact times_counted. Qed.
Print Assumptions C124_activations_are_counted.
(** C124.  A CounterModel has the numbers of its neighbours and of the agents; an
    AggregatedCounter adds them up. *)
Theorem C124_neighbours_are_counted :
  forall (AR : Arith) shuffle n s w s' w' tr, NoDup (s_reg s) ->
  run_hist (counter_user shuffle) (repeat CStep n) s w = (s', w', tr) ->
  forall a l, common (cw_nbrs w a) (s_reg s) l ->
  (cw_class w a = Counter -> 0 < activated a tr ->
     cw_neighbors w' a = List.length l /\ cw_total w' a = List.length (s_reg s)) /\
  (cw_class w a = Aggregated ->
     cw_neighbors w' a = cw_neighbors w a + activated a tr * List.length l /\
     cw_total w' a = cw_total w a + activated a tr * List.length (s_reg s)) /\
  (cw_class w a = Counter -> activated a tr = 0 ->
     cw_neighbors w' a = cw_neighbors w a /\ cw_total w' a = cw_total w a).
Proof. exact neighbours_counted. Qed.
Print Assumptions C124_neighbours_are_counted.

(** Three agents, of which the first two are neighbours of the third (7 is not scheduled). *)
#[local] Instance tenths : Arith := exact.
Definition three : cworld :=
  CWorldOf (fun a => match a with 0 => Ticker | 1 => Counter | _ => Aggregated end)
    (fun a => match a with 2 => [0; 1; 7] | _ => [2] end) (fun _ => 0) (fun _ => 0) (fun _ => 0).
Definition start : sched :=
  fst (fst (run_hist (counter_user (@rev aid)) [CAdd 0 None; CAdd 1 None; CAdd 2 None] (timed_init true (Fin 10)) three)).
Example C124_not_vacuous :
  NoDup (s_reg start) /\ common (cw_nbrs three 2) (s_reg start) [0; 1] /\
  let '(s', w', tr) := run_hist (counter_user (@rev aid)) (repeat CStep 4) start three in
  map (fun a => activated a tr) [0; 1; 2] = [4; 4; 4] /\
  map (fun a => (cw_times w' a, cw_neighbors w' a, cw_total w' a)) [0; 1; 2] = [(4, 0, 0); (4, 1, 3); (4, 8, 12)].
Proof.
  split; [|split].
  - change (NoDup [0; 1; 2]). repeat constructor; simpl; intuition discriminate.
  - split; [repeat constructor; simpl; intuition discriminate|].
    intros b. change (s_reg start) with [0; 1; 2]. cbn. intuition.
  - vm_compute. auto.
Qed.

(** C125 is false: the step of BassModel calls a method that does not exist, so that every
    activation of such an agent raises AttributeError. *)
Theorem C125_bass_agents_raise_refuted :
  forall (AR : Arith) shuffle h s w s' w' tr, hands_off h ->
  run_hist (counter_user shuffle) h s w = (s', w', tr) ->
  forall t a o, cw_class w a = Bass -> In (EvAct t a o) tr -> o = Exc.
Proof. exact bass_raises. Qed.
Print Assumptions C125_bass_agents_raise_refuted.
Example C125_not_vacuous :
  let w := CWorldOf (fun a => match a with 0 => Ticker | _ => Bass end) (fun _ => []) (fun _ => 0) (fun _ => 0) (fun _ => 0) in
  snd (run_hist (counter_user (fun l => l)) [CAdd 0 None; CAdd 1 None; CStep; CStep] (timed_init true (Fin 10)) w) =
  [EvAdd (Fin 0) 0; EvAdd (Fin 0) 1; EvAct (Fin 0) 0 (Ret None); EvAct (Fin 0) 1 Exc].
Proof. reflexivity. Qed.
