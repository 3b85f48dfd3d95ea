(** Model of soil/agents/CounterModel.py and soil/agents/BassModel.py: agents whose step is a
    function (soil/agents/__init__.py:49-54). *)
From Coq Require Import ZArith List Bool Arith.
From Verif Require Import Num TimedModel.
Import ListNotations.

(** The class of an agent. *)
Inductive counter := Ticker | Counter | Aggregated | Bass.

(** The class and the neighbours (in the network) of each agent, and the attributes [times],
    [neighbors] and [total]. *)
Record cworld := CWorldOf {
  cw_class : aid -> counter;
  cw_nbrs : aid -> list aid;
  cw_times : aid -> nat; cw_neighbors : aid -> nat; cw_total : aid -> nat }.
Definition set_at {X} (f : aid -> X) (a : aid) (x : X) : aid -> X := fun b => if Nat.eqb b a then x else f b.
Definition set_times (w : cworld) (a : aid) (n : nat) : cworld :=
  CWorldOf (cw_class w) (cw_nbrs w) (set_at (cw_times w) a n) (cw_neighbors w) (cw_total w).
Definition set_neighbors (w : cworld) (a : aid) (n : nat) : cworld :=
  CWorldOf (cw_class w) (cw_nbrs w) (cw_times w) (set_at (cw_neighbors w) a n) (cw_total w).
Definition set_total (w : cworld) (a : aid) (n : nat) : cworld :=
  CWorldOf (cw_class w) (cw_nbrs w) (cw_times w) (cw_neighbors w) (set_at (cw_total w) a n).

(** soil/agents/network_agents.py:32-33 and 39-60: the neighbours among the agents of the
    scheduler. *)
Definition get_neighbors (s : sched) (w : cworld) (a : aid) : list aid :=
  filter (fun b => existsb (Nat.eqb b) (cw_nbrs w a)) (s_reg s).

(** soil/agents/CounterModel.py:7-8. *)
Definition ticker_step (w : cworld) (a : aid) : cworld := set_times w a (cw_times w a + 1).
(** soil/agents/CounterModel.py:20-26. *)
Definition counter_step (s : sched) (w : cworld) (a : aid) : cworld :=
  let total := List.length (s_reg s) in
  let neighbors := List.length (get_neighbors s w a) in
  let w1 := set_times w a (cw_times w a + 1) in
  let w2 := set_neighbors w1 a neighbors in
  set_total w2 a total.
(** soil/agents/CounterModel.py:39-46 (logging is left out). *)
Definition aggregated_step (s : sched) (w : cworld) (a : aid) : cworld :=
  let w1 := set_times w a (cw_times w a + 1) in
  let neighbors := List.length (get_neighbors s w1 a) in
  let w2 := set_neighbors w1 a (cw_neighbors w1 a + neighbors) in
  let total := List.length (s_reg s) in
  set_total w2 a (cw_total w2 a + total).

(** soil/agents/__init__.py:49-54: they return None.  The step of BassModel
    (soil/agents/BassModel.py:13-14) calls [self.behaviour], which neither BassModel nor one of
    its bases has: AttributeError. *)
Definition normal_step (s : sched) (a : aid) (w : cworld) : cworld * list sop * outcome :=
  match cw_class w a with
  | Ticker => (ticker_step w a, [], Ret None)
  | Counter => (counter_step s w a, [], Ret None)
  | Aggregated => (aggregated_step s w a, [], Ret None)
  | Bass => (w, [], Exc)
  end.
(** Shuffling changes the random generator, which is not part of the world here. *)
Definition counter_user (shuffle : list aid -> list aid) : user cworld :=
  User _ normal_step (fun l w => (w, shuffle l)).
