(** Model of the agents and environments of benchmarks/noop, with the schedulers of TimedModel and PQueueModel. *)
From Coq Require Import ZArith List Bool Arith.
From Verif Require Import Num PyDict TimedModel PQueueModel AgentModel.
Import ListNotations.

(** How the step is written: a function (soil_step.py, soil_step_pqueue.py), a generator (soil_gens.py,
    soil_gens_pqueue.py) or a coroutine (soil_async.py, soil_async_pqueue.py). *)
Inductive noop := NStep | NGen | NAsync.

(** The attribute [num_calls] of the agents, the generators, and the random generator. *)
Record nworld (R : Type) := NWorld { nw_calls : aid -> nat; nw_cors : cors unit; nw_rng : R }.
Arguments NWorld {R}. Arguments nw_calls {R}. Arguments nw_cors {R}. Arguments nw_rng {R}.

Section Noop.
Context {R : Type}.
Variable kind : noop.
(** The number 1. *)
Variable one : num.

(** [self.num_calls += 1]. *)
Definition called (calls : aid -> nat) (a : aid) : aid -> nat := fun b => if Nat.eqb b a then S (calls b) else calls b.
(** benchmarks/noop/soil_gens.py:7-10: from the start, and from the [yield], to the [yield] with a
    delay of 1 (soil/agents/__init__.py:299-300, soil/time.py:18-25). *)
Definition gens_resume (s : sched) (a : aid) (q : unit) (calls : aid -> nat) : (aid -> nat) * list sop * gout unit (option num) :=
  (called calls a, [], GYield (Some one) tt).
(** benchmarks/noop/soil_async.py:7-10: [await] of a delay yields its length (soil/time.py:27-28). *)
Definition async_resume (s : sched) (a : aid) (q : unit) (calls : aid -> nat) : (aid -> nat) * list sop * gout unit (option num) :=
  (called calls a, [], GYield (Some one) tt).
Definition drive (resume : sched -> aid -> unit -> (aid -> nat) -> (aid -> nat) * list sop * gout unit (option num))
    (s : sched) (a : aid) (w : nworld R) : nworld R * list sop * outcome :=
  let '(calls, c, ops, o) :=
    decorated (fun _ => tt) resume None (fun v => match v with None => true | Some _ => false end) (fun v => v)
      s a (nw_calls w) (nw_cors w) in
  (NWorld calls c (nw_rng w), ops, o).
(** [a.step()].  benchmarks/noop/soil_step.py:7-8 is a function (soil/agents/__init__.py:49-54). *)
Definition noop_step (s : sched) (a : aid) (w : nworld R) : nworld R * list sop * outcome :=
  match kind with
  | NStep => (NWorld (called (nw_calls w) a) (nw_cors w) (nw_rng w), [], Ret None)
  | NGen => drive gens_resume s a w
  | NAsync => drive async_resume s a w
  end.

(** benchmarks/noop/soil_step.py:14: [add_agents] creates [n] agents; their ids are 1, 2, ... *)
Definition ids (n : nat) : list aid := seq 1 n.
Definition noop_world (g : R) : nworld R := NWorld (fun _ => 0) no_cors g.

(** [model.random.shuffle], and [model.random.random()] in ticks. *)
Variable shuffle : list aid -> R -> R * list aid.
Variable random : R -> R * Z.
Definition noop_user : user (nworld R) :=
  User _ noop_step (fun l w => let '(g, l') := shuffle l (nw_rng w) in (NWorld (nw_calls w) (nw_cors w) g, l')).
(** The agents do not look at the scheduler; they see one with nothing in it. *)
Definition noop_puser : puser (nworld R) :=
  PUser _ (fun _ a w => noop_step (timed_init false (Fin 0)) a w)
    (fun w => let '(g, z) := random (nw_rng w) in (NWorld (nw_calls w) (nw_cors w) g, z)).

(** A model with [n] agents, and [k] steps of it. *)
Definition noop_history (n k : nat) : list (@cmd (nworld R)) := (map (fun a => CAdd a None) (ids n) ++ repeat CStep k)%list.
Definition noop_run {AR : Arith} (shuffled : bool) (di : num) (n k : nat) (g : R) : sched * nworld R * list ev :=
  run_hist noop_user (noop_history n k) (timed_init shuffled di) (noop_world g).
(** The same with [schedule_class = PQueueActivation] (benchmarks/noop/soil_step_pqueue.py:12). *)
Definition noop_prun {AR : Arith} (fuel : nat) (shuffled : bool) (di : num) (n k : nat) (g : R) : option (pq * nworld R * list ev) :=
  pq_hist noop_puser fuel (noop_history n k) (pq_init shuffled di) (noop_world g).
(** benchmarks/noop/_config.py:20: the sum over the agents of a model. *)
Definition total_calls (reg : list aid) (w : nworld R) : nat := list_sum (map (nw_calls w) reg).
End Noop.
