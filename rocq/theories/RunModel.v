(** Model of one iteration of a simulation: soil/simulation.py:236-280 ([_run_model]),
    soil/environment.py:189-202 ([BaseEnvironment.step]), soil/datacollection.py and the
    part of mesa's [DataCollector] that keeps the model variables. *)
From Coq Require Import ZArith List Bool Arith String.
From Verif Require Import Num PyDict TimedModel.
Import ListNotations.
Local Open Scope string_scope.

(** What a model reporter returns: the clock, the number of agents, or whatever the
    user's own reporter computes. *)
Inductive cell (V : Type) := CTime (t : num) | CCount (n : nat) | CUser (v : V).
Arguments CTime {V}. Arguments CCount {V}. Arguments CUser {V}.

Section WithUser.
Context {AR : Arith}.
Context {W V : Type}.
Variable u : user W.
(** [model.running]: mesa sets it to True, user code can change it. *)
Variable running : W -> bool.

(** A model reporter is a function of the model.  Simplification: reporters raise
    nothing and change nothing. *)
Definition reporter := sched -> W -> cell V.

(** mesa [DataCollector]: [model_reporters] and [model_vars]. *)
Record collector := Collector {
  c_reps : dict string reporter;
  c_vars : dict string (list (cell V)) }.

(** mesa [DataCollector._new_model_reporter]. *)
Definition new_reporter (c : collector) (name : string) (f : reporter) : collector :=
  Collector (dset name f (c_reps c)) (dset name [] (c_vars c)).

(** soil/datacollection.py:9-10 and 11-12: the two default reporters. *)
Definition rep_count : reporter := fun s _ => CCount (List.length (s_reg s)).
Definition rep_time : reporter := fun s _ => CTime (s_time s).

(** soil/datacollection.py:5-12: the dictionary of reporters with the defaults. *)
Definition with_defaults (mr : dict string reporter) : dict string reporter :=
  let mr1 := if dhas "agent_count" mr then mr else dset "agent_count" rep_count mr in
  if dhas "time" mr1 then mr1 else dset "time" rep_time mr1.

(** soil/datacollection.py:5-19 [SoilCollector.__init__], and mesa's constructor. *)
Definition soil_collector (mr : dict string reporter) : collector :=
  fold_left (fun c p => new_reporter c (fst p) (snd p)) (with_defaults mr) (Collector [] []).

(** mesa [DataCollector.collect], model variables only. *)
Definition collect (c : collector) (s : sched) (w : W) : collector :=
  Collector (c_reps c)
    (fold_left (fun vars p =>
       match dget (fst p) vars with
       | Some col => dset (fst p) (col ++ [snd p s w])%list vars
       | None => vars
       end) (c_reps c) (c_vars c)).

(** The environment: scheduler, data collector and everything else. *)
Record env := Env { e_sched : sched; e_world : W; e_col : collector }.

(** soil/environment.py:40-65 and 83-110, seen from the collector: it is created with
    the reporters given to the constructor, then come the reporters of the decorated
    attributes and of the calls to [add_model_reporter] in [init] ([more]); the first row
    is collected when the scheduler and the world are [s] and [w]. *)
Definition make_env (mr : dict string reporter) (more : list (string * reporter))
  (s : sched) (w : W) : env :=
  let c := fold_left (fun c p => new_reporter c (fst p) (snd p)) more (soil_collector mr) in
  Env s w (collect c s w).

(** soil/environment.py:189-202 [BaseEnvironment.step] (mesa's [Model.step] does
    nothing; the logging is left out).  The boolean tells that an exception escaped, in
    which case nothing is collected. *)
Definition env_step (e : env) : env * list ev * bool :=
  let '(s, w, tr, x) := timed_step u (e_sched e) (e_world e) in
  if x then (Env s w (e_col e), tr, true)
  else (Env s w (collect (e_col e) s w), tr, false).

(** The two limits of a simulation, soil/simulation.py:94-95. *)
Record limits := Limits { max_time : option num; max_steps : option Z }.

(** soil/simulation.py:248-255: the test [is_done]. *)
Definition is_done (l : limits) (e : env) : bool :=
  let s := e_sched e in
  negb (running (e_world e))
  || match max_time l with Some t => n_leb t (s_time s) | None => false end
  || match max_steps l with Some m => (m <=? Z.of_nat (s_steps s))%Z | None => false end.

(** How a run ends.  [RFuel]: the loop is still running after the given number of
    iterations. *)
Inductive run_result :=
| RNoAgents
| RReturned (e : env) (tr : list ev)
| RRaised (e : env) (tr : list ev)
| RFuel.

Definition after (tr : list ev) (r : run_result) : run_result :=
  match r with
  | RReturned e tr2 => RReturned e (tr ++ tr2)
  | RRaised e tr2 => RRaised e (tr ++ tr2)
  | _ => r
  end.

(** soil/simulation.py:274-278: the main loop. *)
Fixpoint run_loop (fuel : nat) (l : limits) (e : env) : run_result :=
  match fuel with
  | O => RFuel
  | S fuel' =>
      if is_done l e then RReturned e []
      else
        let '(e1, tr, x) := env_step e in
        if x then RRaised e1 tr else after tr (run_loop fuel' l e1)
  end.

(** soil/simulation.py:236-280 [Simulation._run_model], from the moment in which the
    model has been built. *)
Definition run_model (fuel : nat) (l : limits) (e : env) : run_result :=
  match s_reg (e_sched e) with
  | [] => RNoAgents
  | _ => run_loop fuel l e
  end.
End WithUser.
