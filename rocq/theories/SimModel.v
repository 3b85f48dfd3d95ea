(** Model of [Simulation.run] and its helpers, soil/simulation.py:130-234, and of
    [run_parallel] and [int_seed], soil/utils.py:127-160. *)
From Coq Require Import ZArith List Bool Arith String Ascii.
From Coq Require DecimalString DecimalNat.
From Verif Require Import PyDict.
Import ListNotations.
Local Open Scope string_scope.
Local Open Scope list_scope.

(** The result of a loop over the results of [run_parallel]: the final state, what was
    observed, and the results whose loop body was completed (None: an exception
    escaped). *)
Section RunParallel.
Context {S T A B : Type}.
(** The function that is called and the body of the loop over its results: arbitrary code
    that changes the state and may raise (None, or true). *)
Variable func : A -> S -> S * list T * option B.
Variable body : B -> S -> S * list T * bool.

(** soil/utils.py:154-156: one process.  [run_parallel] is a generator, so that each call
    is followed by the body of the loop. *)
Fixpoint serial (js : list A) (x : S) : S * list T * option (list B) :=
  match js with
  | [] => (x, [], Some [])
  | j :: js' =>
      let '(x1, tr1, r) := func j x in
      match r with
      | None => (x1, tr1, None)
      | Some e =>
          let '(x2, tr2, b) := body e x1 in
          if b then (x2, tr1 ++ tr2, None)
          else
            let '(x3, tr3, r3) := serial js' x2 in
            (x3, tr1 ++ tr2 ++ tr3, option_map (cons e) r3)
      end
  end.

(** Whether the task and its result can be sent to and from a process (pickled). *)
Variable shipped : A -> bool.

(** soil/utils.py:127-153: a pool.  [js]: the tasks in the order in which they finish.
    A call works on a copy of the state of the caller, [x0]; what it changes is lost.
    Its exceptions are logged and skipped, the ones of the transport are not.
    Simplification: a process that runs several tasks starts each one with a fresh copy. *)
Fixpoint pool (x0 : S) (js : list A) (x : S) : S * list T * option (list B) :=
  match js with
  | [] => (x, [], Some [])
  | j :: js' =>
      if negb (shipped j) then (x, [], None) else
      let '(_, tr1, r) := func j x0 in
      match r with
      | None => let '(x3, tr3, r3) := pool x0 js' x in (x3, tr1 ++ tr3, r3)
      | Some e =>
          let '(x2, tr2, b) := body e x in
          if b then (x2, tr1 ++ tr2, None)
          else
            let '(x3, tr3, r3) := pool x0 js' x2 in
            (x3, tr1 ++ tr2 ++ tr3, option_map (cons e) r3)
      end
  end.
End RunParallel.

(** [int.from_bytes(b, "little")] *)
Fixpoint from_bytes_little (b : list ascii) : N :=
  match b with
  | [] => 0%N
  | c :: b' => (N_of_ascii c + 256 * from_bytes_little b')%N
  end.

(** soil/utils.py:159-160 [int_seed]; a string stands for its encoding in UTF-8. *)
Definition int_seed (seed : string) : N := from_bytes_little (list_ascii_of_string seed).

(** [str(n)] for a non-negative number. *)
Definition str_nat (n : nat) : string := DecimalString.NilZero.string_of_uint (Nat.to_uint n).

(** soil/simulation.py:227: the seed of an iteration. *)
Definition iteration_seed (seed iteration_id : string) : string :=
  (seed ++ "_iteration_" ++ iteration_id)%string.

Section Sim.
(** [V]: parameter values, [R]: reporters, [E]: environments, [W]: everything else that
    iterations and exporters can read and change. *)
Context {V R E W : Type}.

(** A parameter is a dictionary of reporters (only looked at under the names
    "agent_reporters" and "model_reporters") or any other value. *)
Inductive param := PVal (v : V) | PReps (d : @dict string R).
Definition config := @dict string param.

(** The fields of the dataclass (soil/simulation.py:80-107) that matter here;
    [n_exporters] is the length of [exporters]. *)
Record sim := Sim {
  parameters : config;
  matrix : @dict string (list param);
  seed : string;
  iterations : nat;
  num_processes : Z;
  dry_run : bool;
  n_exporters : nat;
  model_reporters : @dict string R;
  agent_reporters : @dict string R }.

(** itertools.product *)
Fixpoint product {A} (ls : list (list A)) : list (list A) :=
  match ls with
  | [] => [[]]
  | l :: ls' => flat_map (fun x => map (cons x) (product ls')) l
  end.

Definition is_nil {A} (l : list A) : bool := match l with [] => true | _ => false end.

(** soil/simulation.py:174-189 [_collect_params]. *)
Definition collect_params (s : sim) : list config :=
  let ps1 := if is_nil (parameters s) then [] else [parameters s] in
  let ps2 := if is_nil (matrix s) then []
             else map (fun values => dict_of (combine (dkeys (matrix s)) values))
                      (product (dvalues (matrix s))) in
  let ps := ps1 ++ ps2 in
  if is_nil ps then [[]] else ps.

(** The arguments that the model class is called with (soil/simulation.py:225-234). *)
Record args := Args {
  a_id : string;
  a_seed : string;
  a_agent_reporters : @dict string R;
  a_model_reporters : @dict string R;
  a_params : config }.

(** What is observed: the model is built and run (with which result; None: an exception),
    or a method of the exporter number [i] is called. *)
Inductive call :=
| XNew (i : nat)
| XStart (i : nat)
| XIter (i : nat) (e : E) (p : config)
| XEnd (i : nat).
Inductive tev := TRun (a : args) (e : option E) | TCall (c : call).

(** The state of a simulation while it runs: its dictionaries of model and agent
    reporters, and the world. *)
Record st := St {
  st_mr : @dict string R;
  st_ar : @dict string R;
  st_w : W }.

(** Building the model and running it until it is done: arbitrary code.  The two
    dictionaries of reporters are passed by reference, so that it may change them. *)
Variable build : args -> W -> st * option E.
(** A method of an exporter: arbitrary code; the boolean tells whether it raised.
    Simplification: it does not change the dictionaries of the simulation. *)
Variable exporter : call -> W -> W * bool.
(** The order in which the processes of a pool finish their tasks, and whether a task and
    its result can be pickled. *)
Variable pool_order : list nat -> W -> list nat.
Variable picklable : nat -> bool.
(** The integer value of a parameter, if it is one. *)
Variable int_of : V -> option Z.
(** The environment variable SOIL_DEBUG is set. *)
Variable soil_debug : bool.

(** Calls of exporter methods, in order, up to the first one that raises. *)
Fixpoint call_all (cs : list call) (w : W) : W * list tev * bool :=
  match cs with
  | [] => (w, [], false)
  | c :: cs' =>
      let '(w1, x) := exporter c w in
      if x then (w1, [TCall c], true)
      else let '(w2, tr, x2) := call_all cs' w1 in (w2, TCall c :: tr, x2)
  end.

Definition exporters_do (s : sim) (f : nat -> call) (x : st) : st * list tev * bool :=
  let '(w1, tr, b) := call_all (map f (seq 0 (n_exporters s))) (st_w x) in
  (St (st_mr x) (st_ar x) w1, tr, b).

(** [params.pop(key, {})]; None if it is no dictionary: then [update] raises. *)
Definition reps_of (key : string) (p : config) : option (@dict string R) :=
  match dget key p with
  | None => Some []
  | Some (PReps d) => Some d
  | Some (PVal _) => None
  end.

(** soil/simulation.py:215-234 [_get_env] and 236-280 [_run_model]: one iteration.  The
    parameters are passed as keyword arguments, so that names that are already taken
    raise TypeError; the reporters of the simulation are updated in place. *)
Definition run_model (s : sim) (p : config) (j : nat) (x : st) : st * list tev * option E :=
  if existsb (fun k => dhas k p) ["self"; "iteration_id"] then (x, [], None) else
  match reps_of "agent_reporters" p with
  | None => (x, [], None)
  | Some ars =>
      let ar1 := dupdate (st_ar x) ars in
      match reps_of "model_reporters" p with
      | None => (St (st_mr x) ar1 (st_w x), [], None)
      | Some mrs =>
          let mr1 := dupdate (st_mr x) mrs in
          if existsb (fun k => dhas k p) ["id"; "seed"; "dir_path"; "logger"; "tables"]
          then (St mr1 ar1 (st_w x), [], None)
          else
            let a := Args (str_nat j) (iteration_seed (seed s) (str_nat j)) ar1 mr1
                       (ddel "model_reporters" (ddel "agent_reporters" p)) in
            let '(x1, r) := build a (st_w x) in
            (x1, [TRun a r], r)
      end
  end.

(** soil/simulation.py:164-167: the body of the loop over the environments. *)
Definition export (s : sim) (p : config) (e : E) (x : st) : st * list tev * bool :=
  exporters_do s (fun i => XIter i e p) x.

(** soil/simulation.py:164-167 and 191-213 [_run_iters_for_params], soil/utils.py:143-156:
    the iterations of a configuration.  The field [num_processes] is not forwarded, but
    the parameter of that name, if there is one, is taken by [run_parallel].  In a dry
    run the function that is called does nothing, and cannot be pickled. *)
Definition run_config (s : sim) (p : config) (x : st) : st * list tev * option (list E) :=
  let js := seq 0 (iterations s) in
  if existsb (fun k => dhas k p) ["func"; "iterable"] then (x, [], None) else
  match
    match dget "num_processes" p with
    | None => Some 1%Z
    | Some (PVal v) => int_of v
    | Some (PReps _) => None
    end
  with
  | None => (x, [], None)
  | Some n =>
      let q := ddel "num_processes" p in
      if (1 <? n)%Z && negb soil_debug then
        if dry_run s then (x, [], if is_nil js then Some [] else None)
        else pool (run_model s q) (export s p) picklable x (pool_order js (st_w x)) x
      else
        if dry_run s then (x, [], Some [])
        else serial (run_model s q) (export s p) js x
  end.

(** soil/simulation.py:157-167: all the configurations. *)
Fixpoint run_configs (s : sim) (ps : list config) (x : st)
  : st * list tev * option (list E) :=
  match ps with
  | [] => (x, [], Some [])
  | p :: ps' =>
      let '(x1, tr1, r1) := run_config s p x in
      match r1 with
      | None => (x1, tr1, None)
      | Some es =>
          let '(x2, tr2, r2) := run_configs s ps' x1 in
          (x2, tr1 ++ tr2, option_map (app es) r2)
      end
  end.

(** soil/simulation.py:130-172 [Simulation.run] without keyword arguments and with
    [_AVOID_RUNNING] off: the state at the end, what was observed, and the result
    (None: an exception). *)
Definition run (s : sim) (w : W) : st * list tev * option (list E) :=
  let x0 := St (model_reporters s) (agent_reporters s) w in
  let '(x1, tr1, b1) := exporters_do s XNew x0 in
  if b1 then (x1, tr1, None) else
  let '(x2, tr2, b2) := exporters_do s XStart x1 in
  if b2 then (x2, tr1 ++ tr2, None) else
  let '(x3, tr3, r3) := run_configs s (collect_params s) x2 in
  match r3 with
  | None => (x3, tr1 ++ tr2 ++ tr3, None)
  | Some es =>
      let '(x4, tr4, b4) := exporters_do s XEnd x3 in
      (x4, tr1 ++ tr2 ++ tr3 ++ tr4, if b4 then None else Some es)
  end.
End Sim.
Arguments param : clear implicits.
Arguments config : clear implicits.
Arguments sim : clear implicits.
Arguments args : clear implicits.
Arguments call : clear implicits.
Arguments tev : clear implicits.
Arguments st : clear implicits.
