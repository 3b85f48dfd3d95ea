(** Model of the loading of simulation files, soil/simulation.py:30-48, 143-145 and
    320-358, and of the command line, soil/__init__.py:30-262. *)
From Coq Require Import ZArith List Bool Arith String Ascii.
From Verif Require Import PyDict SimModel.
Import ListNotations.
Local Open Scope string_scope.
Local Open Scope list_scope.

(** * Files *)
Section Load.
(** [V], [R]: as in SimModel.v.  [C]: classes of environments. *)
Context {V R C : Type}.
Notation sim := (sim V R).
Notation config := (config V R).

(** The module variables [_AVOID_RUNNING] and [_QUEUED] (soil/simulation.py:30-31). *)
Record mstate := MState { avoid : bool; queued : list (sim * config) }.

(** What a file does, as far as simulations are concerned: it binds a name to a
    simulation or to a class of environments, it calls [run] on a simulation, or it
    raises an exception.  (A [run] with keyword arguments is a [run] of the changed
    copy, soil/simulation.py:132-133.) *)
Inductive stmt :=
| SSim (name : string) (s : sim)
| SClass (name : string) (c : C)
| SRun (s : sim)
| SRaise.

(** A value in the namespace of a module. *)
Inductive value := VSim (s : sim) | VClass (c : C).

(** soil/simulation.py:130-145: [run] queues the configurations, or runs them (they are
    then listed in the result). *)
Definition api_run (m : mstate) (s : sim) : mstate * list (sim * config) :=
  let pairs := map (pair s) (collect_params s) in
  if avoid m then (MState true (queued m ++ pairs), []) else (m, pairs).

(** Execution of the statements of a module: its namespace, the module variables, the
    configurations that were run, and whether it raised. *)
Fixpoint exec (f : list stmt) (ns : dict string value) (m : mstate)
  : dict string value * mstate * list (sim * config) * bool :=
  match f with
  | [] => (ns, m, [], false)
  | SSim n s :: f' => exec f' (dset n (VSim s) ns) m
  | SClass n c :: f' => exec f' (dset n (VClass c) ns) m
  | SRun s :: f' =>
      let '(m1, ran1) := api_run m s in
      let '(ns2, m2, ran2, x) := exec f' ns m1 in
      (ns2, m2, ran1 ++ ran2, x)
  | SRaise :: _ => (ns, m, [], true)
  end.

(** [dataclasses.replace(s, parameters=p)] *)
Definition with_parameters (s : sim) (p : config) : sim :=
  Sim p (matrix s) (seed s) (iterations s) (num_processes s) (dry_run s) (n_exporters s)
    (model_reporters s) (agent_reporters s).

(** The order of the names of [inspect.getmembers]. *)
Fixpoint insert_name {X} (nv : string * X) (l : list (string * X)) : list (string * X) :=
  match l with
  | [] => [nv]
  | h :: l' => if String.leb (fst nv) (fst h) then nv :: l else h :: insert_name nv l'
  end.
Definition members {X} (d : dict string X) : list (string * X) :=
  fold_right insert_name [] d.

Definition sims_of (ns : dict string value) : list sim :=
  flat_map (fun nv => match snd nv with VSim s => [s] | VClass _ => [] end) (members ns).
Definition classes_of (ns : dict string value) : list C :=
  flat_map (fun nv => match snd nv with VClass c => [c] | VSim _ => [] end) (members ns).

(** The keyword arguments of the loader: [replace(sim, **kwargs)], and
    [Simulation(model=c, **kwargs)]. *)
Variable replace_kw : sim -> sim.
Variable of_class : C -> sim.

Inductive loaded :=
| LYields (l : list sim)
| LRaised        (* the exception of the file *)
| LNotAllowed    (* AssertionError: a file is being loaded already *)
| LNothing.      (* AttributeError: no valid configurations *)

(** soil/simulation.py:320-355 [iter_from_py], with [do_not_run] (33-42) and
    [_iter_queued] (45-48).  The module [soil.environment] classes are not in [ns]. *)
Definition iter_from_py (f : list stmt) (m : mstate)
  : loaded * mstate * list (sim * config) :=
  if avoid m then (LNotAllowed, m, []) else
  let '(ns, m1, ran1, x) := exec f [] (MState true (queued m)) in
  if x then (LRaised, MState false (queued m1), ran1) else
  let sims := sims_of ns ++ map (fun q => with_parameters (fst q) (snd q)) (queued m1) in
  let sims := match sims with [] => map of_class (classes_of ns) | _ => sims end in
  let m2 := MState false [] in
  match sims with
  | [] => (LNothing, m2, ran1)
  | _ => (LYields (map replace_kw sims), m2, ran1)
  end.
End Load.
Arguments stmt : clear implicits.
Arguments mstate : clear implicits.
Arguments value : clear implicits.

(** * The command line *)
Section Cli.
(** Floats, and [float(s)] and [int(s)] (None: ValueError). *)
Context {F : Type}.
Variable float_of : string -> option F.
Variable int_of_str : string -> option Z.

(** The fields of a simulation that the command line deals with. *)
Record csim := CSim {
  c_dry_run : bool;
  c_dump : bool;
  c_exporters : list string;
  c_num_processes : string;
  c_outdir : string;
  c_seed : string;
  c_iterations : Z;
  c_max_time : option F;
  c_max_steps : option F }.

(** The options that are present (None: not given; soil/__init__.py:58-159). *)
Record cli := Cli {
  o_dry_run : bool;
  o_no_dump : bool;
  o_csv : bool;
  o_graph : bool;
  o_output : option string;
  o_num_processes : option string;
  o_exporter : list string;
  o_max_time : option string;
  o_max_steps : option string;
  o_iterations : option string;
  o_seed : option string }.

Definition or_default {X} (o : option X) (d : X) : X :=
  match o with Some x => x | None => d end.

(** soil/__init__.py:168-177. *)
Definition cli_exporters (exporters : list string) (o : cli) : list string :=
  let e0 := match exporters with [] => ["default"] | _ => exporters end in
  let e1 := fold_left (fun l e => if existsb (String.eqb e) l then l else l ++ [e]) (o_exporter o) e0 in
  let e2 := if o_csv o then e1 ++ ["csv"] else e1 in
  if o_graph o then e2 ++ ["gexf"] else e2.

(** soil/__init__.py:252-253: None means a ValueError. *)
Definition limit_of (o : option string) : option (option F) :=
  let a := or_default o "-1" in
  if String.eqb a "-1" then Some None else option_map Some (float_of a).

(** soil/__init__.py:30-254 [main], with the arguments [exporters] and [output] of the
    function (the console entry points use the defaults, [] and "soil_output"): the
    simulation that is run for a simulation [s] of the file.  None: an exception. *)
Definition main_run (exporters : list string) (output : option string) (o : cli) (s : csim)
  : option csim :=
  let outdir := match output with
                | None => or_default (o_output o) "soil_output"
                | Some d => d
                end in
  match
    match o_iterations o with
    | None | Some "" => Some (c_iterations s)
    | Some i => int_of_str i
    end
  with
  | None => None
  | Some its =>
      match limit_of (o_max_time o), limit_of (o_max_steps o) with
      | Some mt, Some ms =>
          Some (CSim (o_dry_run o) (negb (o_no_dump o)) (cli_exporters exporters o)
                 (or_default (o_num_processes o) "1") outdir
                 (or_default (o_seed o) (c_seed s)) its mt ms)
      | _, _ => None
      end
  end.
End Cli.
Arguments csim : clear implicits.
