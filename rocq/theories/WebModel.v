(** Model of soil/web/__init__.py: the handler of the web interface, and its command line. *)
From Coq Require Import ZArith List Bool Arith String.
From Verif Require Import PyDict.
Import ListNotations.
Local Open Scope string_scope.
Local Open Scope list_scope.

(** The fields of the class Simulation, soil/simulation.py:80-107. *)
Definition simulation_fields : list string :=
  ["version"; "source_file"; "name"; "description"; "group"; "backup"; "overwrite"; "dry_run"; "dump"; "model"; "parameters"; "matrix";
   "seed"; "dir_path"; "max_time"; "max_steps"; "iterations"; "num_processes"; "exporters"; "model_reporters"; "agent_reporters"; "tables";
   "outdir"; "exporter_params"; "level"; "skip_test"; "debug"].

(** Numbers (int and float, with [x <= 1]), booleans and other values. *)
Inductive vkind := KNumber (at_most_one : bool) | KBool | KOther.

Section Handler.
(** Values of configurations, trials and their graphs. *)
Context {V T G : Type}.
Notation config := (dict string V).
(** [type(v)], the text of a value that is a string, the items of a value that is a dictionary, and values made from texts and
    booleans.  Simplification: other values that can be iterated over are not accepted as environment_params. *)
Context (kind : V -> vkind) (text : V -> option string) (items : V -> option config) (of_text : string -> V) (of_bool : bool -> V).
(** [yaml.load_all]: the documents of a text; None for those that are not dictionaries.  None if it raises (as it does always with
    PyYAML 6, which requires a Loader). *)
Context (load_all : string -> option (list (option config))).
(** [os.path.join]; running the simulation with the given fields (None if that raises), the names of trials and [history_to_graph]
    (None if there is no such method). *)
Context (join : string -> string -> string) (simulate : config -> option (list T)) (trial_name : T -> string) (history_to_graph : T -> option G).
(** The options of the application, soil/web/__init__.py:283-293. *)
Context (outdir : string) (dump : bool).

(** What is received, soil/web/__init__.py:57-181; the number of a trial is None if [int] raises. *)
Inductive message :=
| MConfig (data : string) | MTrial (data : option nat) | MRun (data : V) | MGexf (data : option nat) | MJson (data : option nat)
| MUnknown | MInvalid.
(** What is sent. *)
Inductive sent :=
| SLog (logger logging : string) | SError (error : string) | SWrong | SVisualization (data : V)
| SSettings (data : list (string * string * V)) | STrials (data : list string) | SGraph (type_ : string) (g : G).

(** The state of a connection: whether it is open, [self.config] (None if it is not set or not a dictionary), [self.trials] and the
    simulations that are running.  Simplification: the log of running simulations is not modelled (update_logging, logging). *)
Record handler := { h_open : bool; h_config : option config; h_trials : option (list T); h_runs : list config }.
Definition opened : handler := {| h_open := true; h_config := None; h_trials := None; h_runs := [] |}.
(** An exception in [on_message]: tornado closes the connection. *)
Definition abort (h : handler) : handler :=
  {| h_open := false; h_config := h_config h; h_trials := h_trials h; h_runs := h_runs h |}.
Definition set_config (h : handler) (c : option config) : handler :=
  {| h_open := h_open h; h_config := c; h_trials := h_trials h; h_runs := h_runs h |}.

(** soil/web/__init__.py:218-229 [run_simulation] up to the yield, with [nonblocking] (213-216) as a simulation that runs. *)
Definition run_simulation (c : config) (name : string) (h : handler) : handler :=
  let c := ddel "visualization_params" c in
  {| h_open := h_open h; h_config := Some c; h_trials := h_trials h;
     h_runs := h_runs h ++ [dset "dump" (of_bool dump) (dset "outdir" (of_text (join outdir name)) c)] |}.

(** soil/web/__init__.py:94-105. *)
Definition setting_type (v : V) : string :=
  match kind v with
  | KNumber true => "number" | KNumber false => "great_number" | KBool => "boolean" | KOther => "undefined"
  end.

(** soil/web/__init__.py:76-115, with one configuration. *)
Definition use_config (c : config) (h : handler) : handler * list sent :=
  let h := set_config h (Some c) in
  match dget "name" c with
  | None => (abort h, [])
  | Some v =>
      match text v with
      | None => (abort h, [])
      | Some name =>
          let out := SLog ("INFO." ++ name) ("Using config: " ++ name) ::
            match dget "visualization_params" c with Some p => [SVisualization p] | None => [] end in
          let h := run_simulation c name h in
          match dget "environment_params" c with
          | None => (abort h, out)
          | Some p =>
              match items p with
              | None => (abort h, out)
              | Some ps => (h, out ++ [SSettings (map (fun kv => (fst kv, setting_type (snd kv), snd kv)) ps)])
              end
          end
      end
  end.

(** soil/web/__init__.py:125-135. *)
Definition rerun (data : V) (h : handler) : handler * list sent :=
  match h_config h with
  | None => (abort h, [])
  | Some c =>
      match dget "name" c with
      | None => (abort h, [])
      | Some v =>
          match text v with
          | None => (abort h, [])
          | Some name => (run_simulation (dset "environment_params" data c) name h,
                          [SLog ("INFO." ++ name) ("Running new simulation for " ++ name)])
          end
      end
  end.

(** soil/web/__init__.py:117-123, 137-177 and 243-248: the graph of a trial. *)
Definition graph_of (i : option nat) (h : handler) : option G :=
  match i, h_trials h with
  | Some i, Some ts => match nth_error ts i with Some t => history_to_graph t | None => None end
  | _, _ => None
  end.
Definition send_graph (type_ : string) (i : option nat) (h : handler) : handler * list sent :=
  match graph_of i h with Some g => (h, [SGraph type_ g]) | None => (abort h, []) end.

(** soil/web/__init__.py:57-181 [on_message]. *)
Definition on_message (m : message) (h : handler) : handler * list sent :=
  match m with
  | MConfig data =>
      match load_all data with
      | None => (abort h, [])
      | Some [] => (abort (set_config h None), [])
      | Some [None] => (abort (set_config h None), [])
      | Some [Some c] => use_config c h
      | Some _ => (set_config h None, [SError "Please, provide only one configuration."])
      end
  | MTrial i => let '(h', out) := send_graph "get_trial" i h in (h', SLog "INFO.soil.web" "Trial requested!" :: out)
  | MRun data => rerun data h
  | MGexf i => send_graph "download_gexf" i h
  | MJson i => send_graph "download_json" i h
  | MUnknown => (h, [])
  | MInvalid => (abort h, [])
  end.

(** [Simulation( **config)] and [simulation.run()], soil/web/__init__.py:213-216: TypeError for an unknown field. *)
Definition run_config (c : config) : option (list T) :=
  if forallb (fun k => existsb (String.eqb k) simulation_fields) (dkeys c) then simulate c else None.
(** soil/web/__init__.py:229-241: what happens when the simulation ends; nothing can be sent if the connection is closed. *)
Definition finish (i : nat) (h : handler) : handler * list sent :=
  match nth_error (h_runs h) i with
  | None => (h, [])
  | Some c =>
      let runs := firstn i (h_runs h) ++ skipn (S i) (h_runs h) in
      match run_config c with
      | Some ts => ({| h_open := h_open h; h_config := h_config h; h_trials := Some ts; h_runs := runs |},
                    if h_open h then [STrials (map trial_name ts)] else [])
      | None => ({| h_open := h_open h; h_config := h_config h; h_trials := h_trials h; h_runs := runs |},
                 if h_open h then
                   SWrong :: match h_config h with
                             | Some c => match dget "name" c with
                                         | None => [SLog "ERROR.NoSimulationRunning" "Something went wrong"]
                                         | Some v => match text v with
                                                     | Some name => [SLog ("ERROR." ++ name) "Something went wrong"]
                                                     | None => []
                                                     end
                                         end
                             | None => []
                             end
                 else [])
      end
  end.

(** A connection: messages arrive and simulations end, in any order; nothing is received when it is closed. *)
Inductive event := Message (m : message) | Finish (i : nat).
Definition handle (e : event) (h : handler) : handler * list sent :=
  match e with
  | Message m => if h_open h then on_message m h else (h, [])
  | Finish i => finish i h
  end.
Fixpoint session (es : list event) (h : handler) : handler * list sent :=
  match es with
  | [] => (h, [])
  | e :: es' => let '(h1, o1) := handle e h in let '(h2, o2) := session es' h1 in (h2, o1 ++ o2)
  end.
End Handler.
Arguments message : clear implicits. Arguments sent : clear implicits. Arguments handler : clear implicits. Arguments event : clear implicits.
Arguments MConfig {V}. Arguments MTrial {V}. Arguments MRun {V}. Arguments MGexf {V}. Arguments MJson {V}. Arguments MUnknown {V}. Arguments MInvalid {V}.
Arguments SLog {V G}. Arguments SError {V G}. Arguments SWrong {V G}. Arguments SVisualization {V G}. Arguments SSettings {V G}. Arguments STrials {V G}. Arguments SGraph {V G}.

(** * The command line *)
(** The text after [--name] and the default value, soil/web/__init__.py:318-320: nargs=1 makes a list of it. *)
Inductive title := Text (s : string) | Listed (s : string).
(** The application, soil/web/__init__.py:267-293. *)
Record application := { a_name : title; a_dump : bool; a_outdir : string; a_verbose : bool; a_port : Z }.
(** [ModularServer(...)] with keyword arguments; [port] and other arguments are accepted and ignored (soil/web/__init__.py:270, 283-293). *)
Definition modular_server (dump : bool) (outdir : string) (name : title) (verbose : bool) (port : option Z) : application :=
  {| a_name := name; a_dump := dump; a_outdir := outdir; a_verbose := verbose; a_port := 8001%Z |}.
(** [launch], soil/web/__init__.py:295-304: the port on which it listens. *)
Definition launch (a : application) (port : option Z) : Z := match port with Some p => p | None => a_port a end.
(** [run], soil/web/__init__.py:307-310. *)
Definition web_run (dump : bool) (outdir : string) (name : title) (verbose : bool) (port : option Z) : application * Z :=
  let a := modular_server dump outdir name verbose port in (a, launch a None).
(** [main], soil/web/__init__.py:313-334, with the options given. *)
Definition web_main (name : option string) (dump : bool) (port : option Z) (verbose : bool) : application * Z :=
  web_run false "output" (match name with Some s => Listed s | None => Text "SOIL" end) verbose
    (Some (match port with Some p => p | None => 8001%Z end)).
