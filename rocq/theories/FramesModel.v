(** Model of the data frames of a run, soil/exporters.py:89-114, of what the SQLite exporter writes of them,
    soil/exporters.py:139-160, and of [read_sql], soil/analysis.py:33-57. *)
From Coq Require Import List Bool Arith String.
From Verif Require Import PyDict.
Import ListNotations.
Local Open Scope string_scope.
Local Open Scope list_scope.

Section Frames.
(** Data frames (of pandas). *)
Context {D : Type}.

(** The data collector of a model (of mesa): the variables of the model, the ones of the agents (None: there are no
    reporters of agents, so that [get_agent_vars_dataframe] raises UserWarning), and the tables by name. *)
Record collector := Collector { model_vars : D; agent_vars : option D; tables : dict string D }.

(** soil/exporters.py:96-114 [get_dc_dfs]; [label] is lines 110-112, which add the identifiers of the run to a
    frame. *)
Definition get_dc_dfs (label : D -> D) (dc : collector) : dict string D :=
  let dfs := [("env", model_vars dc)] in
  let dfs := match agent_vars dc with Some a => dset "agents" a dfs | None => dfs end in
  let dfs := dupdate dfs (tables dc) in
  map (fun kv => (fst kv, label (snd kv))) dfs.

(** A database: the frames that were appended to each table.  Simplification: appending never fails (it does if
    a later frame has columns that the table does not have). *)
Definition db : Type := dict string (list D).
Definition to_sql (t : string) (f : D) (b : db) : db :=
  dset t (match dget t b with Some l => l ++ [f] | None => [f] end) b.

(** soil/exporters.py:139-142 and 153-160 of the SQLite exporter, for a run: the configuration, and for each
    iteration its parameters, its labels and its data. *)
Definition write_run (configuration : D) (its : list (D * (D -> D) * collector)) (b : db) : db :=
  fold_left (fun b it =>
    let '(params, label, dc) := it in
    fold_left (fun b kv => to_sql (fst kv) (snd kv) b) (get_dc_dfs label dc) (to_sql "parameters" params b))
    its (to_sql "configuration" configuration b).

(** soil/analysis.py:42-57: None for the exception of a table that does not exist. *)
Record results := Results { r_config : list D; r_parameters : list D; r_env : list D; r_agents : list D }.
Definition read_sql (b : db) : option results :=
  match dget "env" b, dget "agents" b, dget "configuration" b, dget "parameters" b with
  | Some e, Some a, Some c, Some p => Some (Results c p e a)
  | _, _, _, _ => None
  end.
End Frames.
Arguments collector : clear implicits.
Arguments db : clear implicits.
Arguments results : clear implicits.
