(** Model of the files that are written: soil/utils.py:50-85, soil/exporters.py and
    soil/simulation.py:131-172. *)
From Coq Require Import List Bool Arith ZArith String.
From Verif Require Import PyDict.
Import ListNotations.
Local Open Scope string_scope.
Local Open Scope list_scope.

Fixpoint list_eqb {X} (e : X -> X -> bool) (a b : list X) : bool :=
  match a, b with
  | [], [] => true
  | x :: a', y :: b' => e x y && list_eqb e a' b'
  | _, _ => false
  end.
#[global, refine] Instance Eqb_list {X} `{Eqb X} : Eqb (list X) := {| eqb := list_eqb eqb |}.
Proof.
  intros a. induction a as [|x a IH]; intros [|y b]; simpl; split; intros E; try congruence; try discriminate.
  - apply andb_true_iff in E. destruct E as [E1 E2]. apply eqb_eq in E1. apply IH in E2. congruence.
  - injection E as -> ->. rewrite eqb_refl. now apply IH.
Defined.

(** Absolute paths: the directories and the name. *)
Definition path := list string.
Definition dirname (p : path) : path := removelast p.
Definition basename (p : path) : string := last p "".

(** A disk: the files with their contents and times of change, the directories, and the
    number of times that something was opened.  Simplification: making a directory always succeeds, and the
    paths of output files are not directories. *)
Record disk := Disk { d_files : dict path (string * Z); d_dirs : list path; d_ops : nat }.

(** Exceptions; the number tells objects apart. *)
Inductive exn :=
| AttributeError (n : nat) | TypeError (n : nat) | OtherError (n : nat)
| DidNotStop (* RuntimeError: generator didn't stop after throw() *)
| FileNotFoundError | UnableToOpen (* the OperationalError of sqlite *).
(** What is done to the disk, and the exception if any. *)
Definition action := disk -> disk * option exn.
Definition nothing : action := fun d => (d, None).
Definition raise (x : exn) : action := fun d => (d, Some x).
Definition andthen (a b : action) : action :=
  fun d => match a d with (d1, None) => b d1 | r => r end.
Fixpoint all (l : list action) : action := match l with [] => nothing | a :: l' => andthen a (all l') end.

Section Export.
(** The time when something is opened (all that is done then happens at that time), and the
    text of a time (up to seconds). *)
Variable clock : nat -> Z.
Variable stamp : Z -> string.

Definition is_dir (d : disk) (p : path) : bool := existsb (eqb p) (d_dirs d).
(** os.makedirs, if it does not exist. *)
Fixpoint prefixes (p : path) : list path :=
  match p with [] => [[]] | x :: p' => [] :: map (cons x) (prefixes p') end.
Definition make_dirs (p : path) (d : disk) : disk :=
  if is_dir d p then d else Disk (d_files d) (d_dirs d ++ prefixes p) (d_ops d).
(** Contents that are put in a file, now. *)
Definition put (p : path) (text : string) (d : disk) : disk :=
  Disk (dset p (text, clock (d_ops d)) (d_files d)) (d_dirs d) (d_ops d).
Definition tick (d : disk) : disk := Disk (d_files d) (d_dirs d) (S (d_ops d)).
Definition contents (d : disk) (p : path) : option string := option_map fst (dget p (d_files d)).

(** try_backup, soil/utils.py:50-67. *)
Definition backup_path (p : path) (t : Z) : path :=
  dirname p ++ ["backup"; (basename p ++ "@" ++ stamp t)%string].
Definition try_backup (p : path) (remove : bool) (d : disk) : disk :=
  match dget p (d_files d) with
  | None => d
  | Some (text, t) =>
      let d1 := make_dirs (dirname p ++ ["backup"]) (make_dirs (dirname p) d) in
      let d2 := put (backup_path p t) text d1 in
      if remove then Disk (ddel p (d_files d2)) (d_dirs d2) (d_ops d2) else d2
  end.

(** Modes "w" (and "wb") and "a". *)
Inductive mode := Write | Append.
(** safe_open, soil/utils.py:70-76: the directory exists afterwards, so that [open] finds it.
    The file is empty, or as it was. *)
Definition safe_open (p : path) (m : mode) (backup : bool) (d : disk) : disk :=
  let d1 := make_dirs (dirname p) d in
  match m with
  | Write => put p "" (if backup then try_backup p false d1 else d1)
  | Append => match contents d1 p with None => put p "" d1 | Some _ => d1 end
  end.
(** The body of a [with] block that writes to the file: the text and the exception, if any. *)
Definition body : Type := string * option exn.
Definition write (p : path) (text : string) (d : disk) : disk :=
  match contents d p with Some old => put p (old ++ text)%string d | None => put p text d end.
(** open_or_reuse on a path, soil/utils.py:79-85: AttributeError and TypeError are caught, and
    the generator yields again. *)
Definition open_or_reuse (p : path) (m : mode) (backup : bool) (b : body) : action :=
  fun d => (tick (write p (fst b) (safe_open p m backup d)),
            match snd b with
            | Some (AttributeError _) | Some (TypeError _) => Some DidNotStop
            | x => x
            end).
(** open_or_reuse on something else: [os.path.dirname] raises TypeError, so that the object
    itself is used, in the handler of the exception. *)
Definition reuse (b : body) : action := fun d => (d, snd b).

(** The simulation: soil/simulation.py:83-98. *)
Record sim := Sim {
  s_name : string; s_group : option string; s_id : string; s_outdir : option path;
  s_backup : bool; s_overwrite : bool; s_dry_run : bool; s_dump : bool }.
(** The current directory. *)
Variable cwd : path.
(** [simulation.to_yaml()] and what the exporters write to the database at the start: a
    text, or an exception. *)
Variable yaml : string + exn.
Variable sql_config : string + exn.
(** An environment at the end of an iteration: its id, the data frames (or the exception of
    get_dfs) as texts, the graph as a text, the rows for the database. *)
Record env := Env {
  e_id : string; e_dfs : list (string * body) + exn; e_graph : body; e_rows : list (string + exn) }.
(** Texts with the time. *)
Variables started started_iteration ended_iteration ended : string.

(** Exporter.__init__, soil/exporters.py:53-60. *)
Definition out_dir (s : sim) : path :=
  (match s_outdir s with Some (x :: p) => x :: p | _ => cwd ++ ["soil_output"] end)
  ++ match s_group s with Some g => if String.eqb g "" then [] else [g] | None => [] end ++ [s_name s].
(** Exporter.output, soil/exporters.py:78-87, with the block that follows. *)
Definition output (s : sim) (dump : bool) (f : string) (m : mode) (b : body) : action :=
  if dump then open_or_reuse (out_dir s ++ [f]) m (s_backup s) b else reuse b.

(** The exporters, soil/exporters.py:117-282; [default] has a list of others. *)
Inductive exporter := SQLite | Csv | Gexf | Dummy | Graphdrawing | Summary | Yaml | Default (inner : list exporter).

(** Connecting to a database needs its directory; the text is added to the file. *)
Definition to_sql (p : path) (text : string + exn) : action :=
  fun d => match text with
           | inr x => (d, Some x)
           | inl text => if is_dir d (dirname p) then (tick (write p text d), None) else (d, Some UnableToOpen)
           end.
Definition db_path (s : sim) : path := out_dir s ++ [(s_name s ++ ".sqlite")%string].
(** soil/exporters.py:121-142. *)
Definition sqlite_start (s : sim) (dump : bool) : action :=
  if dump then
    fun d =>
      let d1 := if s_backup s then try_backup (db_path s) true d else d in
      let d2 := if s_overwrite s then Disk (ddel (db_path s) (d_files d1)) (d_dirs d1) (d_ops d1) else d1 in
      to_sql (db_path s) sql_config d2
  else nothing.
(** soil/exporters.py:144-160. *)
Definition sqlite_end (s : sim) (dump : bool) (e : env) : action :=
  if dump then all (map (to_sql (db_path s)) (e_rows e)) else nothing.
(** soil/exporters.py:168-176. *)
Definition csv_end (s : sim) (dump : bool) (e : env) : action :=
  match e_dfs e with
  | inr x => raise x
  | inl dfs => all (map (fun p => output s dump (e_id e ++ "." ++ fst p ++ ".csv")%string Append (snd p)) dfs)
  end.
(** soil/exporters.py:180-189. *)
Definition gexf_end (s : sim) (dump : bool) (e : env) : action :=
  if dump then output s dump (e_id e ++ ".gexf")%string Write (e_graph e) else nothing.
(** soil/exporters.py:210-223: the file is opened for reading; if it is there, it has no
    [savefig]. *)
Definition drawing_end (e : env) : action :=
  fun d => match contents d (cwd ++ [("graph-" ++ e_id e ++ ".png")%string]) with
           | None => (d, Some FileNotFoundError)
           | Some _ => (d, Some (AttributeError 0))
           end.
(** soil/exporters.py:229-252: only messages. *)
Definition summary_end (e : env) : action := match e_dfs e with inr x => raise x | inl _ => nothing end.
(** soil/exporters.py:257-263. *)
Definition yaml_start (s : sim) (dump : bool) : action :=
  if dump then
    output s dump (s_id s ++ ".dumped.yml")%string Write
      match yaml with inl text => (text, None) | inr x => ("", Some x) end
  else nothing.

Fixpoint sim_start (s : sim) (dump : bool) (x : exporter) : action :=
  match x with
  | SQLite => sqlite_start s dump
  | Dummy => output s dump "dummy" Write (started, None)
  | Yaml => yaml_start s dump
  | Default inner =>
      match inner with
      | [] => andthen (yaml_start s dump) (sqlite_start s dump)
      | _ => (fix go l := match l with [] => nothing | y :: l' => andthen (sim_start s dump y) (go l') end) inner
      end
  | _ => nothing
  end.
Fixpoint iteration_end (s : sim) (dump : bool) (e : env) (x : exporter) : action :=
  match x with
  | SQLite => sqlite_end s dump e
  | Csv => csv_end s dump e
  | Gexf => gexf_end s dump e
  | Dummy => output s dump "dummy" Write (ended_iteration, None)
  | Graphdrawing => drawing_end e
  | Summary => summary_end e
  | Yaml => nothing
  | Default inner =>
      match inner with
      | [] => sqlite_end s dump e
      | _ => (fix go l := match l with [] => nothing | y :: l' => andthen (iteration_end s dump e y) (go l') end) inner
      end
  end.
Fixpoint sim_end (s : sim) (dump : bool) (x : exporter) : action :=
  match x with
  | Dummy => output s dump "dummy" Append (ended, None)
  | Default inner =>
      (fix go l := match l with [] => nothing | y :: l' => andthen (sim_end s dump y) (go l') end) inner
  | _ => nothing
  end.

(** Exporter.iteration_start, soil/exporters.py:70-72 and 197-199. *)
Definition iteration_start (s : sim) (dump : bool) (x : exporter) : action :=
  match x with
  | Dummy => output s dump "dummy" Write (started_iteration, None)
  | _ => nothing
  end.
(** The methods of exporters. *)
Inductive hook := SimStart | IterationStart (e : env) | IterationEnd (e : env) | SimEnd.
Definition call (s : sim) (dump : bool) (h : hook) (x : exporter) : action :=
  match h with
  | SimStart => sim_start s dump x
  | IterationStart e => iteration_start s dump x
  | IterationEnd e => iteration_end s dump e x
  | SimEnd => sim_end s dump x
  end.
(** What Simulation.run calls, soil/simulation.py:154-170, with the environments of the
    iterations of each combination of parameters (none with dry_run). *)
Definition hooks (s : sim) (envs : list (list env)) : list hook :=
  [SimStart] ++ map IterationEnd (List.concat (if s_dry_run s then [] else envs)) ++ [SimEnd].
(** Simulation.run, soil/simulation.py:131-172.  Simplification: the iterations do not write
    files themselves, nor raise. *)
Definition run (s : sim) (exporters : list exporter) (envs : list (list env)) : action :=
  let dump := s_dump s && negb (s_dry_run s) in
  all (map (fun h => all (map (call s dump h) exporters)) (hooks s envs)).
End Export.
