(** Model of [easy] and the end of [main] (soil/__init__.py), of [timer] (soil/utils.py), of [DryRunner] (soil/exporters.py) and of the
    decorators of states (soil/agents/fsm.py). *)
From Coq Require Import ZArith List Bool Arith String.
From Verif Require Import PyDict AgentModel FsmModel.
Import ListNotations.
Local Open Scope string_scope.
Local Open Scope list_scope.

(** * main and easy *)
(** Exceptions: those of simulations, by a number, and those of Python. *)
Inductive exc := ESim (n : nat) | ETypeError | EIndexError | EValueError.
(** What is observed: a simulation is run, the debugger is opened (for an exception, or at the end), or the body of a [with]. *)
Inductive seen := SRun (sim : nat) | SPostMortem | STrace | SBody.
(** The options of the command line. *)
Record cli := Cli { cl_pdb : bool; cl_debug : bool; cl_version : bool; cl_convert : bool }.

Section Main.
(** The environments that the run of a simulation gives, or its exception. *)
Context {E : Type}.
Variable run : nat -> list E + exc.
(** soil/__init__.py:226-253: the loop over the simulations (without --set); the results so far, and the exception. *)
Fixpoint run_sims (convert : bool) (sims : list nat) (res : list (list E)) : list seen * list (list E) * option exc :=
  match sims with
  | [] => ([], res, None)
  | s :: sims' =>
      if convert then run_sims convert sims' res
      else
        match run s with
        | inr e => ([SRun s], res, Some e)
        | inl envs => let '(tr, res, e) := run_sims convert sims' (res ++ [envs]) in (SRun s :: tr, res, e)
        end
  end.
(** soil/__init__.py:30-39 and 168-269 [main]: the argument [pdb] is not used.  [exists_] tells whether there is a simulation, or a file.  The
    result is None, or a list; also whether SOIL_POSTMORTEM is set afterwards. *)
Definition main (c : cli) (pdb debug : bool) (exists_ : bool) (sims : list nat) (postmortem : bool)
  : list seen * bool * (option (list (list E)) + exc) :=
  if cl_version c then ([], postmortem, inl None)
  else
    let debug := debug || cl_debug c in
    let postmortem := postmortem || cl_pdb c || debug in
    if negb exists_ then ([], postmortem, inl None)
    else
      let '(tr, res, e) := run_sims (cl_convert c) sims [] in
      match e with
      | Some e => if cl_pdb c then (tr ++ [SPostMortem] ++ (if debug then [STrace] else []), postmortem, inl (Some res)) else (tr, postmortem, inr e)
      | None => (tr ++ (if debug then [STrace] else []), postmortem, inl (Some res))
      end.
(** soil/__init__.py:273-282: the function under the decorator of [easy]. *)
Definition easy_body (c : cli) (pdb debug : bool) (exists_ : bool) (sims : list nat) (postmortem : bool) : list seen * (list E + exc) :=
  let '(tr, pm, r) := main c pdb debug exists_ sims postmortem in
  let r := match r with
           | inr e => inr e
           | inl None => inr ETypeError
           | inl (Some []) => inr EIndexError
           | inl (Some (x :: _)) => inl x
           end in
  match r with
  | inl x => (tr, inl x)
  | inr e => (tr ++ (if pm then [SPostMortem] else []), inr e)
  end.
(** [contextmanager] of the standard library: calling the decorated function calls the function and keeps what it returns... *)
Record manager := Manager { mg_gen : list E }.
Definition easy (c : cli) (pdb debug : bool) (exists_ : bool) (sims : list nat) (postmortem : bool) : list seen * (manager + exc) :=
  match easy_body c pdb debug exists_ sims postmortem with
  | (tr, inl x) => (tr, inl (Manager x))
  | (tr, inr e) => (tr, inr e)
  end.
(** ... on which [__enter__] calls [next]: a list is not an iterator. *)
Definition enter (m : manager) : list E + exc := inr ETypeError.
(** [with easy(...) as x: body]. *)
Definition with_easy (c : cli) (pdb debug : bool) (exists_ : bool) (sims : list nat) (postmortem : bool) (body : list E -> option exc)
  : list seen * option exc :=
  match easy c pdb debug exists_ sims postmortem with
  | (tr, inr e) => (tr, Some e)
  | (tr, inl m) =>
      match enter m with
      | inr e => (tr, Some e)
      | inl x => (tr ++ [SBody], body x)
      end
  end.
End Main.

(** * timer *)
(** What is logged, the attributes [start] and [end] of the object, and how often the clock has been read. *)
Inductive tmsg := TStarted (t : Z) | TFinished (t : Z) (seconds : Z) | TOther (n : nat).
Record tworld := TWorld { tw_log : list tmsg; tw_obj : option (Z * Z); tw_reads : nat }.
Definition tlog (m : tmsg) (w : tworld) : tworld := TWorld (tw_log w ++ [m]) (tw_obj w) (tw_reads w).
Definition tread (clock : nat -> Z) (w : tworld) : Z * tworld := (clock (tw_reads w), TWorld (tw_log w) (tw_obj w) (S (tw_reads w))).
(** soil/utils.py:34-47 [timer] around a block, which may raise; the exception is raised at the [yield]. *)
Definition with_timer {A} (clock : nat -> Z) (to_object : bool) (block : Z -> tworld -> tworld * (A + exc)) (w : tworld) : tworld * (A + exc) :=
  let '(start, w) := tread clock w in
  let w := tlog (TStarted start) w in
  match block start w with
  | (w, inr e) => (w, inr e)
  | (w, inl a) =>
      let '(end_, w) := tread clock w in
      let w := tlog (TFinished end_ (end_ - start)) w in
      (if to_object then TWorld (tw_log w) (Some (start, end_)) (tw_reads w) else w, inl a)
  end.

(** * DryRunner *)
(** What is written: text or bytes. *)
Inductive data := DText (s : string) | DBytes (l : list nat).
Section Dry.
(** UTF-8: of a text, and back if possible.  The [repr] of bytes. *)
Variable encode : string -> list nat.
Variable decode : list nat -> option string.
Variable repr : list nat -> string.
(** The content so far, None once closed; what has been copied, and what has been logged. *)
Record dry := Dry { dy_content : option (list nat); dy_copied : list string; dy_logged : list string }.
(** soil/exporters.py:25-31 [write]. *)
Definition dry_write (fname : string) (copy : bool) (t : data) (d : dry) : dry * (option nat + exc) :=
  let copied := if copy then dy_copied d ++ [fname ++ ":::" ++ match t with DText s => s | DBytes l => repr l end]%string else dy_copied d in
  match dy_content d with
  | None => (Dry None copied (dy_logged d), inr EValueError)
  | Some c => (Dry (Some (c ++ match t with DText s => encode s | DBytes l => l end)) copied (dy_logged d), inl None)
  end.
(** soil/exporters.py:33-44 [close]. *)
Definition dry_close (fname : string) (d : dry) : dry * (unit + exc) :=
  match dy_content d with
  | None => (d, inr EValueError)
  | Some c =>
      let shown := match decode c with Some s => s | None => "(binary data not shown)" end in
      (Dry None (dy_copied d) (dy_logged d ++ ["**Not** written to " ++ fname ++ " (no_dump mode): " ++ shown]%string), inl tt)
  end.
(** soil/exporters.py:20-23, writes, and [close]. *)
Definition new_dry : dry := Dry (Some []) [] [].
Definition dry_writes (fname : string) (copy : bool) (l : list data) (d : dry) : dry := fold_left (fun d t => fst (dry_write fname copy t d)) l d.
Definition dry_run (fname : string) (copy : bool) (l : list data) : dry := fst (dry_close fname (dry_writes fname copy l new_dry)).
End Dry.

(** * Decorators of states *)
(** An element of the body of a class: a function with its name, whether it has an attribute [default]; or a state (UnboundState). *)
Inductive element {F : Type} := DFun (f : F) (name : string) (default : bool) | DState (s : state F).
Arguments element : clear implicits.
(** soil/agents/fsm.py:57-71 [state(name=..., default=...)] applied to a function (without name and default also as [@state]): the attribute [default]
    of the function is not looked at.  On a state it raises, as states have no [__name__]; that with a name it does not is left out. *)
Definition state_decorator {F} (name : option string) (default : bool) (e : element F) : option (element F) :=
  match e with
  | DFun f n _ => Some (DState (State f (match name with Some x => if (x =? "")%string then n else x | None => n end) default))
  | DState _ => None
  end.
(** soil/agents/fsm.py:74-76 [default_state]. *)
Definition default_decorator {F} (e : element F) : element F :=
  match e with DFun f n _ => DFun f n true | DState s => DState (State (st_fun s) (st_name s) true) end.
(** The body of a class as its metaclass sees it (soil/agents/fsm.py:92-96). *)
Definition in_body {F} (e : element F) : option (state F) := match e with DState s => Some s | DFun _ _ _ => None end.
(** A class of state machines with this body. *)
Definition fsm_with {F} (dead : F) (body : list (element F)) : cls (option (state F)) := Cls 1 [fsm_class dead] (map in_body body).
