(** Model of soil/debugging.py. *)
From Coq Require Import ZArith List Bool Arith String.
From Verif Require Import Num PyDict TimedModel.
Import ListNotations.
Local Open Scope string_scope.
Local Open Scope list_scope.

(** What names of the frames stand for: models and agents by a number, the class [Debug], the debugger, the words after a command, None, and
    anything else (which has neither agents nor steps). *)
Inductive val := VModel (m : nat) | VAgent (a : nat) | VDebugClass | VDebugger | VAttrs (l : list string) | VNone | VOther.
(** A frame of Python: [f_globals] and [f_locals]. *)
Record frame := Frame { fr_globals : dict string val; fr_locals : dict string val }.
(** Breakpoints: the place, whether it is temporary, the ids of the agents it is for (all if there are none), and the number of steps to be
    exceeded. *)
Record bp := Bp { bp_at : nat; bp_temp : bool; bp_ids : list nat; bp_steps : option nat }.
(** What a command does: it shows the agents of a model or one agent (the keys asked for, or all), or sets breakpoints, or prints a
    message, or raises. *)
Inductive reply :=
| RAgents (m : nat) (keys : option (list string))
| RAgent (a : nat) (keys : option (list string))
| RSaid (what : string)
| RContinue
| RDone
| RNameError (x : string) | RKeyError (x : string) | RAttributeError (x : string).
(** The debugger: the globals of the module soil.debugging, which the commands change, and the breakpoints. *)
Record dbg := Dbg { known : dict string val; bps : list bp }.
Definition set_known (d : dbg) (k : dict string val) : dbg := Dbg k (bps d).
Definition add_bp (d : dbg) (b : bp) : dbg := Dbg (known d) (bps d ++ [b]).

Section Session.
(** The model of an agent, its keys (soil/agents/__init__.py:205-206), the steps of the schedule of a model, and where the method
    [step] of the class of a model is. *)
Variable model_of : nat -> nat.
Variable keys_of : nat -> list string.
Variable steps_of : nat -> nat.
Variable step_at : nat -> nat.

(** soil/debugging.py:19-22, also 95-97: [known] are the globals of the module, not a copy. *)
Definition learn (fr : frame) (k : dict string val) : dict string val := dupdate (dupdate k (fr_globals fr)) (fr_locals fr).
(** soil/debugging.py:16-34 [wrapper], up to [exec]. *)
Definition wrapper (fr : frame) (attrs : list string) (d : dbg) : dbg :=
  let k := dset "attrs" (VAttrs attrs) (learn fr (known d)) in
  let k :=
    match dget "self" k with
    | Some (VModel m) => dset "model" (VModel m) k
    | Some (VAgent a) => dset "model" (VModel (model_of a)) (dset "agent" (VAgent a) k)
    | _ => k
    end in
  set_known d (dset "self" VDebugger k).
(** soil/debugging.py:50-54 [_soil_agents] as it is called in the commands: [Debug] and [model] are looked up in the globals. *)
Definition soil_agents (keys : option (list string)) (d : dbg) : reply :=
  match dget "Debug" (known d) with
  | None => RNameError "Debug"
  | Some VDebugClass =>
      match dget "model" (known d) with
      | None => RNameError "model"
      | Some (VModel m) => RAgents m keys
      | Some (VAgent a) => RAgents (model_of a) keys
      | Some _ => RAttributeError "get_agents"
      end
  | Some _ => RAttributeError "_soil_agents"
  end.
(** soil/debugging.py:56-58 [do_soil_agents]. *)
Definition do_soil_agents (attrs : list string) (d : dbg) : reply := soil_agents (match attrs with [] => None | _ => Some attrs end) d.
(** soil/debugging.py:62-64 [do_soil_list]. *)
Definition do_soil_list (d : dbg) : reply := soil_agents (Some ["state_id"]) d.
(** soil/debugging.py:75-89 [do_soil_agent].  Agents are true, because they have keys. *)
Definition do_soil_agent (attrs : list string) (d : dbg) : reply :=
  match dget "agent" (known d) with
  | None => RNameError "agent"
  | Some VNone => RSaid "No agent available"
  | Some (VAgent a) => RAgent a (match attrs with [] => None | _ => Some (flat_map (fun k => filter (prefix k) (keys_of a)) attrs) end)
  | Some _ => RAttributeError "keys"
  end.
(** soil/debugging.py:93-131 [do_break_step].  The line that is found is the place itself. *)
Definition do_break_step (d : dbg) : dbg * reply :=
  match dget "model" (known d) with
  | None => (d, RKeyError "model")
  | Some (VModel m) =>
      if existsb (fun b => Nat.eqb (bp_at b) (step_at m)) (bps d) then (d, RSaid "Breakpoint already exists")
      else (add_bp d (Bp (step_at m) true [] (Some (steps_of m))), RContinue)
  | Some (VAgent a) => (d, RAttributeError "schedule")
  | Some _ => (d, RSaid "The model does not have a step function")
  end.
(** The commands. *)
Inductive cmd := CAgents (attrs : list string) | CList | CAgent (attrs : list string) | CBreakStep.
Definition run_dcmd (fr : frame) (c : cmd) (d : dbg) : dbg * reply :=
  match c with
  | CAgents attrs => let d := wrapper fr attrs d in (d, do_soil_agents attrs d)
  | CList => let d := wrapper fr [] d in (d, do_soil_list d)
  | CAgent attrs => let d := wrapper fr attrs d in (d, do_soil_agent attrs d)
  | CBreakStep => do_break_step (set_known d (learn fr (known d)))
  end.
Fixpoint session (l : list (frame * cmd)) (d : dbg) : dbg :=
  match l with [] => d | (fr, c) :: l' => session l' (fst (run_dcmd fr c d)) end.
End Session.
(** The module just imported. *)
Definition new_dbg : dbg := Dbg [("Debug", VDebugClass)] [].

(** * Breakpoints on states *)
(** The attributes of classes: a state (UnboundState, soil/agents/fsm.py:8-40, which has no [__code__] and no [__func__]) or a function, at
    some place. *)
Inductive attr := AState | AFun (at_ : nat).
Definition class := string -> option attr.
(** The words of [break_state]: a class if there is one before a colon, the state, and the ids after it. *)
Record target := Target { tg_class : option string; tg_state : string; tg_ids : list nat }.
(** soil/debugging.py:169-205: the loop.  The message for a class without the state is left out. *)
Fixpoint break_in (classes : list class) (state : string) (ids : list nat) (temp : bool) (d : dbg) : dbg * reply :=
  match classes with
  | [] => (d, RDone)
  | k :: ks =>
      match k state with
      | None => break_in ks state ids temp d
      | Some AState => (d, RAttributeError "__code__")
      | Some (AFun l) =>
          if existsb (fun b => Nat.eqb (bp_at b) l) (bps d) then break_in ks state ids temp d
          else break_in ks state ids temp (add_bp d (Bp l temp ids None))
      end
  end.
(** soil/debugging.py:135-205 [do_break_state]; [scope] are the classes of agents among the globals of the frame, [find] evaluates the name
    of a class in the frame. *)
Definition do_break_state (scope : list class) (find : string -> option class) (t : target) (temp : bool) (d : dbg) : dbg * reply :=
  match tg_class t with
  | Some c => match find c with None => (d, RNameError c) | Some k => break_in [k] (tg_state t) (tg_ids t) temp d end
  | None => break_in scope (tg_state t) (tg_ids t) temp d
  end.
(** soil/debugging.py:68-71 [do_continue_state]. *)
Definition do_continue_state (scope : list class) (find : string -> option class) (t : target) (d : dbg) : dbg * reply :=
  match do_break_state scope find t true d with
  | (d, RDone) => (d, RContinue)
  | r => r
  end.
(** soil/debugging.py:209-221 [do_break_state_self]: for the agent of the frame, of the class [c] and with the id [a]. *)
Definition do_break_state_self (find : string -> option class) (self : option (string * nat)) (state : string) (d : dbg) : dbg * reply :=
  match self with
  | None => (d, RSaid "No current agent.")
  | Some (c, a) => do_break_state [] find (Target (Some c) state [a]) false d
  end.

(** * Where a temporary breakpoint at the method [step] stops *)
(** The model enters [step] with the schedule [s]; the condition of soil/debugging.py:124 is evaluated there. *)
Definition hit (b : bp) (s : sched) : bool := match bp_steps b with Some n => Nat.ltb n (s_steps s) | None => true end.
(** Before which of the next [k] steps of the model it stops. *)
Fixpoint stops {AR : Arith} {W} (u : user W) (b : bp) (k : nat) (s : sched) (w : W) : option nat :=
  match k with
  | 0 => None
  | S k' =>
      if hit b s then Some 0
      else let '(s1, w1, _, x) := timed_step u s w in if x then None else option_map S (stops u b k' s1 w1)
  end.

(** * The debugger of the module *)
(** The options of [Debug]: [skip_soil], and [skip] if it is given. *)
Record opts := Opts { op_skip_soil : bool; op_skip : option (list string) }.
(** soil/debugging.py:40-48 [Debug.__init__]: the modules skipped, or None for the TypeError of a [skip] that is passed twice. *)
Definition debug_init (o : opts) : option (list string) :=
  match op_skip o with
  | Some _ => None
  | None => Some (if op_skip_soil o then ["soil"; "contextlib"; "soil.*"; "mesa.*"] else [])
  end.
(** What it looks at: a frame, or the traceback of an exception, by their numbers. *)
Inductive subject := AtFrame (n : nat) | AtTraceback (t : option nat).
(** soil/debugging.py:229-234 [set_trace]: the frame given, or that of the caller. *)
Definition set_trace (debugger : option (list string)) (o : opts) (fr : option nat) (caller : nat)
  : option (list string) * option (list string * subject) :=
  match match debugger with Some m => Some m | None => debug_init o end with
  | None => (debugger, None)
  | Some m => (Some m, Some (m, AtFrame (match fr with Some f => f | None => caller end)))
  end.
(** soil/debugging.py:237-243 [post_mortem]; [handled] is the traceback of the exception that is being handled. *)
Definition post_mortem (debugger : option (list string)) (o : opts) (traceback : option nat) (handled : option nat)
  : option (list string) * option (list string * subject) :=
  match match debugger with Some m => Some m | None => debug_init o end with
  | None => (debugger, None)
  | Some m => (Some m, Some (m, AtTraceback handled))
  end.
