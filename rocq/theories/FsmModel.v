(** Model of soil/agents/fsm.py: state machines, driven by the decorated generator step
    of soil/agents/__init__.py:28-46, and of the death of agents. *)
From Coq Require Import ZArith List Bool Arith String Ascii.
From Verif Require Import Num PyDict TimedModel AgentModel.
Import ListNotations.
Local Open Scope string_scope.

Section Types.
Context {F : Type}.

(** soil/agents/fsm.py:8-33 [State]: the function, the name and whether it is the
    default.  Bound and unbound states differ in nothing that matters here; whether the
    function is a generator is part of what running it does. *)
Record state := State { st_fun : F; st_name : string; st_default : bool }.

(** What state functions can return: None, numbers and delays, strings, states, tuples
    and other objects.  Simplification: other objects cannot be unpacked (dictionaries and
    other iterables of two elements are not modelled). *)
Inductive pyval :=
| PNone | PNum (n : num) | PStr (s : string) | PState (st : state)
| PTuple (l : list pyval) | PObj.

(** soil/agents/fsm.py:79-97 [MetaFSM.__new__], the two loops: the states and the default
    state.  Each element of the class body is a state or something else (None). *)
Definition add_state (acc : dict string state * option state) (st : state) :=
  (dset (st_name st) st (fst acc), if st_default st then Some st else snd acc).
Fixpoint meta (c : cls (option state)) : dict string state * option state :=
  match c with
  | Cls _ bases own =>
      let inherited :=
        fold_left (fun acc b => fold_left (fun acc kv =>
                     (dset (fst kv) (snd kv) (fst acc),
                      if st_default (snd kv) then Some (snd kv) else snd acc))
                   (fst (meta b)) acc) bases ([], None) in
      fold_left (fun acc o => match o with Some st => add_state acc st | None => acc end)
                own inherited
  end.

(** soil/agents/fsm.py:158-167 [_set_state]: the new current state, or None for
    ValueError. *)
Definition set_state (states : dict string state) (cur : option state) (v : pyval)
  : option (option state) :=
  match v with
  | PNone => Some cur
  | PStr s => match dget s states with Some st => Some (Some st) | None => None end
  | PState st => Some (Some st)
  | _ => None
  end.

(** Unpacking a value into two variables; None for TypeError and ValueError.  A string is
    an iterable of its characters. *)
Definition unpack2 (v : pyval) : option (pyval * pyval) :=
  match v with
  | PTuple [x; y] => Some (x, y)
  | PStr (String c (String d EmptyString)) =>
      Some (PStr (String c EmptyString), PStr (String d EmptyString))
  | _ => None
  end.

(** soil/agents/fsm.py:114-122 [FSM.__init__]: the initial state, or None for
    ValueError. *)
Definition fsm_init (c : cls (option state)) (state_id : pyval) : option (option state) :=
  let '(states, default) := meta c in
  match set_state states default state_id with
  | None => None
  | Some cur =>
      if (1 <? List.length states)%nat && match cur with None => true | _ => false end
      then None else Some cur
  end.

(** The class [FSM] itself, soil/agents/fsm.py:113-175, whose only state is [dead]. *)
Definition fsm_class (dead : F) : cls (option state) :=
  Cls 0 [] [Some (State dead "dead" false)].

(** What an agent does when it is activated: run the step of [FSM], with the states of
    its class, or a step of its own (a function or generator). *)
Inductive kind := KFsm (states : dict string state) | KPlain (f : F).

(** An agent: [alive] (soil/agents/__init__.py:125) and [_state]. *)
Record fagent := FAgent { fa_kind : kind; fa_alive : bool; fa_cur : option state }.

Definition set_alive (x : fagent) (b : bool) := FAgent (fa_kind x) b (fa_cur x).
Definition set_cur (x : fagent) (c : option state) := FAgent (fa_kind x) (fa_alive x) c.
End Types.
Arguments state : clear implicits.
Arguments pyval : clear implicits.
Arguments kind : clear implicits.
Arguments fagent : clear implicits.

Section Fsm.
Context {F Q W : Type}.

(** All agents, and the rest of the world. *)
Record fworld := FWorld { fw_agents : aid -> fagent F; fw_rest : W }.

Definition upd (w : fworld) (a : aid) (x : fagent F) : fworld :=
  FWorld (fun b => if Nat.eqb b a then x else fw_agents w b) (fw_rest w).

(** Calls that user code makes: [b.die()], [b.set_state(v)] and calls on the
    scheduler. *)
Inductive fop := FDie (b : aid) | FSet (b : aid) (v : pyval F) | FSched (op : sop).

(** soil/agents/fsm.py:137-140 [set_state].  A call that raises ValueError changes
    nothing; whether the caller handles the exception is part of how it ends. *)
Definition call_set_state (s : sched) (w : fworld) (b : aid) (v : pyval F) : fworld :=
  if n_ltb (Fin 0) (s_time s) then w
  else match fa_kind (fw_agents w b) with
       | KPlain _ => w
       | KFsm states =>
           match set_state states (fa_cur (fw_agents w b)) v with
           | Some cur => upd w b (set_cur (fw_agents w b) cur)
           | None => w
           end
       end.

(** The calls, in order.  [die] is soil/agents/__init__.py:232-242. *)
Fixpoint run_fops (s : sched) (ops : list fop) (w : fworld) : fworld * list sop :=
  match ops with
  | [] => (w, [])
  | FDie b :: ops' =>
      let '(w', l) := run_fops s ops' (upd w b (set_alive (fw_agents w b) false)) in
      (w', SRem b :: l)
  | FSet b v :: ops' => run_fops s ops' (call_set_state s w b v)
  | FSched op :: ops' => let '(w', l) := run_fops s ops' w in (w', op :: l)
  end.

(** User code: [c_start f] is the generator of the function [f] (a state function or a
    step), and [c_resume s a q w] runs it for agent [a] from [q] to its next yield, its
    return or an exception.  A function that is not a generator returns the first time it
    is resumed. *)
Record code := Code {
  c_start : F -> Q;
  c_resume : sched -> aid -> Q -> fworld -> W * list fop * gout Q (pyval F) }.

Variable u : code.
(** [float(s)] of a string. *)
Variable float_str : string -> option num.

Definition to_float (v : pyval F) : option num :=
  match v with PNum n => Some n | PStr s => float_str s | _ => None end.
Definition is_none (v : pyval F) : bool := match v with PNone => true | _ => false end.

(** The generator object of a step: not started, or suspended inside a function. *)
Inductive frame := FStart | FIn (q : Q).

(** soil/agents/fsm.py:146-156: what [FSM.step] does with the value returned by the state
    function. *)
Definition finish (states : dict string (state F)) (a : aid) (w : fworld) (v : pyval F)
  : fworld * gout frame (pyval F) :=
  let x := fw_agents w a in
  match unpack2 v with
  | None =>
      match set_state states (fa_cur x) v with
      | Some cur => (upd w a (set_cur x cur), GReturn PNone)
      | None => (w, GReturn v)
      end
  | Some (next_state, when) =>
      match set_state states (fa_cur x) next_state with
      | Some cur => (upd w a (set_cur x cur), GReturn when)
      | None => (w, GRaise false)
      end
  end.

(** Resuming the user's function, soil/agents/fsm.py:18-26 and 144. *)
Definition inside (s : sched) (a : aid) (q : Q) (w : fworld)
  : fworld * list sop * gout frame (pyval F) :=
  let '(r, ops, o) := c_resume u s a q w in
  let '(w1, l) := run_fops s ops (FWorld (fw_agents w) r) in
  match o with
  | GYield v q' => (w1, l, GYield v (FIn q'))
  | GRaise d => (w1, l, GRaise d)
  | GReturn v =>
      match fa_kind (fw_agents w1 a) with
      | KFsm states => let '(w2, g) := finish states a w1 v in (w2, l, g)
      | KPlain _ => (w1, l, GReturn v)
      end
  end.

(** soil/agents/fsm.py:142-156 [FSM.step] as a generator, and a step of the user.  The
    check of line 143 is made only when the generator starts. *)
Definition step_gen (s : sched) (a : aid) (fr : frame) (w : fworld)
  : fworld * list sop * gout frame (pyval F) :=
  match fr with
  | FIn q => inside s a q w
  | FStart =>
      match fa_kind (fw_agents w a) with
      | KPlain f => inside s a (c_start u f) w
      | KFsm _ =>
          if negb (fa_alive (fw_agents w a)) then (w, [], GRaise true)
          else match fa_cur (fw_agents w a) with
               | None => (w, [], GRaise false)
               | Some st => inside s a (c_start u (st_fun st)) w
               end
      end
  end.

(** [a.step()] for the scheduler. *)
Definition agent_step (s : sched) (a : aid) (wc : fworld * cors frame)
  : fworld * cors frame * list sop * outcome :=
  decorated (fun _ => FStart) step_gen PNone is_none to_float s a (fst wc) (snd wc).

(** The user code of TimedModel, with these agents.  Shuffling draws from the random
    generator, which is in the rest of the world. *)
Definition agent_user (shuffle : list aid -> W -> W * list aid) : user (fworld * cors frame) :=
  User _ agent_step
    (fun l wc => let '(r, l') := shuffle l (fw_rest (fst wc)) in
                 (FWorld (fw_agents (fst wc)) r, snd wc, l')).
End Fsm.
Arguments fworld : clear implicits.
Arguments fop : clear implicits.
Arguments code : clear implicits.
Arguments frame : clear implicits.
Arguments FStart {Q}. Arguments FIn {Q}.
