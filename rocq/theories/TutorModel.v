(** Model of the first agents of docs/tutorial/soil_tutorial.ipynb ([ExampleAgent], [FSMExample] and
    [FSMExampleDelayed]), as code for the agents of FsmModel. *)
From Coq Require Import ZArith List Bool Arith String.
From Verif Require Import Num PyDict TimedModel AgentModel FsmModel FsmDieModel.
Import ListNotations.
Local Open Scope string_scope.
#[local] Existing Instance exact.

(** The step of [ExampleAgent], the state functions of the other two classes, and that of [dead]
    (soil/agents/fsm.py:173-175). *)
Inductive tfun := TStep | TNeutral | TNeutralDelayed | TInfected | TDead.

(** docs/tutorial/soil_tutorial.ipynb:396-401, 403-406 and 463-465: the decorated states. *)
Definition t_neutral : state tfun := State TNeutral "neutral" true.
Definition t_neutral_delayed : state tfun := State TNeutralDelayed "neutral" true.
Definition t_infected : state tfun := State TInfected "infected" false.

(** docs/tutorial/soil_tutorial.ipynb:250-264, 391-406 and 461-465: the classes.  [None]: the method
    [init] of line 393. *)
Inductive lesson := LExample | LFsm | LDelayed.
Definition fsm_example : cls (option (state tfun)) :=
  Cls 1 [fsm_class TDead] [None; Some t_neutral; Some t_infected].
Definition fsm_delayed : cls (option (state tfun)) := Cls 2 [fsm_example] [Some t_neutral_delayed].

(** The attributes of the agents: [steps_neutral] and [is_infected]; and how often the scheduler has shuffled. *)
Record trest := TRest { t_steps : aid -> nat; t_flag : aid -> bool; t_shuffles : nat }.
Definition set_steps_neutral (r : trest) (a : aid) (n : nat) : trest :=
  TRest (fun b => if Nat.eqb b a then n else t_steps r b) (t_flag r) (t_shuffles r).
Definition set_flag (r : trest) (a : aid) : trest :=
  TRest (t_steps r) (fun b => if Nat.eqb b a then true else t_flag r b) (t_shuffles r).

(** docs/tutorial/soil_tutorial.ipynb:255-264 [ExampleAgent.step].  [m] is the attribute
    [max_steps_neutral] of the model (line 190).  Simplification: it is a natural number and it does
    not change. *)
Definition example_step (m : nat) (a : aid) (r : trest) : trest * list (fop tfun) * gout tfun (pyval tfun) :=
  if t_flag r a then (r, [FDie a], GReturn (PNum PInf))
  else
    let n := S (t_steps r a) in
    let r1 := set_steps_neutral r a n in
    (if Nat.ltb m n then set_flag r1 a else r1, [], GReturn PNone).

(** docs/tutorial/soil_tutorial.ipynb:396-401 [FSMExample.neutral]. *)
Definition neutral_fn (m : nat) (a : aid) (r : trest) : trest * list (fop tfun) * gout tfun (pyval tfun) :=
  let n := S (t_steps r a) in
  (set_steps_neutral r a n, [], GReturn (if Nat.ltb m n then PState t_infected else PNone)).

(** docs/tutorial/soil_tutorial.ipynb:464-465 [FSMExampleDelayed.neutral]. *)
Definition neutral_delayed_fn (m : nat) (r : trest) : trest * list (fop tfun) * gout tfun (pyval tfun) :=
  (r, [], GReturn (state_delay t_infected (Fin (Z.of_nat m)))).

(** docs/tutorial/soil_tutorial.ipynb:403-406 [FSMExample.infected]: [self.die] is that of [FSM]. *)
Definition infected_fn (now : num) (a : aid) (w : fworld tfun trest)
  : trest * list (fop tfun) * gout tfun (pyval tfun) :=
  match fa_kind (fw_agents w a) with
  | KPlain _ => (fw_rest w, [], GRaise false)
  | KFsm states =>
      let '(ops, v) := fsm_die now states a in
      (fw_rest w, ops, match v with Some v => GReturn v | None => GRaise false end)
  end.

Definition tutor_code (m : nat) : code tfun tfun trest :=
  Code (fun f => f)
    (fun s a f w =>
       match f with
       | TStep => example_step m a (fw_rest w)
       | TNeutral => neutral_fn m a (fw_rest w)
       | TNeutralDelayed => neutral_delayed_fn m (fw_rest w)
       | TInfected => infected_fn (s_time s) a w
       | TDead => (fw_rest w, [], GReturn (PNum PInf))
       end).

(** The agents and the scheduler.  No function returns a string.  [shuffle k] is what the scheduler does to a list when it
    shuffles for the [k]th time; no other code here draws numbers. *)
Definition tutor_user (m : nat) (shuffle : nat -> list aid -> list aid) : user (fworld tfun trest * cors (frame tfun)) :=
  agent_user (tutor_code m) (fun _ => None)
    (fun l r => (TRest (t_steps r) (t_flag r) (S (t_shuffles r)), shuffle (t_shuffles r) l)).

(** The creation of an agent (docs/tutorial/soil_tutorial.ipynb:251-253 and 393-394,
    soil/agents/fsm.py:114-122): [init] sets the attributes. *)
Definition new_pupil (k : lesson) : fagent tfun :=
  let machine c := FAgent (KFsm (fst (meta c))) true (match fsm_init c PNone with Some cur => cur | None => None end) in
  match k with
  | LExample => FAgent (KPlain TStep) true None
  | LFsm => machine fsm_example
  | LDelayed => machine fsm_delayed
  end.
(** docs/tutorial/soil_tutorial.ipynb:342-343, 427-428 and 486-487: a model in which the agents have just been
    created; [kinds] tells of which class each one is. *)
Definition classroom (kinds : aid -> lesson) : fworld tfun trest :=
  FWorld (fun a => new_pupil (kinds a)) (TRest (fun _ => 0) (fun _ => false) 0).
