(** Model of examples/custom_timeouts/custom_timeouts_sim.py: agents that choose the instant
    of their next activation, on top of FsmModel. *)
From Coq Require Import ZArith List Bool Arith String.
From Verif Require Import Num PyDict TimedModel AgentModel FsmModel.
Import ListNotations.
Local Open Scope string_scope.

(** The state functions: examples/custom_timeouts/custom_timeouts_sim.py:8-13 [counting],
    20-23 [odds], and the state [dead] of soil/agents/fsm.py:173-175. *)
Inductive tfun := Counting | OddsState | DeadState.

(** examples/custom_timeouts/custom_timeouts_sim.py:4-13 [Fibonacci] and 17-23 [Odds].  The
    first element of the body of [Fibonacci] is the attribute [prev]. *)
Definition fibonacci_class : cls (option (state tfun)) :=
  Cls 1 [fsm_class DeadState] [None; Some (State Counting "counting" true)].
Definition odds_class : cls (option (state tfun)) :=
  Cls 2 [fsm_class DeadState] [Some (State OddsState "odds" true)].

Section Timeouts.
Context {AR : Arith}.
(** The number one, in ticks. *)
Variable one : Z.

(** Python's [max([x, y])]. *)
Definition n_max (x y : num) : num := if n_ltb x y then y else x.
(** Python's [x % 2]. *)
Definition n_mod2 (x : num) : num := match x with Fin z => Fin (z mod (2 * one)) | _ => NaN end.

Context {R : Type}.
(** The attribute [prev] of the agents, and the random generator of the model. *)
Record trest := TRest { tr_prev : aid -> num; tr_rng : R }.
Definition set_prev (w : trest) (a : aid) (v : num) : trest :=
  TRest (fun b => if Nat.eqb b a then v else tr_prev w b) (tr_rng w).

(** examples/custom_timeouts/custom_timeouts_sim.py:10-13 and 21-23.  Logging is left out. *)
Definition timeouts_code : code tfun tfun trest :=
  Code (fun f => f)
    (fun s a f w =>
       let r := fw_rest w in
       match f with
       | Counting =>
           let prev := tr_prev r a in
           (set_prev r a (n_max (s_time s) prev), [], GReturn (PNum prev))
       | OddsState => (r, [], GReturn (PNum (n_add (Fin one) (n_mod2 (s_time s)))))
       | DeadState => (r, [], GReturn (PNum PInf))
       end).

(** Creation of an agent: soil/agents/fsm.py:114-122, with no state given. *)
Definition new_agent (c : cls (option (state tfun))) : fagent tfun :=
  FAgent (KFsm (fst (meta c))) true (match fsm_init c PNone with Some cur => cur | None => None end).

(** Any number of agents of the two classes; [fib a] tells which agents are of class
    [Fibonacci]. *)
Definition timeouts_world (fib : aid -> bool) (rng : R) : fworld tfun trest * cors (frame tfun) :=
  (FWorld (fun a => new_agent (if fib a then fibonacci_class else odds_class)) (TRest (fun _ => Fin one) rng),
   no_cors).

(** No state function returns a string. *)
Definition timeouts_user (shuffle : list aid -> R -> R * list aid)
  : user (fworld tfun trest * cors (frame tfun)) :=
  agent_user timeouts_code (fun _ => None)
    (fun l r => let '(rng, l') := shuffle l (tr_rng r) in (TRest (tr_prev r) rng, l')).

(** examples/custom_timeouts/custom_timeouts_sim.py:30-34: the agents are added when the
    environment is created (instant 0), and then the model is stepped. *)
Definition timeouts_run (sh : bool) (shuffle : list aid -> R -> R * list aid) (fib : aid -> bool)
    (agents : list aid) (n : nat) (rng : R) :=
  run_hist (timeouts_user shuffle) (map (fun a => CAdd a None) agents ++ repeat CStep n)
    (timed_init sh (Fin one)) (timeouts_world fib rng).
End Timeouts.
Arguments trest : clear implicits.
