(** Model of the agents of tests/test_main.py:164-199, which go to and fro between two states.  The tests have one agent, with no delay and with a delay
    of 2 in the first state, and call its step; here any number of them, each with its own delays, in a model that runs. *)
From Coq Require Import ZArith List Bool Arith String.
From Verif Require Import Num PyDict TimedModel AgentModel FsmModel.
Import ListNotations.
Local Open Scope string_scope.

(** tests/test_main.py:167-174 and 186-193: the functions of the states; soil/agents/fsm.py:173-175: the one of [dead]. *)
Inductive tfn := TPing | TPong | TDead.
(** tests/test_main.py:168-170 and 172-174. *)
Definition t_ping : state tfn := State TPing "ping" true.
Definition t_pong : state tfn := State TPong "pong" false.
(** tests/test_main.py:166-174 and 185-193 [ToggleAgent]. *)
Definition toggle_class : cls (option (state tfn)) := Cls 1 [fsm_class TDead] [Some t_ping; Some t_pong].

Section Code.
Context {R : Type}.
(** The delay of each state for each agent: None for [return self.pong] (lines 170 and 174), and [Some d] for [return self.pong.delay(d)] (line 189). *)
Variables (d_ping d_pong : aid -> option num).
(** soil/agents/fsm.py:50-51 [BoundState.delay]: the state and a delay, which float() makes a number (soil/time.py:18-25). *)
Definition then_state (st : state tfn) (d : option num) : pyval tfn :=
  match d with None => PState st | Some n => PTuple [PState st; PNum n] end.
(** The functions of the states: the return of tests/test_main.py:170, 174, 189 and 193, and soil/agents/fsm.py:173-175.  The rest of the world is the
    random generator. *)
Definition toggle_code : code tfn tfn R :=
  Code (fun f => f)
    (fun s a f w => (fw_rest w, [],
       match f with
       | TPing => GReturn (then_state t_pong (d_ping a))
       | TPong => GReturn (then_state t_ping (d_pong a))
       | TDead => GReturn (PNum PInf)
       end)).
(** The agents and the scheduler. *)
Definition toggle_user (shuffle : list aid -> R -> R * list aid) : user (fworld tfn R * cors (frame tfn)) :=
  agent_user toggle_code (fun _ => None) shuffle.
(** tests/test_main.py:176 and 195: new agents (soil/agents/fsm.py:114-122), with no state given. *)
Definition toggle_world (g : R) : fworld tfn R * cors (frame tfn) :=
  (FWorld (fun _ => FAgent (KFsm (fst (meta toggle_class))) true (match fsm_init toggle_class PNone with Some c => c | None => None end)) g, no_cors).
End Code.
(** soil/agents/fsm.py:133-135 [state_id]: the name of the current state. *)
Definition state_id {R} (w : fworld tfn R) (a : aid) : option string := option_map st_name (fa_cur (fw_agents w a)).
