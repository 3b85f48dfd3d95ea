(** Model of the agents of tests/test_main.py:16-24, which count the neighbours that are in the same state; tests/test_network.py uses them in a network of two nodes.
    Here any network and any number of agents, each with its own initial state. *)
From Coq Require Import ZArith List Bool Arith String.
From Verif Require Import Num PyDict TimedModel AgentModel FsmModel.
Import ListNotations.
Local Open Scope string_scope.

(** The functions of the states: tests/test_main.py:19-20 and 23-24, and soil/agents/fsm.py:173-175. *)
Inductive ufn := UNormal | UUnreachable | UDead.
(** tests/test_main.py:17-20 and 22-24. *)
Definition u_normal : state ufn := State UNormal "normal" true.
Definition u_unreachable : state ufn := State UUnreachable "unreachable" false.
(** tests/test_main.py:16-24 [CustomAgent]. *)
Definition custom_class : cls (option (state ufn)) := Cls 1 [fsm_class UDead] [Some u_normal; Some u_unreachable].

(** The agents on the nodes next to that of each agent, the attribute [neighbors] (None: not set), and the random generator. *)
Record urest {R : Type} := URest { u_nbrs : aid -> list aid; u_neighbors : aid -> option nat; u_rng : R }.
Arguments urest : clear implicits.
Arguments URest {R}.

Section Code.
Context {R : Type}.
Notation world := (fworld ufn (urest R)).
(** soil/agents/fsm.py:133-135 [state_id]. *)
Definition custom_id (w : world) (a : aid) : option string := option_map st_name (fa_cur (fw_agents w a)).
(** [self.count_agents(state_id="normal", limit_neighbors=True)], tests/test_main.py:20, with soil/agents/__init__.py:270-278 and 443-473 and
    soil/agents/network_agents.py:39-60: the agents of the scheduler that are neighbours and in this state. *)
Definition count_normal (s : sched) (a : aid) (w : world) : nat :=
  List.length (filter (fun b => match custom_id w b with Some i => String.eqb i "normal" | None => false end)
    (filter (fun b => existsb (Nat.eqb b) (u_nbrs (fw_rest w) a)) (s_reg s))).
(** tests/test_main.py:20 and 24, and soil/agents/fsm.py:173-175. *)
Definition custom_code : code ufn ufn (urest R) :=
  Code (fun f => f)
    (fun s a f w =>
       match f with
       | UNormal =>
           (URest (u_nbrs (fw_rest w)) (fun b => if Nat.eqb b a then Some (count_normal s a w) else u_neighbors (fw_rest w) b) (u_rng (fw_rest w)), [], GReturn PNone)
       | UUnreachable => (fw_rest w, [], GReturn PNone)
       | UDead => (fw_rest w, [], GReturn (PNum PInf))
       end).
(** The agents and the scheduler; shuffling changes the random generator only. *)
Definition custom_user (shuffle : list aid -> R -> R * list aid) : user (world * cors (frame ufn)) :=
  agent_user custom_code (fun _ => None)
    (fun l r => let '(g, l') := shuffle l (u_rng r) in (URest (u_nbrs r) (u_neighbors r) g, l')).
(** New agents (soil/agents/fsm.py:114-122), some with a [state_id].  Simplification: a state that does not exist would raise (C271). *)
Definition custom_world (nbrs : aid -> list aid) (given : aid -> option string) (g : R) : world * cors (frame ufn) :=
  (FWorld (fun a => FAgent (KFsm (fst (meta custom_class))) true
      (match fsm_init custom_class (match given a with Some i => PStr i | None => PNone end) with Some c => c | None => None end))
    (URest nbrs (fun _ => None) g), no_cors).
End Code.
