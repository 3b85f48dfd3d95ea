(** Model of soil/agents/IndependentCascadeModel.py, as code for the agents of FsmModel. *)
From Coq Require Import ZArith List Bool Arith String.
From Verif Require Import Num PyDict TimedModel AgentModel FsmModel.
Import ListNotations.
Local Open Scope string_scope.

(** The functions of its states, and of [dead] (soil/agents/fsm.py:173-175). *)
Inductive afun := Outside | Imitate | ADead.

(** soil/agents/IndependentCascadeModel.py:16-18 and 24-25: the decorated states. *)
Definition outside : state afun := State Outside "outside" true.
Definition imitate : state afun := State Imitate "imitate" false.
(** soil/agents/IndependentCascadeModel.py:4-30: the class.  Of the bases of Agent
    (soil/agents/__init__.py:678) only FSM has states. *)
Definition cascade_class : cls (option (state afun)) :=
  Cls 2 [Cls 1 [fsm_class ADead] []] [None; None; Some outside; Some imitate].

(** The rest of the world: the parameters of the model, the neighbours of each agent in the
    network, the attributes of the agents, and the draws to come. *)
Record arest := ARest {
  ar_innovation : num; ar_imitation : num;
  ar_nbrs : aid -> list aid;
  ar_correlation : aid -> nat; ar_aware : aid -> num;
  ar_draws : nat -> num }.
Definition next_draw (r : arest) : arest :=
  ARest (ar_innovation r) (ar_imitation r) (ar_nbrs r) (ar_correlation r) (ar_aware r) (fun n => ar_draws r (S n)).
Definition set_at {X} (f : aid -> X) (a : aid) (x : X) : aid -> X := fun b => if Nat.eqb b a then x else f b.
Definition set_sentiment (r : arest) (a : aid) : arest :=
  ARest (ar_innovation r) (ar_imitation r) (ar_nbrs r) (set_at (ar_correlation r) a 1) (ar_aware r) (ar_draws r).
Definition set_awareness (r : arest) (a : aid) (t : num) : arest :=
  ARest (ar_innovation r) (ar_imitation r) (ar_nbrs r) (ar_correlation r) (set_at (ar_aware r) a t) (ar_draws r).

Section Cascade.
(** [p * n] for an integer [n]. *)
Variable times : nat -> num -> num.
(** [t - 1]. *)
Variable pred : num -> num.

(** soil/agents/network_agents.py:26-33 and 39-60: the neighbours of [a] among the agents of the
    scheduler. *)
Definition neighbours (s : sched) (r : arest) (a : aid) : list aid :=
  filter (fun b => existsb (Nat.eqb b) (ar_nbrs r a)) (s_reg s).

(** [agent.get("state_id", None)]: the name of the state of a state machine (soil/agents/fsm.py:133-135).
    Simplification: the model has no attribute of this name. *)
Inductive sid := Text (t : string) | Number (z : Z).
Definition sid_eqb (x y : sid) : bool :=
  match x, y with Text s, Text t => String.eqb s t | Number m, Number n => Z.eqb m n | _, _ => false end.
Definition state_id (x : fagent afun) : option sid :=
  match fa_kind x, fa_cur x with KFsm _, Some st => Some (Text (st_name st)) | _, _ => None end.

(** soil/agents/IndependentCascadeModel.py:26: the neighbours whose [state_id] is in [(1,)]
    (soil/agents/__init__.py:462-473) and whose [time_awareness] is [self.now - 1]. *)
Definition aware_neighbors (s : sched) (ag : aid -> fagent afun) (r : arest) (a : aid) : list aid :=
  filter (fun b => n_eqb (ar_aware r b) (pred (s_time s)))
    (filter (fun b => match state_id (ag b) with Some i => existsb (sid_eqb i) [Number 1] | None => false end)
       (neighbours s r a)).

(** soil/agents/IndependentCascadeModel.py:16-22. *)
Definition outside_fn (s : sched) (a : aid) (r : arest) : arest * gout afun (pyval afun) :=
  let r1 := next_draw r in
  if prob (ar_draws r 0) (ar_innovation r)
  then (set_awareness (set_sentiment r1 a) a (s_time s), GReturn (PState imitate))
  else (r1, GReturn PNone).
(** soil/agents/IndependentCascadeModel.py:24-30. *)
Definition imitate_fn (s : sched) (ag : aid -> fagent afun) (a : aid) (r : arest) : arest * gout afun (pyval afun) :=
  let aware := aware_neighbors s ag r a in
  let r1 := next_draw r in
  if prob (ar_draws r 0) (times (List.length aware) (ar_imitation r))
  then (set_sentiment r1 a, GReturn (PState outside))
  else (r1, GReturn PNone).

(** All of it. *)
Definition cascade_code : code afun afun arest :=
  Code (fun f => f)
    (fun s a f w =>
       let r := fw_rest w in
       match f with
       | Outside => let '(r1, g) := outside_fn s a r in (r1, [], g)
       | Imitate => let '(r1, g) := imitate_fn s (fw_agents w) a r in (r1, [], g)
       | ADead => (r, [], GReturn (PNum PInf))
       end).
Definition cascade_user (shuffle : list aid -> arest -> arest * list aid)
  : user (fworld afun arest * cors (frame afun)) := agent_user cascade_code (fun _ => None) shuffle.
End Cascade.

(** A new agent of the class: soil/agents/fsm.py:114-122. *)
Definition new_cascade : fagent afun :=
  FAgent (KFsm (fst (meta cascade_class))) true
    (match fsm_init cascade_class PNone with Some cur => cur | None => None end).
