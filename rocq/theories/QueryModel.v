(** Model of the queries for agents: soil/agents/__init__.py:385-489, 270-278 and
    soil/environment.py:115-123. *)
From Coq Require Import List Bool Arith String.
From Verif Require Import PyDict.
Import ListNotations.

Section Query.
(** Agents, attribute values and classes.  [veq] is Python's == (the identity that [in]
    tests first matters for NaN only, and is left out).  [uid a] is [a.unique_id],
    [state_of a] is [a.get("state_id", None)] (the attribute of the model if the agent has
    none), [attr a k] is [getattr(a, k, None)]. *)
Context {A V C : Type}.
Variable veq : V -> V -> bool.
Variable uid : A -> V.
Variable state_of : A -> V.
Variable attr : A -> string -> V.
Variable isinstance : A -> C -> bool.

(** A single value, or a list of them (for [state_id], a list or a tuple). *)
Inductive one_or_many := One (v : V) | Many (l : list V).
Definition as_list (x : one_or_many) : list V :=
  match x with One v => [v] | Many l => l end.

(** The arguments of [filter_agents].  Simplifications: classes are given as a tuple of
    classes (one class is a tuple of one), not by name; [limit] is not negative. *)
Record criteria := Criteria {
  q_id_args : list V;
  q_unique_id : option one_or_many;
  q_state_id : option one_or_many;
  q_class : option (list C);
  q_state : option (dict string one_or_many);
  q_limit : option nat;
  q_kwargs : dict string one_or_many }.

Definition memb (v : V) (l : list V) : bool := existsb (veq v) l.

(** soil/agents/__init__.py:481-484.  Each filter is a closure that reads the variables
    [k] and [vs] when it is called, which is after the loop: it gets their last values.
    [loop items k vs fs] gives the final values and the filters. *)
Fixpoint attr_loop (items : dict string one_or_many) (env : string * list V)
    (fs : list (string * list V -> A -> bool))
  : (string * list V) * list (string * list V -> A -> bool) :=
  match items with
  | [] => (env, fs)
  | (k, v) :: items' =>
      attr_loop items' (k, as_list v)
        (fs ++ [fun env a => memb (attr a (fst env)) (snd env)])
  end.

(** soil/agents/__init__.py:446-460: the ids; no id at all means everybody. *)
Definition ids_of (q : criteria) : list V :=
  match q_unique_id q with Some x => as_list x | None => [] end ++ q_id_args q.

(** soil/agents/__init__.py:478-479: [state or dict()], updated in place with the keyword
    arguments. *)
Definition state_dict (q : criteria) : dict string one_or_many :=
  match q_state q with
  | Some (p :: d) => dupdate (p :: d) (q_kwargs q)
  | _ => dupdate [] (q_kwargs q)
  end.

(** soil/agents/__init__.py:432-489. *)
Definition filter_agents (agents : list A) (q : criteria) : list A :=
  let f0 := match ids_of q with
            | [] => agents
            | ids => filter (fun a => memb (uid a) ids) agents
            end in
  let f1 := match q_state_id q with
            | None => f0
            | Some x => filter (fun a => memb (state_of a) (as_list x)) f0
            end in
  let f2 := match q_class q with
            | None => f1
            | Some cs => filter (fun a => existsb (isinstance a) cs) f1
            end in
  let '(env, fs) := attr_loop (state_dict q) (EmptyString, []) [] in
  let f3 := fold_left (fun l f => filter (f env) l) fs f2 in
  match q_limit q with None => f3 | Some n => firstn n f3 end.

(** What the dictionary given as [state] holds after the call. *)
Definition state_after (q : criteria) : option (dict string one_or_many) :=
  match q_state q with
  | Some (p :: d) => Some (state_dict q)
  | x => x
  end.

(** [env.get_agents(...)] (soil/environment.py:115-117 and soil/agents/__init__.py:413-420),
    and [agent.get_agents(...)] for an agent that is not a [NetworkAgent] (273-278). *)
Definition get_agents (registered : list A) (q : criteria) : list A := filter_agents registered q.

(** soil/agents/network_agents.py:39-60 without [limit_neighbors]: the argument [unique_id]
    is dropped. *)
Definition net_get_agents (registered : list A) (q : criteria) : list A :=
  filter_agents registered
    (Criteria [] None (q_state_id q) (q_class q) (q_state q) (q_limit q) (q_kwargs q)).

(** [env.agent(...)] (soil/environment.py:119-120, soil/agents/__init__.py:416-417): the
    first one; None is StopIteration. *)
Definition get_agent (registered : list A) (q : criteria) : option A :=
  hd_error (filter_agents registered q).

(** [env.count_agents(...)], soil/environment.py:122-123. *)
Definition count_agents (registered : list A) (q : criteria) : nat :=
  List.length (get_agents registered q).

(** soil/agents/__init__.py:406-411 and 422-423: [env.get_agents[i]] and
    [i in env.get_agents] for an id.  [self._agents] is mesa's [AgentSet], which contains
    the agents (weakly), never their ids: [i in self._agents] is False for what is not
    weakly referenceable, such as an int.  [in_set] is the test for an agent object. *)
Variable in_set : A -> list A -> bool.
Inductive item := TheAgent (a : A) | TheId (v : V).
Definition view_contains (registered : list A) (i : item) : bool :=
  match i with TheAgent a => in_set a registered | TheId _ => false end.
(** [nth_of v l] is [self._agents[v]] for an int, which counts positions.  None stands for
    the ValueError of line 411, or, for an agent, for the TypeError of an index that is not
    an int (410). *)
Variable nth_of : V -> list A -> option A.
Definition view_getitem (registered : list A) (i : item) : option A :=
  if view_contains registered i
  then match i with TheAgent _ => None | TheId v => nth_of v registered end
  else None.
End Query.
Arguments criteria : clear implicits.
Arguments one_or_many : clear implicits.
Arguments item : clear implicits.
Arguments One {V}. Arguments Many {V}.
Arguments Criteria {V C}.
