(** Model of the construction of agents: the constructors of soil/agents/__init__.py:117-146 (BaseAgent),
    soil/agents/network_agents.py:5-24, soil/agents/fsm.py:114-128 and soil/agents/evented.py:9-12, for
    classes that combine them in any order, the methods [die] that they have, and [add_agent] of environments. *)
From Coq Require Import List Bool Arith String.
From Verif Require Import PyDict.
Import ListNotations.
Local Open Scope string_scope.

(** The method resolution order of a class, without BaseAgent and what comes after it: the mixins, and
    classes without a constructor of their own (Geo, and most classes of users). *)
Inductive part := PNet | PFsm | PEvent | PPlain.
Definition part_eqb (p q : part) : bool :=
  match p, q with
  | PNet, PNet | PFsm, PFsm | PEvent, PEvent | PPlain, PPlain => true
  | _, _ => false
  end.
Definition has (p : part) (mro : list part) : bool := existsb (part_eqb p) mro.

(** The arguments that matter here.  None: not given (or None, for [state_id] and [node_id]). *)
Record args := Args { a_init : option bool; a_state : option string; a_node : option nat }.

(** An agent under construction: whether the attributes of BaseAgent are there, [alive], the inbox,
    the id of the current state and the node. *)
Record obj := Obj {
  o_base : bool;
  o_alive : bool;
  o_inbox : bool;
  o_state : option string;
  o_node : option nat }.
Definition blank : obj := Obj false false false None None.

(** The model: the nodes, with the agent of each, and the agents of the scheduler. *)
Record cworld := CWorld { cw_nodes : dict nat (option nat); cw_sched : list nat }.

Inductive cexn := CValueError | CKeyError | CUserError.
(** The model after a call and the agent, or the exception; and, for constructors, the agent as it was each
    time that [init] was called. *)
Definition out : Type := cworld * (obj + cexn).
Definition res : Type := out * list obj.

Section Construct.
(** The class: its order, its states and its default state. *)
Variable mro : list part.
Variable states : list string.
Variable default : option string.
(** The agent. *)
Variable self : nat.
(** The node that soil/agents/network_agents.py:10-20 chooses (see NetModel). *)
Variable pick : cworld -> nat.
(** The method [init] of the class. *)
Variable user_init : obj -> cworld -> out.

(** The end of the constructors: [if init: self.init()]. *)
Definition finish (a : args) (r : res) (complete : obj -> cworld -> out) : res :=
  match r with
  | ((w, inr e), t) => ((w, inr e), t)
  | ((w, inl o), t) =>
      match complete o w with
      | (w', inr e) => ((w', inr e), t)
      | (w', inl o') =>
          if match a_init a with Some b => b | None => true end
          then (user_init o' w', (t ++ [o'])%list)
          else ((w', inl o'), t)
      end
  end.

(** soil/agents/fsm.py:116-125, after BaseAgent: the state. *)
Definition set_up_state (a : args) (o : obj) (w : cworld) : out :=
  let set cur :=
    if (1 <? List.length states)%nat && match cur with None => true | Some _ => false end then (w, inr CValueError)
    else (w, inl (Obj (o_base o) (o_alive o) (o_inbox o) cur (o_node o))) in
  match a_state a with
  | Some s => if existsb (String.eqb s) states then set (Some s) else (w, inr CValueError)
  | None => set default
  end.
(** soil/agents/network_agents.py:8-22: the node.  KeyError: there is no such node. *)
Definition set_up_node (a : args) (o : obj) (w : cworld) : out :=
  match a_node a with
  | None =>
      let n := pick w in
      (CWorld (dset n (Some self) (cw_nodes w)) (cw_sched w),
       inl (Obj (o_base o) (o_alive o) (o_inbox o) (o_state o) (Some n)))
  | Some n =>
      if dhas n (cw_nodes w)
      then (CWorld (dset n (Some self) (cw_nodes w)) (cw_sched w),
            inl (Obj (o_base o) (o_alive o) (o_inbox o) (o_state o) (Some n)))
      else (w, inr CKeyError)
  end.

(** The constructors, from a class of the order on.
    soil/agents/network_agents.py:5-24 takes [init] and [node_id] and calls the next one with
    [init=False]; soil/agents/fsm.py:114-128 takes [init] and [state_id] and does the same;
    soil/agents/evented.py:9-12 passes all arguments on; soil/agents/__init__.py:117-146 is the last one. *)
Fixpoint construct (m : list part) (a : args) (o : obj) (w : cworld) : res :=
  match m with
  | [] => finish a ((w, inl o), []) (fun o w => (w, inl (Obj true true (o_inbox o) (o_state o) (o_node o))))
  | PNet :: m' => finish a (construct m' (Args (Some false) (a_state a) None) o w) (set_up_node a)
  | PFsm :: m' => finish a (construct m' (Args (Some false) None (a_node a)) o w) (set_up_state a)
  | PEvent :: m' =>
      match construct m' a o w with
      | ((w', inr e), t) => ((w', inr e), t)
      | ((w', inl o'), t) => ((w', inl (Obj (o_base o') (o_alive o') true (o_state o') (o_node o'))), t)
      end
  | PPlain :: m' => construct m' a o w
  end.
(** [agent_class(unique_id=..., model=..., **kwargs)]. *)
Definition new_agent (a : args) (w : cworld) : res := construct mro a blank w.

(** soil/environment.py:152-166 [add_agent]: construction, then [schedule.add]; 287-296 for
    environments with a network, when a node is given.  (NetModel has the second attempt after a
    TypeError.) *)
Definition add_agent (init : option bool) (state : option string) (node : option nat) (w : cworld) : out :=
  match fst (new_agent (Args init state node) w) with
  | (w1, inr e) => (w1, inr e)
  | (w1, inl o) =>
      let w2 := CWorld (cw_nodes w1) (cw_sched w1 ++ [self])%list in
      match node with
      | None => (w2, inl o)
      | Some n =>
          if dhas n (cw_nodes w2)
          then (CWorld (dset n (Some self) (cw_nodes w2)) (cw_sched w2), inl o)
          else (w2, inr CKeyError)
      end
  end.

(** The methods [die]: soil/agents/network_agents.py:90-95 with 69-72, soil/agents/fsm.py:169-171 and
    soil/agents/__init__.py:232-242; [schedule.remove] does nothing for an agent that is not scheduled. *)
Definition base_die (o : obj) (w : cworld) : obj * cworld :=
  (Obj (o_base o) false (o_inbox o) (o_state o) (o_node o),
   CWorld (cw_nodes w) (filter (fun b => negb (Nat.eqb b self)) (cw_sched w))).
Fixpoint die_from (m : list part) (o : obj) (w : cworld) : obj * cworld :=
  match m with
  | [] => base_die o w
  | PNet :: m' =>
      if o_alive o then
        let w1 := match o_node o with
                  | Some n => CWorld (ddel n (cw_nodes w)) (cw_sched w)
                  | None => w
                  end in
        die_from m' (Obj (o_base o) (o_alive o) (o_inbox o) (o_state o) None) w1
      else (o, w)
  | _ :: m' => die_from m' o w
  end.
Definition die (o : obj) (w : cworld) : obj * cworld := die_from mro o w.
End Construct.
