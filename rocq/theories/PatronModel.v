(** Model of examples/pubcrawl/pubcrawl_sim.py: patrons and police, as code for the agents of FsmModel.
    The pubs are those of PubModel. *)
From Coq Require Import ZArith List Bool Arith String.
From Verif Require Import Num PyDict TimedModel AgentModel FsmModel PubModel.
Import ListNotations.
Local Open Scope string_scope.

(** The state functions, and that of [FSM.dead] (soil/agents/fsm.py:173-175). *)
Inductive pfun := PFriends | PPub | PSober | PDrunk | PHome | PPatrol | PDead.

(** examples/pubcrawl/pubcrawl_sim.py:77-79, 92-93, 105-106, 112-113, 121-122 and 167-169: the decorated
    states. *)
Definition looking_for_friends : state pfun := State PFriends "looking_for_friends" true.
Definition looking_for_pub : state pfun := State PPub "looking_for_pub" false.
Definition sober_in_pub : state pfun := State PSober "sober_in_pub" false.
Definition drunk_in_pub : state pfun := State PDrunk "drunk_in_pub" false.
Definition at_home : state pfun := State PHome "at_home" false.
Definition patrol : state pfun := State PPatrol "patrol" true.

(** examples/pubcrawl/pubcrawl_sim.py:62-159 and 162-175: the classes. *)
Definition patron_class : cls (option (state pfun)) :=
  Cls 1 [fsm_class PDead]
    [None; None; None; None; None; None; Some looking_for_friends; Some looking_for_pub; Some sober_in_pub;
     Some drunk_in_pub; Some at_home; None; None; None; None].
Definition police_class : cls (option (state pfun)) := Cls 2 [fsm_class PDead] [None; Some patrol].

(** The rest of the world: the city (the attribute [pub] of an agent is there), the network (the node
    of a patron has its id; an edge is a pair of ids), the attributes [pints], [drunk] and [kicked_out]
    and the draws of the random generator to come.  The attribute [max_pints] is a parameter. *)
Record prest := PRest {
  pr_city : city;
  pr_edges : list (aid * aid);
  pr_pints : aid -> Z;
  pr_drunk : aid -> bool;
  pr_kicked : aid -> bool;
  pr_draws : nat -> num }.
Notation pworld := (fworld pfun prest).

Definition set_city (r : prest) (c : city) : prest :=
  PRest c (pr_edges r) (pr_pints r) (pr_drunk r) (pr_kicked r) (pr_draws r).
Definition set_edges (r : prest) (l : list (aid * aid)) : prest :=
  PRest (pr_city r) l (pr_pints r) (pr_drunk r) (pr_kicked r) (pr_draws r).
Definition set_pints (r : prest) (a : aid) (n : Z) : prest :=
  PRest (pr_city r) (pr_edges r) (fun b => if Nat.eqb b a then n else pr_pints r b) (pr_drunk r) (pr_kicked r)
    (pr_draws r).
Definition set_drunk (r : prest) (a : aid) : prest :=
  PRest (pr_city r) (pr_edges r) (pr_pints r) (fun b => if Nat.eqb b a then true else pr_drunk r b) (pr_kicked r)
    (pr_draws r).
Definition set_draws (r : prest) (d : nat -> num) : prest :=
  PRest (pr_city r) (pr_edges r) (pr_pints r) (pr_drunk r) (pr_kicked r) d.

(** examples/pubcrawl/pubcrawl_sim.py:131-132 [kick_out]. *)
Definition kick_out (r : prest) (a : aid) : prest :=
  PRest (pr_city r) (pr_edges r) (pr_pints r) (pr_drunk r) (fun b => if Nat.eqb b a then true else pr_kicked r b)
    (pr_draws r).

(** [random.random()]. *)
Definition draw (r : prest) : num * prest := (pr_draws r 0, set_draws r (fun n => pr_draws r (S n))).

(** [getattr(agent, "pub", None) == None]. *)
Definition no_pub (r : prest) (a : aid) : bool :=
  match c_pub (pr_city r) a with Some (Some _) => false | _ => true end.
(** soil/agents/fsm.py:133-135 [state_id]. *)
Definition state_is (ag : aid -> fagent pfun) (name : string) (a : aid) : bool :=
  match fa_cur (ag a) with Some st => String.eqb (st_name st) name | None => false end.

Section Patrons.
(** [openness] and [max_pints] of the patrons. *)
Variable openness : aid -> num.
Variable max_pints : aid -> Z.
(** [int(10 * openness)], and [random.shuffle] of a list, with the draws after it. *)
Variable tenfold : num -> nat.
Variable mix : (nat -> num) -> list aid -> (nat -> num) * list aid.

(** soil/agents/network_agents.py:74-88 [add_edge], called with the arguments [(other,
    edge_attr_dict)] of line 140: the agent itself, and the other agent as the attributes of the edge.  Nobody
    leaves the network, so that there is no ValueError. *)
Definition add_edge (self other : aid) (edge_attr_dict : aid) (r : prest) : prest :=
  set_edges r ((self, other) :: pr_edges r).
(** examples/pubcrawl/pubcrawl_sim.py:134-143 [befriend]. *)
Definition befriend (self other_agent : aid) (force : bool) (r : prest) : prest * bool :=
  if force then (add_edge self self other_agent r, true)
  else
    let '(x, r1) := draw r in
    if n_ltb x (openness self) then (add_edge self self other_agent r1, true) else (r1, false).
(** examples/pubcrawl/pubcrawl_sim.py:150-159: the loop of [try_friends].  (Agents are equal if they
    are the same.) *)
Fixpoint each_friend (self : aid) (l : list aid) (befriended : bool) (r : prest) : prest * bool :=
  match l with
  | [] => (r, befriended)
  | friend :: l' =>
      if Nat.eqb friend self then each_friend self l' befriended r
      else
        let '(r1, yes) := befriend friend self false r in
        if yes then each_friend self l' true (fst (befriend self friend true r1))
        else each_friend self l' befriended r1
  end.
(** examples/pubcrawl/pubcrawl_sim.py:145-159 [try_friends]. *)
Definition try_friends (self : aid) (others : list aid) (r : prest) : prest * bool :=
  let k := tenfold (openness self) in
  let '(d, l) := mix (pr_draws r) others in
  each_friend self (firstn k l) false (set_draws r d).

(** examples/pubcrawl/pubcrawl_sim.py:77-90.  The agents of lines 81-83 are those of the scheduler in
    that state and with no pub: soil/agents/__init__.py:478-484 applies the last of the conditions,
    [pub=None], twice, and [drunk=False] never. *)
Definition friends_fn (s : sched) (ag : aid -> fagent pfun) (a : aid) (r : prest) : prest * gout pfun (pyval pfun) :=
  let available := filter (no_pub r) (filter (no_pub r) (filter (state_is ag "looking_for_friends") (s_reg s))) in
  match available with
  | [] => (r, GReturn (PState at_home))
  | _ =>
      let '(r1, befriended) := try_friends a available r in
      (r1, GReturn (if befriended then PState looking_for_pub else PNone))
  end.

(** soil/agents/network_agents.py:29-33 and 39-60 [get_neighbors]: the agents of the scheduler at nodes
    that share an edge with the node of the agent; its own, if there is a loop. *)
Definition linked (r : prest) (a b : aid) : bool :=
  existsb (fun e => Nat.eqb (fst e) a && Nat.eqb (snd e) b || Nat.eqb (fst e) b && Nat.eqb (snd e) a) (pr_edges r).
Definition get_neighbors (s : sched) (r : prest) (a : aid) : list aid := filter (linked r a) (s_reg s).

(** examples/pubcrawl/pubcrawl_sim.py:92-103, as in PubModel. *)
Definition pub_fn (s : sched) (a : aid) (r : prest) : prest * gout pfun (pyval pfun) :=
  match PubModel.looking_for_pub a (get_neighbors s r a) (pr_city r) with
  | (c, Some true) => (set_city r c, GReturn (PState sober_in_pub))
  | (c, Some false) => (set_city r c, GReturn PNone)
  | (c, None) => (set_city r c, GRaise false)
  end.
(** examples/pubcrawl/pubcrawl_sim.py:105-110 and 127-129. *)
Definition sober_fn (a : aid) (r : prest) : prest * gout pfun (pyval pfun) :=
  let r1 := set_pints r a (pr_pints r a + 1)%Z in
  (r1, GReturn (if (max_pints a <? pr_pints r1 a)%Z then PState drunk_in_pub else PNone)).
(** examples/pubcrawl/pubcrawl_sim.py:112-119. *)
Definition drunk_fn (a : aid) (r : prest) : prest * gout pfun (pyval pfun) :=
  let r1 := set_drunk r a in
  (r1, GReturn (if pr_kicked r1 a then PState at_home else PNone)).
(** examples/pubcrawl/pubcrawl_sim.py:167-175.  The police have no attribute [drunk]. *)
Definition patrol_fn (s : sched) (ag : aid -> fagent pfun) (r : prest) : prest * gout pfun (pyval pfun) :=
  let drunksters := filter (pr_drunk r) (filter (state_is ag "drunk_in_pub") (s_reg s)) in
  (fold_left kick_out drunksters r, GReturn PNone).

(** All of it.  Logging is left out; lines 121-125 do nothing else. *)
Definition patron_code : code pfun pfun prest :=
  Code (fun f => f)
    (fun s a f w =>
       let r := fw_rest w in let ag := fw_agents w in
       let '(r1, g) := match f with
                       | PFriends => friends_fn s ag a r
                       | PPub => pub_fn s a r
                       | PSober => sober_fn a r
                       | PDrunk => drunk_fn a r
                       | PHome => (r, GReturn PNone)
                       | PPatrol => patrol_fn s ag r
                       | PDead => (r, GReturn (PNum PInf))
                       end in
       (r1, [], g)).
(** The agents and the scheduler.  No state function returns a string. *)
Definition patron_user (shuffle : list aid -> prest -> prest * list aid) : user (pworld * cors (frame pfun)) :=
  agent_user patron_code (fun _ => None) shuffle.

(** Creation of an agent: soil/agents/fsm.py:114-122, with no state given. *)
Definition new_agent (k : cls (option (state pfun))) : fagent pfun :=
  FAgent (KFsm (fst (meta k))) true (match fsm_init k PNone with Some cur => cur | None => None end).
(** examples/pubcrawl/pubcrawl_sim.py:16-29 [init]: agent 0 is of the police, all others are patrons, one for
    each node of the network that the model was given. *)
Definition crawl_world (number_of_pubs : nat) (capacity : Z) (edges : list (aid * aid)) (draws : nat -> num) : pworld :=
  FWorld (fun a => new_agent (match a with 0 => police_class | _ => patron_class end))
    (PRest (new_city number_of_pubs capacity) edges (fun _ => 0%Z) (fun _ => false) (fun _ => false) draws).
(** The model with so many patrons, after so many steps. *)
Definition crawl_run {AR : Arith} (shuffle : list aid -> prest -> prest * list aid) (ordered : bool) (di : num)
    (number_of_pubs : nat) (capacity : Z) (edges : list (aid * aid)) (draws : nat -> num) (patrons steps : nat)
  : sched * (pworld * cors (frame pfun)) * list ev :=
  run_hist (patron_user shuffle) (map (fun a => CAdd a None) (seq 0 (S patrons)) ++ repeat CStep steps)%list
    (timed_init (negb ordered) di) (crawl_world number_of_pubs capacity edges draws, no_cors).
End Patrons.
