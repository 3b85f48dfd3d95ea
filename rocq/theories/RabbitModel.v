(** Model of examples/rabbits/rabbits_basic_sim.py: the rabbits, their network and the accidents, as
    code for the agents of FsmModel. *)
From Coq Require Import ZArith List Bool Arith String.
From Verif Require Import Num PyDict TimedModel AgentModel FsmModel.
Import ListNotations.
Local Open Scope string_scope.

(** The state functions, the function of [FSM.dead] (soil/agents/fsm.py:173-175), which [Rabbit]
    overrides, and the step of [RandomAccident]. *)
Inductive rfun :=
| RNewborn | RYoungling | RFertile | RFertileMale | RFertileFemale | RPregnant | RDead | RFsmDead | RAccident.

(** examples/rabbits/rabbits_basic_sim.py:37-58, 65-66, 86-87 and 101-102: the decorated states. *)
Definition newborn : state rfun := State RNewborn "newborn" true.
Definition youngling : state rfun := State RYoungling "youngling" false.
Definition fertile : state rfun := State RFertile "fertile" false.
Definition fertile_male : state rfun := State RFertileMale "fertile" false.
Definition fertile_female : state rfun := State RFertileFemale "fertile" false.
Definition pregnant : state rfun := State RPregnant "pregnant" false.
Definition dead : state rfun := State RDead "dead" false.

(** examples/rabbits/rabbits_basic_sim.py:32-58, 61-79 and 82-133: the classes. *)
Definition rabbit_class : cls (option (state rfun)) :=
  Cls 1 [fsm_class RFsmDead] [None; None; Some newborn; Some youngling; Some fertile; Some dead].
Definition male_class : cls (option (state rfun)) :=
  Cls 2 [rabbit_class] [None; None; Some fertile_male].
Definition female_class : cls (option (state rfun)) :=
  Cls 3 [rabbit_class] [None; None; Some fertile_female; None; Some pregnant; None].

(** The class of an agent. *)
Inductive role := Male | Female | Accident.
Definition is_rabbit (k : role) : bool := match k with Accident => false | _ => true end.
Definition is_female (k : role) : bool := match k with Female => true | _ => false end.
Definition own_fertile (k : role) : state rfun :=
  match k with Male => fertile_male | Female => fertile_female | Accident => fertile end.

(** What the class of the model and the classes of the rabbits set: [sexual_maturity],
    [life_expectancy], [max_females], [mating_prob], [gestation] and [prob_death]
    (examples/rabbits/rabbits_basic_sim.py:8, 34-35, 62-63, 83). *)
Record rparams := RParams {
  p_maturity : nat; p_life : nat; p_females : nat; p_mating : num; p_gestation : nat; p_death : num }.

(** The rest of the world: the id of the next agent, the network (the node of a rabbit has its id),
    the attributes [age], [offspring], [pregnancy], [mate] and [number_of_babies] of the rabbits, and
    the draws of the random generator to come (any numbers at all: draws that only choose a node, a
    class or an order are not taken from here). *)
Record rrest := RRest {
  rr_next : nat;
  rr_nodes : list aid;
  rr_edges : list (aid * aid);
  rr_age : aid -> nat;
  rr_offspring : aid -> nat;
  rr_pregnancy : aid -> Z;
  rr_mate : aid -> option aid;
  rr_litter : aid -> nat;
  rr_draws : nat -> num }.

Definition set_at {X} (f : aid -> X) (a : aid) (x : X) : aid -> X :=
  fun b => if Nat.eqb b a then x else f b.
Definition set_age (r : rrest) (a : aid) (n : nat) : rrest :=
  RRest (rr_next r) (rr_nodes r) (rr_edges r) (set_at (rr_age r) a n) (rr_offspring r)
    (rr_pregnancy r) (rr_mate r) (rr_litter r) (rr_draws r).
Definition set_offspring (r : rrest) (a : aid) (n : nat) : rrest :=
  RRest (rr_next r) (rr_nodes r) (rr_edges r) (rr_age r) (set_at (rr_offspring r) a n)
    (rr_pregnancy r) (rr_mate r) (rr_litter r) (rr_draws r).
Definition set_pregnancy (r : rrest) (a : aid) (n : Z) : rrest :=
  RRest (rr_next r) (rr_nodes r) (rr_edges r) (rr_age r) (rr_offspring r)
    (set_at (rr_pregnancy r) a n) (rr_mate r) (rr_litter r) (rr_draws r).
Definition set_mate (r : rrest) (a : aid) (m : option aid) : rrest :=
  RRest (rr_next r) (rr_nodes r) (rr_edges r) (rr_age r) (rr_offspring r)
    (rr_pregnancy r) (set_at (rr_mate r) a m) (rr_litter r) (rr_draws r).
Definition set_litter (r : rrest) (a : aid) (n : nat) : rrest :=
  RRest (rr_next r) (rr_nodes r) (rr_edges r) (rr_age r) (rr_offspring r)
    (rr_pregnancy r) (rr_mate r) (set_at (rr_litter r) a n) (rr_draws r).
(** [random.random()]. *)
Definition draw (r : rrest) : num * rrest :=
  (rr_draws r 0,
   RRest (rr_next r) (rr_nodes r) (rr_edges r) (rr_age r) (rr_offspring r)
     (rr_pregnancy r) (rr_mate r) (rr_litter r) (fun n => rr_draws r (S n))).

Definition has_node (r : rrest) (a : aid) : bool := existsb (Nat.eqb a) (rr_nodes r).
(** soil/environment.py:335-358 [add_node]: the agent gets the next id and a node of its own (all
    nodes have agents, so that none of them is chosen). *)
Definition new_node (r : rrest) : aid * rrest :=
  (rr_next r,
   RRest (S (rr_next r)) (rr_nodes r ++ [rr_next r]) (rr_edges r) (rr_age r) (rr_offspring r)
     (rr_pregnancy r) (rr_mate r) (rr_litter r) (rr_draws r)).
(** soil/agents/network_agents.py:74-88 [add_edge]; None is the ValueError. *)
Definition add_edge (r : rrest) (a b : aid) : option rrest :=
  if has_node r a && has_node r b then
    Some (RRest (rr_next r) (rr_nodes r) (rr_edges r ++ [(a, b)]) (rr_age r) (rr_offspring r)
            (rr_pregnancy r) (rr_mate r) (rr_litter r) (rr_draws r))
  else None.
(** soil/agents/network_agents.py:69-72 [remove_node]: the edges go, too. *)
Definition remove_node (r : rrest) (a : aid) : rrest :=
  RRest (rr_next r) (filter (fun b => negb (Nat.eqb a b)) (rr_nodes r))
    (filter (fun e => negb (Nat.eqb a (fst e)) && negb (Nat.eqb a (snd e))) (rr_edges r))
    (rr_age r) (rr_offspring r) (rr_pregnancy r) (rr_mate r) (rr_litter r) (rr_draws r).
(** soil/agents/network_agents.py:90-95 [die] (examples/rabbits/rabbits_basic_sim.py:130-133 only logs
    before it): a dead agent does not die again.  The value of [die] is [self.dead.at(INFINITY)]
    (soil/agents/fsm.py:169-171), a state and a delay. *)
Definition net_die (ag : aid -> fagent rfun) (a : aid) (r : rrest) : rrest * list (fop rfun) :=
  if fa_alive (ag a) then (remove_node r a, [FDie a]) else (r, []).

(** [math.floor(math.log10(max(1, n)))]. *)
Fixpoint magnitude (fuel n : nat) : nat :=
  match fuel with
  | 0 => 0
  | S f => if (n <? 10)%nat then 0 else S (magnitude f (n / 10))
  end.

Section Rabbits.
(** The classes of the agents, by id: [random.choice] gives any class to the newborn. *)
Variable who : aid -> role.
Variable p : rparams.
(** [int(8 + 4 * x)] and [x * n]. *)
Variable litter_of : num -> nat.
Variable times : num -> nat -> num.

Notation rworld := (fworld rfun rrest).

(** examples/rabbits/rabbits_basic_sim.py:73-75: the females that a male meets. *)
Definition candidates (s : sched) (ag : aid -> fagent rfun) : list aid :=
  firstn (p_females p)
    (filter (fun b => is_female (who b) &&
               match fa_cur (ag b) with Some st => String.eqb (st_name st) "fertile" | None => false end)
       (s_reg s)).
(** examples/rabbits/rabbits_basic_sim.py:95-99. *)
Definition impregnate (male f : aid) (r : rrest) : rrest :=
  let '(x, r1) := draw (set_pregnancy (set_mate r f (Some male)) f 0) in set_litter r1 f (litter_of x).
(** examples/rabbits/rabbits_basic_sim.py:73-79: the loop. *)
Fixpoint court (male : aid) (l : list aid) (r : rrest) : rrest :=
  match l with
  | [] => r
  | f :: l' =>
      let '(x, r1) := draw r in
      if prob x (p_mating p) then impregnate male f r1 else court male l' r1
  end.
(** examples/rabbits/rabbits_basic_sim.py:65-79. *)
Definition fertile_male_fn (s : sched) (ag : aid -> fagent rfun) (a : aid) (r : rrest)
  : rrest * list (fop rfun) * gout rfun (pyval rfun) :=
  let r1 := set_age r a (S (rr_age r a)) in
  if (p_life p <? rr_age r1 a)%nat then (r1, [], GReturn (PState dead))
  else (court a (candidates s ag) r1, [], GReturn PNone).
(** examples/rabbits/rabbits_basic_sim.py:86-93. *)
Definition fertile_female_fn (a : aid) (r : rrest) : rrest * list (fop rfun) * gout rfun (pyval rfun) :=
  let r1 := set_age r a (S (rr_age r a)) in
  if (p_life p <? rr_age r1 a)%nat then (r1, [], GReturn (PState dead))
  else if (0 <=? rr_pregnancy r1 a)%Z then (r1, [], GReturn (PState pregnant))
  else (r1, [], GReturn PNone).
(** examples/rabbits/rabbits_basic_sim.py:114-125: the loop.  False: an exception.  Line 120 raises
    AttributeError if there is no mate, and ValueError, which is caught, if the mate has no node.
    Otherwise line 121 raises: models have no attribute [agents] or, with later versions of mesa, it
    is a set of agents that takes no agent as an index (AttributeError or TypeError, not caught). *)
Fixpoint births (n : nat) (a : aid) (r : rrest) : rrest * list (fop rfun) * bool :=
  match n with
  | 0 => (r, [], true)
  | S n' =>
      let '(child, r1) := new_node r in
      let born := FSched (SAdd child None) in
      match add_edge r1 child a with
      | None => (r1, [born], false)
      | Some r2 =>
          match rr_mate r2 a with
          | None => (r2, [born], false)
          | Some m =>
              match add_edge r2 child m with
              | Some r3 => (r3, [born], false)
              | None =>
                  let '(r4, ops, fine) := births n' a (set_offspring r2 a (S (rr_offspring r2 a))) in
                  (r4, born :: ops, fine)
              end
          end
      end
  end.
(** examples/rabbits/rabbits_basic_sim.py:101-128. *)
Definition pregnant_fn (ag : aid -> fagent rfun) (a : aid) (r : rrest)
  : rrest * list (fop rfun) * gout rfun (pyval rfun) :=
  let r1 := set_age r a (S (rr_age r a)) in
  if (p_life p <=? rr_age r1 a)%nat then
    let '(r2, ops) := net_die ag a r1 in (r2, ops, GReturn (PTuple [PState dead; PNum PInf]))
  else if (rr_pregnancy r1 a <? Z.of_nat (p_gestation p))%Z then
    (set_pregnancy r1 a (rr_pregnancy r1 a + 1), [], GReturn PNone)
  else
    let '(r2, ops, fine) := births (rr_litter r1 a) a r1 in
    if fine then (set_pregnancy (set_mate r2 a None) a (-1), ops, GReturn (PState fertile_female))
    else (r2, ops, GRaise false).
(** examples/rabbits/rabbits_basic_sim.py:147-153: the loop over the rabbits. *)
Fixpoint accidents (risk : num) (ag : aid -> fagent rfun) (l : list aid) (r : rrest)
  : rrest * list (fop rfun) :=
  match l with
  | [] => (r, [])
  | b :: l' =>
      if match fa_cur (ag b) with Some st => String.eqb (st_name st) "dead" | None => false end
      then accidents risk ag l' r
      else
        let '(x, r1) := draw r in
        if prob x risk then
          let '(r2, ops) := net_die ag b r1 in
          let '(r3, ops') := accidents risk ag l' r2 in (r3, (ops ++ ops')%list)
        else accidents risk ag l' r1
  end.
(** examples/rabbits/rabbits_basic_sim.py:136-154. *)
Definition accident_fn (s : sched) (ag : aid -> fagent rfun) (a : aid) (r : rrest)
  : rrest * list (fop rfun) * gout rfun (pyval rfun) :=
  let n := List.length (rr_nodes r) in
  if Nat.eqb n 0 then (r, [FDie a], GReturn (PNum PInf))
  else
    let '(r1, ops) := accidents (times (p_death p) (magnitude n n)) ag
                        (filter (fun b => is_rabbit (who b)) (s_reg s)) r in
    (r1, ops, GReturn PNone).

(** All of it; examples/rabbits/rabbits_basic_sim.py:39-43, 46-50, 53-54 and 57-58 for the first
    states and [dead].  Logging is left out. *)
Definition rabbit_code : code rfun rfun rrest :=
  Code (fun f => f)
    (fun s a f w =>
       let r := fw_rest w in let ag := fw_agents w in
       match f with
       | RNewborn => (set_offspring (set_age r a 0) a 0, [], GReturn (PState youngling))
       | RYoungling =>
           let r1 := set_age r a (S (rr_age r a)) in
           (r1, [], if (p_maturity p <=? rr_age r1 a)%nat then GReturn (PState (own_fertile (who a))) else GReturn PNone)
       | RFertile => (r, [], GRaise false)
       | RFertileMale => fertile_male_fn s ag a r
       | RFertileFemale => fertile_female_fn a r
       | RPregnant => pregnant_fn ag a r
       | RDead => let '(r1, ops) := net_die ag a r in (r1, ops, GReturn PNone)
       | RFsmDead => (r, [FDie a], GReturn (PNum PInf))
       | RAccident => accident_fn s ag a r
       end).

(** The agents and the scheduler.  No function returns a text. *)
Definition rabbit_user (shuffle : list aid -> rrest -> rrest * list aid)
  : user (rworld * cors (frame rfun)) := agent_user rabbit_code (fun _ => None) shuffle.

(** A new agent of a class: soil/agents/fsm.py:114-122, with no state given. *)
Definition new_agent (k : role) : fagent rfun :=
  let start c := FAgent (KFsm (fst (meta c))) true
                   (match fsm_init c PNone with Some cur => cur | None => None end) in
  match k with
  | Male => start male_class
  | Female => start female_class
  | Accident => FAgent (KPlain RAccident) true None
  end.
(** examples/rabbits/rabbits_basic_sim.py:10-14 [init]: the agents 0, 1 and 2 are a male, a female and
    the accidents.  The agents that are still to be created are there, too, but they are not in the
    network nor in the schedule.  [pregnancy] is -1 by default (84); [age] and [offspring] have no
    value before the first step of a rabbit. *)
Definition rabbit_world (draws : nat -> num) : rworld :=
  FWorld (fun a => new_agent (who a))
    (RRest 3 [0; 1] [(0, 1)] (fun _ => 0) (fun _ => 0) (fun _ => (-1)%Z) (fun _ => None) (fun _ => 0) draws).
(** The history of a model: its creation, and some steps. *)
Definition rabbit_run {AR : Arith} (shuffle : list aid -> rrest -> rrest * list aid) (ordered : bool) (di : num)
    (draws : nat -> num) (steps : nat) : sched * (rworld * cors (frame rfun)) * list ev :=
  run_hist (rabbit_user shuffle) (map (fun a => CAdd a None) [0; 1; 2] ++ repeat CStep steps)%list
    (timed_init (negb ordered) di) (rabbit_world draws, no_cors).
End Rabbits.
