(** Model of examples/rabbits/rabbit_improved_sim.py: rabbits that know when they were born and when
    they conceived, as code for the agents of FsmModel; and of the reports of both examples. *)
From Coq Require Import ZArith List Bool Arith String.
From Verif Require Import Num PyDict TimedModel AgentModel FsmModel RabbitModel.
Import ListNotations.
Local Open Scope string_scope.

(** examples/rabbits/rabbit_improved_sim.py:19-51, 54-70 and 73-125: the classes.  The states have the
    names of those of the basic example, so that those of RabbitModel are used; their functions are
    the ones below. *)
Definition rabbit2_class : cls (option (state rfun)) :=
  Cls 11 [fsm_class RFsmDead] [None; None; None; None; Some newborn; Some youngling; Some fertile; Some dead].
Definition male2_class : cls (option (state rfun)) :=
  Cls 12 [rabbit2_class] [None; None; Some fertile_male].
Definition female2_class : cls (option (state rfun)) :=
  Cls 13 [rabbit2_class] [None; None; Some fertile_female; None; None; Some pregnant; None].

(** [sexual_maturity], [life_expectancy], [max_females], [mating_prob], [gestation] and [prob_death]
    (examples/rabbits/rabbit_improved_sim.py:21-22, 55-56, 74 and 135). *)
Record iparams := IParams {
  ip_maturity : num; ip_life : num; ip_females : nat; ip_mating : num; ip_gestation : num; ip_death : num }.

(** The rest of the world, as in RabbitModel, with the attributes [birth] and [conception].
    Simplification: a female without the attribute [mate] is one whose mate is None (no female without
    it gets to line 112, for it is set with [conception]). *)
Record irest := IRest {
  ir_next : nat;
  ir_nodes : list aid;
  ir_edges : list (aid * aid);
  ir_birth : aid -> option num;
  ir_offspring : aid -> nat;
  ir_conception : aid -> option num;
  ir_mate : aid -> option aid;
  ir_litter : aid -> nat;
  ir_draws : nat -> num }.

Definition iset_birth (r : irest) (a : aid) (t : option num) : irest :=
  IRest (ir_next r) (ir_nodes r) (ir_edges r) (set_at (ir_birth r) a t) (ir_offspring r)
    (ir_conception r) (ir_mate r) (ir_litter r) (ir_draws r).
Definition iset_offspring (r : irest) (a : aid) (n : nat) : irest :=
  IRest (ir_next r) (ir_nodes r) (ir_edges r) (ir_birth r) (set_at (ir_offspring r) a n)
    (ir_conception r) (ir_mate r) (ir_litter r) (ir_draws r).
Definition iset_conception (r : irest) (a : aid) (t : option num) : irest :=
  IRest (ir_next r) (ir_nodes r) (ir_edges r) (ir_birth r) (ir_offspring r)
    (set_at (ir_conception r) a t) (ir_mate r) (ir_litter r) (ir_draws r).
Definition iset_mate (r : irest) (a : aid) (m : option aid) : irest :=
  IRest (ir_next r) (ir_nodes r) (ir_edges r) (ir_birth r) (ir_offspring r)
    (ir_conception r) (set_at (ir_mate r) a m) (ir_litter r) (ir_draws r).
Definition iset_litter (r : irest) (a : aid) (n : nat) : irest :=
  IRest (ir_next r) (ir_nodes r) (ir_edges r) (ir_birth r) (ir_offspring r)
    (ir_conception r) (ir_mate r) (set_at (ir_litter r) a n) (ir_draws r).
(** [random.random()]. *)
Definition idraw (r : irest) : num * irest :=
  (ir_draws r 0,
   IRest (ir_next r) (ir_nodes r) (ir_edges r) (ir_birth r) (ir_offspring r)
     (ir_conception r) (ir_mate r) (ir_litter r) (fun n => ir_draws r (S n))).

Definition ihas_node (r : irest) (a : aid) : bool := existsb (Nat.eqb a) (ir_nodes r).
(** soil/environment.py:335-358 [add_node], as in RabbitModel. *)
Definition inew_node (r : irest) : aid * irest :=
  (ir_next r,
   IRest (S (ir_next r)) (ir_nodes r ++ [ir_next r]) (ir_edges r) (ir_birth r) (ir_offspring r)
     (ir_conception r) (ir_mate r) (ir_litter r) (ir_draws r)).
(** soil/agents/network_agents.py:74-88 [add_edge]; None is the ValueError. *)
Definition iadd_edge (r : irest) (a b : aid) : option irest :=
  if ihas_node r a && ihas_node r b then
    Some (IRest (ir_next r) (ir_nodes r) (ir_edges r ++ [(a, b)]) (ir_birth r) (ir_offspring r)
            (ir_conception r) (ir_mate r) (ir_litter r) (ir_draws r))
  else None.
(** soil/agents/network_agents.py:69-72 [remove_node]: the edges go, too. *)
Definition iremove_node (r : irest) (a : aid) : irest :=
  IRest (ir_next r) (filter (fun b => negb (Nat.eqb a b)) (ir_nodes r))
    (filter (fun e => negb (Nat.eqb a (fst e)) && negb (Nat.eqb a (snd e))) (ir_edges r))
    (ir_birth r) (ir_offspring r) (ir_conception r) (ir_mate r) (ir_litter r) (ir_draws r).
(** soil/agents/network_agents.py:90-95 [die] (examples/rabbits/rabbit_improved_sim.py:122-125 only
    logs before it): a dead agent does not die again. *)
Definition inet_die (ag : aid -> fagent rfun) (a : aid) (r : irest) : irest * list (fop rfun) :=
  if fa_alive (ag a) then (iremove_node r a, [FDie a]) else (r, []).

Section Rabbits.
Context {AR : Arith}.
(** The classes of the agents, by id: [random.choice] gives any class to the newborn. *)
Variable who : aid -> role.
Variable p : iparams.
(** [int(8 + 4 * x)] and [x * n]. *)
Variable litter_of : num -> nat.
Variable times : num -> nat -> num.

Notation iworld := (fworld rfun irest).
Notation result := (irest * list (fop rfun) * gout rfun (pyval rfun))%type.

(** [x - y]. *)
Definition minus (x y : num) : num := n_add x (n_opp y).
(** examples/rabbits/rabbit_improved_sim.py:25-29 [age]. *)
Definition age (s : sched) (r : irest) (a : aid) : option num :=
  match ir_birth r a with None => None | Some t => Some (minus (s_time s) t) end.
(** examples/rabbits/rabbit_improved_sim.py:85-89 [pregnancy]. *)
Definition pregnancy (s : sched) (r : irest) (a : aid) : option num :=
  match ir_conception r a with None => None | Some t => Some (minus (s_time s) t) end.

(** examples/rabbits/rabbit_improved_sim.py:33-37. *)
Definition newborn2_fn (s : sched) (a : aid) (r : irest) : result :=
  let r1 := iset_offspring (iset_birth r a (Some (s_time s))) a 0 in
  match age s r1 a with
  | None => (r1, [], GRaise false)
  | Some g => (r1, [], GReturn (PTuple [PState youngling; PNum (minus (ip_maturity p) g)]))
  end.
(** examples/rabbits/rabbit_improved_sim.py:40-43.  Comparing None with a number raises TypeError. *)
Definition youngling2_fn (s : sched) (a : aid) (r : irest) : result :=
  match age s r a with
  | None => (r, [], GRaise false)
  | Some g => (r, [], if n_leb (ip_maturity p) g then GReturn (PState (own_fertile (who a))) else GReturn PNone)
  end.
(** examples/rabbits/rabbit_improved_sim.py:64-66: the females that a male meets. *)
Definition candidates2 (s : sched) (ag : aid -> fagent rfun) : list aid :=
  firstn (ip_females p)
    (filter (fun b => is_female (who b) &&
               match fa_cur (ag b) with Some st => String.eqb (st_name st) "fertile" | None => false end)
       (s_reg s)).
(** examples/rabbits/rabbit_improved_sim.py:91-95. *)
Definition impregnate2 (s : sched) (male f : aid) (r : irest) : irest :=
  let '(x, r1) := idraw (iset_conception (iset_mate r f (Some male)) f (Some (s_time s))) in
  iset_litter r1 f (litter_of x).
(** examples/rabbits/rabbit_improved_sim.py:64-70: the loop. *)
Fixpoint court2 (s : sched) (male : aid) (l : list aid) (r : irest) : irest :=
  match l with
  | [] => r
  | f :: l' =>
      let '(x, r1) := idraw r in
      if prob x (ip_mating p) then impregnate2 s male f r1 else court2 s male l' r1
  end.
(** examples/rabbits/rabbit_improved_sim.py:59-70. *)
Definition fertile_male2_fn (s : sched) (ag : aid -> fagent rfun) (a : aid) (r : irest) : result :=
  match age s r a with
  | None => (r, [], GRaise false)
  | Some g =>
      if n_ltb (ip_life p) g then (r, [], GReturn (PState dead))
      else (court2 s a (candidates2 s ag) r, [], GReturn PNone)
  end.
(** examples/rabbits/rabbit_improved_sim.py:78-83. *)
Definition fertile_female2_fn (s : sched) (a : aid) (r : irest) : result :=
  match age s r a with
  | None => (r, [], GRaise false)
  | Some g =>
      if n_ltb (ip_life p) g then (r, [], GReturn (PState dead))
      else match ir_conception r a with
           | Some _ => (r, [], GReturn (PState pregnant))
           | None => (r, [], GReturn PNone)
           end
  end.
(** examples/rabbits/rabbit_improved_sim.py:107-118: the loop.  False: an exception, that of [add_edge]
    for a rabbit without a node, which is not caught here. *)
Fixpoint births2 (n : nat) (a : aid) (r : irest) : irest * list (fop rfun) * bool :=
  match n with
  | 0 => (r, [], true)
  | S n' =>
      let '(child, r1) := inew_node r in
      let born := FSched (SAdd child None) in
      let go r2 :=
        let '(r4, ops, fine) := births2 n' a (iset_offspring r2 a (S (ir_offspring r2 a))) in
        (r4, born :: ops, fine) in
      match iadd_edge r1 child a with
      | None => (r1, [born], false)
      | Some r2 =>
          match ir_mate r2 a with
          | None => go r2
          | Some m =>
              match iadd_edge r2 child m with
              | None => (r2, [born], false)
              | Some r3 => go (iset_offspring r3 m (S (ir_offspring r3 m)))
              end
          end
      end
  end.
(** examples/rabbits/rabbit_improved_sim.py:98-120; the value of [die] is [self.dead.at(INFINITY)]
    (soil/agents/fsm.py:169-171 and soil/agents/__init__.py:296-297). *)
Definition pregnant2_fn (s : sched) (ag : aid -> fagent rfun) (a : aid) (r : irest) : result :=
  match age s r a with
  | None => (r, [], GRaise false)
  | Some g =>
      if n_ltb (ip_life p) g then
        let '(r1, ops) := inet_die ag a r in
        (r1, ops, GReturn (PTuple [PState dead; PNum (minus PInf (s_time s))]))
      else
        match pregnancy s r a with
        | None => (r, [], GRaise false)
        | Some t =>
            if n_leb (ip_gestation p) t then
              let '(r1, ops, fine) := births2 (ir_litter r a) a r in
              if fine then (iset_mate r1 a None, ops, GReturn (PState fertile_female))
              else (r1, ops, GRaise false)
            else (r, [], GReturn PNone)
        end
  end.
(** examples/rabbits/rabbit_improved_sim.py:139-145: the loop over the rabbits. *)
Fixpoint accidents2 (risk : num) (ag : aid -> fagent rfun) (l : list aid) (r : irest)
  : irest * list (fop rfun) :=
  match l with
  | [] => (r, [])
  | b :: l' =>
      if match fa_cur (ag b) with Some st => String.eqb (st_name st) "dead" | None => false end
      then accidents2 risk ag l' r
      else
        let '(x, r1) := idraw r in
        if prob x risk then
          let '(r2, ops) := inet_die ag b r1 in
          let '(r3, ops') := accidents2 risk ag l' r2 in (r3, (ops ++ ops')%list)
        else accidents2 risk ag l' r1
  end.
(** examples/rabbits/rabbit_improved_sim.py:129-146. *)
Definition accident2_fn (s : sched) (ag : aid -> fagent rfun) (a : aid) (r : irest) : result :=
  let n := List.length (ir_nodes r) in
  if Nat.eqb n 0 then (r, [FDie a], GReturn (PNum PInf))
  else
    let '(r1, ops) := accidents2 (times (ip_death p) (magnitude n n)) ag
                        (filter (fun b => is_rabbit (who b)) (s_reg s)) r in
    (r1, ops, GReturn PNone).

(** All of it; examples/rabbits/rabbit_improved_sim.py:46-47 and 50-51 for [fertile] and [dead] of
    [Rabbit].  Logging is left out. *)
Definition rabbit2_code : code rfun rfun irest :=
  Code (fun f => f)
    (fun s a f w =>
       let r := fw_rest w in let ag := fw_agents w in
       match f with
       | RNewborn => newborn2_fn s a r
       | RYoungling => youngling2_fn s a r
       | RFertile => (r, [], GRaise false)
       | RFertileMale => fertile_male2_fn s ag a r
       | RFertileFemale => fertile_female2_fn s a r
       | RPregnant => pregnant2_fn s ag a r
       | RDead => let '(r1, ops) := inet_die ag a r in (r1, ops, GReturn PNone)
       | RFsmDead => (r, [FDie a], GReturn (PNum PInf))
       | RAccident => accident2_fn s ag a r
       end).

(** The agents and the scheduler.  No function returns a text. *)
Definition rabbit2_user (shuffle : list aid -> irest -> irest * list aid)
  : user (iworld * cors (frame rfun)) := agent_user rabbit2_code (fun _ => None) shuffle.

(** A new agent of a class: soil/agents/fsm.py:114-122, with no state given. *)
Definition new_agent2 (k : role) : fagent rfun :=
  let start c := FAgent (KFsm (fst (meta c))) true
                   (match fsm_init c PNone with Some cur => cur | None => None end) in
  match k with
  | Male => start male2_class
  | Female => start female2_class
  | Accident => FAgent (KPlain RAccident) true None
  end.
(** examples/rabbits/rabbit_improved_sim.py:11-16 [init]: the agents 0, 1 and 2 are a male, a female
    and the accidents; [birth] and [conception] are None (23 and 75). *)
Definition rabbit2_world (draws : nat -> num) : iworld :=
  FWorld (fun a => new_agent2 (who a))
    (IRest 3 [0; 1] [(0, 1)] (fun _ => None) (fun _ => 0) (fun _ => None) (fun _ => None) (fun _ => 0) draws).
(** The history of a model: its creation, and some steps. *)
Definition rabbit2_run (shuffle : list aid -> irest -> irest * list aid) (ordered : bool) (di : num)
    (draws : nat -> num) (steps : nat) : sched * (iworld * cors (frame rfun)) * list ev :=
  run_hist (rabbit2_user shuffle) (map (fun a => CAdd a None) [0; 1; 2] ++ repeat CStep steps)%list
    (timed_init (negb ordered) di) (rabbit2_world draws, no_cors).
End Rabbits.

(** [issubclass], by the identities of the classes. *)
Fixpoint subclass {I} (c : cls I) (d : nat) : bool :=
  match c with Cls i bases _ => Nat.eqb i d || existsb (fun b => subclass b d) bases end.
(** [RandomAccident] of both examples, a subclass of [BaseAgent] (examples/rabbits/rabbits_basic_sim.py:136
    and examples/rabbits/rabbit_improved_sim.py:128). *)
Definition accident_class : cls (option (state rfun)) := Cls 20 [] [].
Definition class_of (k : role) : cls (option (state rfun)) :=
  match k with Male => male_class | Female => female_class | Accident => accident_class end.
Definition class2_of (k : role) : cls (option (state rfun)) :=
  match k with Male => male2_class | Female => female2_class | Accident => accident_class end.
(** soil/environment.py:122-123 [count_agents] with a class (soil/agents/__init__.py:465-476), for
    agents of the classes [of]. *)
Definition count_class (of : aid -> cls (option (state rfun))) (s : sched) (c : cls (option (state rfun))) : nat :=
  List.length (filter (fun a => subclass (of a) (c_id c)) (s_reg s)).
(** examples/rabbits/rabbits_basic_sim.py:16-29: the three reports.  The names [Rabbit], [Male] and
    [Female] are those of the module of the basic example, also for the subclass of
    examples/rabbits/rabbit_improved_sim.py:10. *)
Definition reports (of : aid -> cls (option (state rfun))) (s : sched) : nat * nat * nat :=
  (count_class of s rabbit_class, count_class of s male_class, count_class of s female_class).
