(** Model of the two versions of the virus on a network of benchmarks/virusonnetwork: soil_states.py, with the state machines of
    FsmModel, and soil_step.py. *)
From Coq Require Import ZArith List Bool Arith String.
From Verif Require Import Num PyDict TimedModel AgentModel FsmModel.
Import ListNotations.
Local Open Scope string_scope.

(** The numbers that the random generator will give. *)
Definition draws := nat -> num.
(** [self.prob(p)] (soil/agents/__init__.py:154-155): draws a number. *)
Definition vroll (p : num) (g : draws) : bool * draws := (prob (g 0) p, fun n => g (S n)).

(** benchmarks/virusonnetwork/soil_states.py:64-87: the state functions, and the one of [dead] (soil/agents/fsm.py:173-175). *)
Inductive vfun := VSusceptible | VInfected | VResistant | VDead.
Definition susceptible_st : state vfun := State VSusceptible "susceptible" true.
Definition infected_st : state vfun := State VInfected "infected" false.
Definition resistant_st : state vfun := State VResistant "resistant" false.
(** benchmarks/virusonnetwork/soil_states.py:57-87 [VirusAgent]. *)
Definition virus_class : cls (option (state vfun)) :=
  Cls 1 [fsm_class VDead] [None; None; None; None; None; Some susceptible_st; Some infected_st; Some resistant_st].
(** An agent with the default state (soil/agents/fsm.py:114-122). *)
Definition new_agent : fagent vfun :=
  FAgent (KFsm (fst (meta virus_class))) true (match fsm_init virus_class PNone with Some cur => cur | None => None end).

(** The attributes [just_been_infected]. *)
Record vrest := VRest { vr_flag : aid -> bool; vr_draws : draws }.
Definition set_flag (f : aid -> bool) (a : aid) (b : bool) : aid -> bool := fun c => if Nat.eqb c a then b else f c.

(** benchmarks/virusonnetwork/soil_step.py:10-13. *)
Inductive status := Susceptible | Infected | Resistant.
Definition is_susceptible (x : status) : bool := match x with Susceptible => true | _ => false end.
Definition is_infected (x : status) : bool := match x with Infected => true | _ => false end.
Definition is_resistant (x : status) : bool := match x with Resistant => true | _ => false end.
Record sworld := SWorld { sw_status : aid -> status; sw_draws : draws }.
Definition set_status (f : aid -> status) (a : aid) (x : status) : aid -> status := fun c => if Nat.eqb c a then x else f c.

Section Virus.
(** The network: the agents at the neighbours of the node of an agent, in the order of their registration
    (soil/agents/network_agents.py:32-33 and 39-60).  It does not change.  There is one agent at each node
    (benchmarks/virusonnetwork/soil_states.py:26), and agents stand for their nodes. *)
Variable nbrs : aid -> list aid.
(** [virus_spread_chance], [virus_check_frequency], [recovery_chance] and [gain_resistance_chance] of the model, which all agents inherit
    (soil/agents/__init__.py:133-137). *)
Variables spread check recovery gain : num.
(** [model.random.shuffle]. *)
Variable shuffle : list aid -> draws -> draws * list aid.

(** * soil_states.py *)
Definition in_state (name : string) (x : fagent vfun) : bool :=
  match fa_cur x with Some st => String.eqb (st_name st) name | None => false end.
(** benchmarks/virusonnetwork/soil_states.py:64-68. *)
Definition susceptible_fn (a : aid) (r : vrest) : vrest * gout vfun (pyval vfun) :=
  if vr_flag r a then (VRest (set_flag (vr_flag r) a false) (vr_draws r), GReturn (PState infected_st)) else (r, GReturn PNone).
(** benchmarks/virusonnetwork/soil_states.py:73-75: the loop. *)
Fixpoint mark (l : list aid) (r : vrest) : vrest :=
  match l with
  | [] => r
  | b :: l' =>
      let '(yes, g) := vroll spread (vr_draws r) in
      mark l' (VRest (if yes then set_flag (vr_flag r) b true else vr_flag r) g)
  end.
(** benchmarks/virusonnetwork/soil_states.py:70-83. *)
Definition infected_fn (ag : aid -> fagent vfun) (a : aid) (r : vrest) : vrest * gout vfun (pyval vfun) :=
  let r := mark (filter (fun b => in_state "susceptible" (ag b)) (nbrs a)) r in
  let '(checked, g) := vroll check (vr_draws r) in
  if checked then
    let '(recovers, g) := vroll recovery g in
    if recovers then
      let '(gains, g) := vroll gain g in
      (VRest (vr_flag r) g, GReturn (PState (if gains then resistant_st else susceptible_st)))
    else (VRest (vr_flag r) g, GReturn (PState infected_st))
  else (VRest (vr_flag r) g, GReturn PNone).
(** benchmarks/virusonnetwork/soil_states.py:85-87: the delay until infinity, from a finite time, is infinite
    (soil/agents/__init__.py:296-297). *)
Definition resistant_fn (r : vrest) : vrest * gout vfun (pyval vfun) := (r, GReturn (PNum PInf)).
Definition virus_code : code vfun vfun vrest :=
  Code (fun f => f)
    (fun s a q w =>
       let '(r1, g) := match q with
                       | VSusceptible => susceptible_fn a (fw_rest w)
                       | VInfected => infected_fn (fw_agents w) a (fw_rest w)
                       | VResistant => resistant_fn (fw_rest w)
                       | VDead => (fw_rest w, GReturn (PNum PInf))
                       end in
       (r1, [], g)).
Notation vworld := (fworld vfun vrest * cors (frame vfun))%type.
Definition virus_user : user vworld :=
  agent_user virus_code (fun _ => None) (fun l r => let '(g, l') := shuffle l (vr_draws r) in (VRest (vr_flag r) g, l')).

(** benchmarks/virusonnetwork/soil_states.py:26: agents 1, 2, ... *)
Definition virus_ids (n : nat) : list aid := seq 1 n.
Definition virus_world (g : draws) : vworld := (FWorld (fun _ => new_agent) (VRest (fun _ => false) g), no_cors).
(** benchmarks/virusonnetwork/soil_states.py:29-31: [chosen] is the sample of nodes. *)
Definition outbreak (n : nat) (chosen : list aid) (w : vworld) : vworld :=
  (fold_left (fun w a => call_set_state (timed_init false (Fin 0)) w a (PState infected_st))
     (filter (fun a => existsb (Nat.eqb a) chosen) (virus_ids n)) (fst w), snd w).
(** A model, and [k] steps of it. *)
Definition virus_run {AR : Arith} (shuffled : bool) (di : num) (n : nat) (chosen : list aid) (k : nat) (g : draws) : sched * vworld * list ev :=
  run_hist virus_user ((map (fun a => CAdd a None) (virus_ids n) ++ [CWorld (outbreak n chosen)] ++ repeat CStep k)%list)
    (timed_init shuffled di) (virus_world g).
(** benchmarks/virusonnetwork/soil_states.py:41-54: [number_susceptible], [number_infected] and [number_resistant]. *)
Definition count_in (name : string) (s : sched) (w : vworld) : nat :=
  List.length (filter (fun a => in_state name (fw_agents (fst w) a)) (s_reg s)).

(** * soil_step.py *)
(** benchmarks/virusonnetwork/soil_step.py:71-75: the loop. *)
Fixpoint infect_all (l : list aid) (w : sworld) : sworld :=
  match l with
  | [] => w
  | b :: l' =>
      let '(yes, g) := vroll spread (sw_draws w) in
      infect_all l' (SWorld (if yes then set_status (sw_status w) b Infected else sw_status w) g)
  end.
Definition try_to_infect (a : aid) (w : sworld) : sworld :=
  infect_all (filter (fun b => is_susceptible (sw_status w b)) (nbrs a)) w.
(** benchmarks/virusonnetwork/soil_step.py:77-80. *)
Definition try_gain (a : aid) (w : sworld) : sworld * option num :=
  let '(yes, g) := vroll gain (sw_draws w) in
  if yes then (SWorld (set_status (sw_status w) a Resistant) g, Some PInf) else (SWorld (sw_status w) g, None).
(** benchmarks/virusonnetwork/soil_step.py:82-87. *)
Definition try_remove (a : aid) (w : sworld) : sworld * option num :=
  let '(yes, g) := vroll recovery (sw_draws w) in
  if yes then try_gain a (SWorld (set_status (sw_status w) a Susceptible) g) else (SWorld (sw_status w) g, None).
(** benchmarks/virusonnetwork/soil_step.py:89-93. *)
Definition try_check (a : aid) (w : sworld) : sworld * option num :=
  let '(yes, g) := vroll check (sw_draws w) in
  let w := SWorld (sw_status w) g in
  if yes && is_infected (sw_status w a) then try_remove a w else (w, None).
(** benchmarks/virusonnetwork/soil_step.py:95-98: a function, decorated by soil/agents/__init__.py:49-54. *)
Definition virus_step (s : sched) (a : aid) (w : sworld) : sworld * list sop * outcome :=
  let w := if is_infected (sw_status w a) then try_to_infect a w else w in
  let '(w, d) := try_check a w in (w, [], Ret d).
Definition step_user : user sworld :=
  User _ virus_step (fun l w => let '(g, l') := shuffle l (sw_draws w) in (SWorld (sw_status w) g, l')).
(** benchmarks/virusonnetwork/soil_step.py:36-38. *)
Definition step_outbreak (n : nat) (chosen : list aid) (w : sworld) : sworld :=
  SWorld (fold_left (fun st a => set_status st a Infected) (filter (fun a => existsb (Nat.eqb a) chosen) (virus_ids n)) (sw_status w)) (sw_draws w).
Definition step_run {AR : Arith} (shuffled : bool) (di : num) (n : nat) (chosen : list aid) (k : nat) (g : draws) : sched * sworld * list ev :=
  run_hist step_user ((map (fun a => CAdd a None) (virus_ids n) ++ [CWorld (step_outbreak n chosen)] ++ repeat CStep k)%list)
    (timed_init shuffled di) (SWorld (fun _ => Susceptible) g).
(** benchmarks/virusonnetwork/soil_step.py:47-60. *)
Definition count_status (p : status -> bool) (s : sched) (w : sworld) : nat :=
  List.length (filter (fun a => p (sw_status w a)) (s_reg s)).
End Virus.
