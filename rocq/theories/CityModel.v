(** Model of examples/markov_chains/markov_sim.py, as code for the agents of FsmModel. *)
From Coq Require Import ZArith QArith_base List Bool Arith String.
From Verif Require Import Num PyDict TimedModel AgentModel FsmModel LockstepModel WealthModel.
Import ListNotations.
Local Open Scope nat_scope.

(** * The city *)

(** A street of the networkx multigraph: from a node to another, with its key among those between the same nodes, and
    the attribute [travel_time].  (Graphs of osmnx are directed.) *)
Definition node : Type := nat.
Record street := Street { st_from : node; st_to : node; st_key : nat; st_time : num }.
(** The nodes, and the streets in the order of [G.edges]. *)
Record city := City { c_nodes : list node; c_streets : list street }.

(** [G.neighbors(u)]: the nodes that streets lead to, each once, in order. *)
Fixpoint once (l : list node) : list node :=
  match l with [] => [] | x :: l' => x :: filter (fun y => negb (Nat.eqb y x)) (once l') end.
Definition neighbors (c : city) (u : node) : list node :=
  once (map st_to (filter (fun s => Nat.eqb (st_from s) u) (c_streets c))).
(** [G.adj[u][v].values()]: the streets between two nodes. *)
Definition between (u v : node) (s : street) : bool := Nat.eqb (st_from s) u && Nat.eqb (st_to s) v.
(** Python's [min]: the first of the least ones; None for the exception of no value. *)
Definition py_min (l : list num) : option num :=
  match l with [] => None | x :: l' => Some (fold_left (fun m y => if n_ltb y m then y else m) l' x) end.
(** examples/markov_chains/markov_sim.py:31-32 [travel_time]. *)
Definition travel_time (c : city) (u v : node) : option num :=
  py_min (map st_time (filter (between u v) (c_streets c))).
(** [G.edges[u, v, 0]]: whether it is there. *)
Definition has_street (c : city) (u v : node) : bool :=
  existsb (fun s => between u v s && Nat.eqb (st_key s) 0) (c_streets c).

(** * The world *)

(** The attribute [pos] of the agents (None: not on the grid), the attribute [agent] of the nodes, the [occupation] of
    the streets of key 0, the attribute [waiting] of the agents, and the draws to come. *)
Record crest := CRest {
  cr_pos : aid -> option node;
  cr_at : node -> list aid;
  cr_occupation : node -> node -> Z;
  cr_waiting : aid -> bool;
  cr_draws : nat -> nat }.
Definition put {V} (f : nat -> V) (a : nat) (v : V) : nat -> V := fun b => if Nat.eqb b a then v else f b.
Definition set_waiting (r : crest) (a : aid) (b : bool) : crest :=
  CRest (cr_pos r) (cr_at r) (cr_occupation r) (put (cr_waiting r) a b) (cr_draws r).
Definition add_occupation (r : crest) (u v : node) (d : Z) : crest :=
  CRest (cr_pos r) (cr_at r) (put (cr_occupation r) u (put (cr_occupation r u) v (cr_occupation r u v + d)%Z)) (cr_waiting r) (cr_draws r).
(** A draw: a number below n. *)
Definition draw (n : nat) (r : crest) : nat * crest :=
  (cr_draws r 0 mod n, CRest (cr_pos r) (cr_at r) (cr_occupation r) (cr_waiting r) (fun k => cr_draws r (S k))).
(** mesa.space.NetworkGrid: [place_agent], and [remove_agent] (None: it raises). *)
Definition place (r : crest) (a : aid) (v : node) : crest :=
  CRest (put (cr_pos r) a (Some v)) (put (cr_at r) v (cr_at r v ++ [a])) (cr_occupation r) (cr_waiting r) (cr_draws r).
Fixpoint remove1 (a : aid) (l : list aid) : list aid :=
  match l with [] => [] | b :: l' => if Nat.eqb b a then l' else b :: remove1 a l' end.
Definition remove (r : crest) (a : aid) : option crest :=
  match cr_pos r a with
  | None => None
  | Some u =>
      if existsb (Nat.eqb a) (cr_at r u)
      then Some (CRest (put (cr_pos r) a None) (put (cr_at r) u (remove1 a (cr_at r u))) (cr_occupation r) (cr_waiting r) (cr_draws r))
      else None
  end.
(** [move_agent]. *)
Definition move_agent (r : crest) (a : aid) (v : node) : option crest :=
  match remove r a with None => None | Some r' => Some (place r' a v) end.

(** examples/markov_chains/markov_sim.py:35-36 [node_occupation]. *)
Definition node_occupation (c : city) (r : crest) : dict node nat := map (fun v => (v, List.length (cr_at r v))) (c_nodes c).
(** examples/markov_chains/markov_sim.py:38-39 [edge_occupation]: a dictionary by the two nodes.  Streets of other keys have
    the 0 of lines 24-25. *)
#[global, refine] Instance Eqb_way : Eqb (node * node) := {| eqb := fun p q => Nat.eqb (fst p) (fst q) && Nat.eqb (snd p) (snd q) |}.
Proof. intros [x y] [z t]. cbn. rewrite andb_true_iff, !Nat.eqb_eq. split; [intros [-> ->]; reflexivity|now intros [= -> ->]]. Defined.
Definition edge_occupation (c : city) (r : crest) : dict (node * node) Z :=
  dict_of (map (fun s => ((st_from s, st_to s), if Nat.eqb (st_key s) 0 then cr_occupation r (st_from s) (st_to s) else 0%Z)) (c_streets c)).
(** examples/markov_chains/markov_sim.py:86-95 [gini]: with something, it is that of WealthModel. *)
Definition gini (values : list Z) : option Q :=
  if (sum values =? 0)%Z then Some 0%Q else WealthModel.gini values.
(** examples/markov_chains/markov_sim.py:121-122: two of the reporters. *)
Definition node_gini (c : city) (r : crest) : option Q := gini (map Z.of_nat (dvalues (node_occupation c r))).
Definition edge_gini (c : city) (r : crest) : option Q := gini (dvalues (edge_occupation c r)).

(** * The agents *)

(** The step of the classes Roamer and LazyRoamer, and where it may be: at its start, or at the [yield] of line 66 with
    the local variable [pos]. *)
Inductive cfun := FRoamer | FLazy.
Inductive cpoint := QStart (f : cfun) | QOn (pos : node).
Notation cworld := (fworld cfun crest).

Section Roamers.
Variable c : city.
(** The attribute [gradual_move] of the model. *)
Variable gradual : bool.

(** [travel_time] of each of them; None: it raises. *)
Fixpoint travel_times (u : node) (l : list node) : option (list num) :=
  match l with
  | [] => Some []
  | v :: l' =>
      match travel_time c u v, travel_times u l' with Some t, Some ts => Some (t :: ts) | _, _ => None end
  end.
(** examples/markov_chains/markov_sim.py:52-56 and 78-82 [choose_next]: the node and the time, or None for an exception
    (IndexError if there is nowhere to go; in LazyRoamer, ZeroDivisionError if the time to some node is 0, and ValueError if
    all are infinite).  The probabilities are left out: the index is any draw; travel times are taken not to be negative. *)
Definition choose_next (f : cfun) (u : node) (r : crest) : option (node * num) * crest :=
  let opts := neighbors c u in
  match f with
  | FRoamer =>
      match opts with
      | [] => (None, r)
      | _ =>
          let '(i, r1) := draw (List.length opts) r in
          let v := nth i opts 0 in
          match travel_time c u v with Some d => (Some (v, d), r1) | None => (None, r1) end
      end
  | FLazy =>
      match travel_times u opts with
      | None | Some [] => (None, r)
      | Some times =>
          if existsb (fun t => n_eqb t (Fin 0)) times || forallb (fun t => n_eqb t PInf) times then (None, r)
          else
            let '(i, r1) := draw (List.length times) r in
            (Some (nth i opts 0, nth i times (Fin 0)), r1)
      end
  end.

Notation out := (crest * list (fop cfun) * gout cpoint (pyval cfun))%type.
Definition raises (r : crest) : out := (r, [], GRaise false).
(** examples/markov_chains/markov_sim.py:67-73, after the [yield], and line 50: [return self.delay(0)]. *)
Definition arrive (a : aid) (u v : node) (r : crest) : out :=
  let on_the_way := gradual && negb (Nat.eqb v u) in
  if on_the_way && negb (has_street c u v) then raises r
  else
    let r1 := if on_the_way then add_occupation r u v (-1) else r in
    match move_agent r1 a v with
    | None => raises r1
    | Some r2 => (set_waiting r2 a false, [], GReturn (PNum (Fin 0)))
    end.
(** examples/markov_chains/markov_sim.py:58-73 [move_to] up to its [yield], or its end, from node [u].  With a target the
    local variable [delay] has no value: an UnboundLocalError at line 66. *)
Definition move_to (f : cfun) (target : option node) (a : aid) (u : node) (r : crest) : out :=
  let r0 := set_waiting r a true in
  let '(choice, r1) :=
    match target with
    | None => let '(x, r1) := choose_next f u r0 in (match x with Some (v, d) => Some (v, Some d) | None => None end, r1)
    | Some v => (Some (v, None), r0)
    end in
  match choice with
  | None => raises r1
  | Some (v, delay) =>
      if gradual then
        if negb (Nat.eqb v u) && negb (has_street c u v) then raises r1
        else
          let r2 := if negb (Nat.eqb v u) then add_occupation r1 u v 1 else r1 in
          match delay with
          | Some d => (r2, [], GYield (PNum d) (QOn v))
          | None => raises r2
          end
      else arrive a u v r1
  end.
(** examples/markov_chains/markov_sim.py:45-50 [step]. *)
Definition city_code : code cfun cpoint crest :=
  Code QStart
    (fun s a q w =>
       let r := fw_rest w in
       match cr_pos r a with
       | None => raises r
       | Some u => match q with QStart f => move_to f None a u r | QOn v => arrive a u v r end
       end).
(** The agents and the scheduler. *)
Definition city_user (shuffle : list aid -> crest -> crest * list aid) : user (cworld * cors (frame cpoint)) :=
  agent_user city_code (fun _ => None) shuffle.
End Roamers.

(** examples/markov_chains/markov_sim.py:103-117: a city with its agents, of which the first ones are Roamer, each at some
    place. *)
Definition traffic (n_other n_lazy : nat) (places : aid -> node) (draws : nat -> nat) : cworld :=
  FWorld (fun a => FAgent (KPlain (if a <? n_other then FRoamer else FLazy)) true None)
    (fold_left (fun r a => place r a (places a)) (seq 0 (n_other + n_lazy))
       (CRest (fun _ => None) (fun _ => []) (fun _ _ => 0%Z) (fun _ => false) draws)).
(** The model after so many steps of the scheduler. *)
Definition city_run {AR : Arith} (c : city) (gradual : bool) (shuffle : list aid -> crest -> crest * list aid) (ordered : bool) (di : num)
    (n_other n_lazy : nat) (places : aid -> node) (draws : nat -> nat) (steps : nat)
  : sched * (cworld * cors (frame cpoint)) * list ev :=
  run_hist (city_user c gradual shuffle) (map (fun a => CAdd a None) (seq 0 (n_other + n_lazy)) ++ repeat CStep steps)%list
    (timed_init (negb ordered) di) (traffic n_other n_lazy places draws, no_cors).
(** examples/markov_chains/markov_sim.py:101-102: with [lockstep], steps are those of a Lockstepper (soil/time.py:206-225), of
    one interval each; None: some step does not end within [fuel] steps of the scheduler. *)
Definition city_lockstep {AR : Arith} (c : city) (gradual : bool) (shuffle : list aid -> crest -> crest * list aid) (ordered : bool) (di interval : num)
    (n_other n_lazy : nat) (places : aid -> node) (draws : nat -> nat) (fuel steps : nat)
  : option (lock * (cworld * cors (frame cpoint)) * list ev) :=
  lock_hist (city_user c gradual shuffle) fuel (map (fun a => CAdd a None) (seq 0 (n_other + n_lazy)) ++ repeat CStep steps)%list
    (lock_init (timed_init (negb ordered) di) interval) (traffic n_other n_lazy places draws, no_cors).

(** * SquareCityEnv *)

(** nx.grid_graph(dim=[side, side]): its edges. *)
Definition square_edges (side : nat) : list ((nat * nat) * (nat * nat)) :=
  flat_map (fun i => flat_map (fun j =>
    (if S i <? side then [((i, j), (S i, j))] else []) ++ (if S j <? side then [((i, j), (i, S j))] else []))
    (seq 0 side)) (seq 0 side).
(** examples/markov_chains/markov_sim.py:128-136, up to the call of [super().__init__]: the travel times, from the attributes
    that the object has before it is initialised (soil/environment.py:50-66) and the attributes of its class, or None for
    an AttributeError. *)
Definition square_times (attributes : list string) (side : nat) (randint : nat -> Z) : option (list Z) :=
  match square_edges side with
  | [] => Some []
  | l => if existsb (String.eqb "max_weight") attributes then Some (map (fun k => randint k) (seq 0 (List.length l))) else None
  end.
(** The names that are there: soil/environment.py:51-56 and mesa's Model.__new__; and those of the classes
    (examples/markov_chains/markov_sim.py:98-136, soil/environment.py). *)
Definition new_attributes : list string :=
  ["dir_path"; "datacollector"; "random"; "_seed"; "side"; "collector_class"; "schedule_class";
   "init"; "agents"; "get_agents"; "agent"; "count_agents"; "agent_df"; "model_df"; "now"; "init_agents"; "add_agent"; "add_agents";
   "log"; "step"; "add_model_reporter"; "add_agent_reporter"; "run"; "get"; "keys"; "create_network"; "network_agents"; "add_node";
   "_check_agent_nodes"; "agent_for_node_id"; "populate_network"; "broadcast"]%string.
