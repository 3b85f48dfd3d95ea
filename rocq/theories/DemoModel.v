(** Model of the small examples: examples/random_delays/random_delays_sim.py, examples/programmatic/programmatic_sim.py,
    examples/custom_generator/generator_sim.py and examples/torvalds_sim.py. *)
From Coq Require Import ZArith List Bool Arith String.
From Verif Require Import Num PyDict TimedModel AgentModel FsmModel FsmDieModel.
Import ListNotations.
Local Open Scope string_scope.

(** * random_delays_sim.py *)
(** The state functions, and that of [FSM.dead] (soil/agents/fsm.py:173-175). *)
Inductive dfun := DPing | DPong | DNeutral | DDead.
(** examples/random_delays/random_delays_sim.py:14-16 and 20-21: the states. *)
Definition ping_st : state dfun := State DPing "ping" true.
Definition pong_st : state dfun := State DPong "pong" false.
(** examples/random_delays/random_delays_sim.py:7-27 [MyAgent]. *)
Definition ping_class : cls (option (state dfun)) := Cls 1 [fsm_class DDead] [None; Some ping_st; Some pong_st].
(** The attribute [max_pongs] of the agents, what they have logged and when, and the values that [expovariate] will give. *)
Record drest := DRest { dr_left : aid -> Z; dr_log : list (num * aid * string); dr_draws : nat -> num }.
Definition dset_left (r : drest) (a : aid) (z : Z) : drest :=
  DRest (fun b => if Nat.eqb b a then z else dr_left r b) (dr_log r) (dr_draws r).
(** [self.info(what)] (soil/agents/__init__.py:251-262), with the level of logging set to INFO. *)
Definition info (s : sched) (a : aid) (what : string) (r : drest) : drest :=
  DRest (dr_left r) (dr_log r ++ [(s_time s, a, what)])%list (dr_draws r).
Definition expo (r : drest) : num * drest := (dr_draws r 0, DRest (dr_left r) (dr_log r) (fun i => dr_draws r (S i))).

Section Ping.
Context {AR : Arith}.
(** examples/random_delays/random_delays_sim.py:14-18. *)
Definition ping_fn (s : sched) (a : aid) (r : drest) : drest * list (fop dfun) * gout dfun (pyval dfun) :=
  let '(d, r) := expo (info s a "Ping" r) in (r, [], GReturn (state_delay pong_st d)).
(** examples/random_delays/random_delays_sim.py:20-27.  Line 24, which only logs how many are left, is left out. *)
Definition pong_fn (s : sched) (a : aid) (r : drest) : drest * list (fop dfun) * gout dfun (pyval dfun) :=
  let r := info s a "Pong" r in
  let r := dset_left r a (dr_left r a - 1)%Z in
  if (dr_left r a <? 1)%Z then
    match fsm_die (s_time s) (fst (meta ping_class)) a with
    | (ops, Some v) => (r, ops, GReturn v)
    | (ops, None) => (r, ops, GRaise false)
    end
  else let '(d, r) := expo r in (r, [], GReturn (PNum d)).
Definition ping_code : code dfun dfun drest :=
  Code (fun f => f)
    (fun s a q w =>
       match q with
       | DPing => ping_fn s a (fw_rest w)
       | DPong => pong_fn s a (fw_rest w)
       | _ => (fw_rest w, [], GReturn (PNum PInf))
       end).
(** [model.random.shuffle]. *)
Variable shuffle : list aid -> drest -> drest * list aid.
Definition ping_user : user (fworld dfun drest * cors (frame dfun)) := agent_user ping_code (fun _ => None) shuffle.
(** An agent in its default state (soil/agents/fsm.py:114-122). *)
Definition demo_agent (k : cls (option (state dfun))) : fagent dfun :=
  FAgent (KFsm (fst (meta k))) true (match fsm_init k PNone with Some cur => cur | None => None end).
(** examples/random_delays/random_delays_sim.py:30-33 [RandomEnv], and [k] steps of it; [m] is [max_pongs]. *)
Definition ping_run (shuffled : bool) (di : num) (m : Z) (draws : nat -> num) (k : nat)
  : sched * (fworld dfun drest * cors (frame dfun)) * list ev :=
  run_hist ping_user (CAdd 1 None :: repeat CStep k) (timed_init shuffled di)
    (FWorld (fun _ => demo_agent ping_class) (DRest (fun _ => m) [] draws), no_cors).
End Ping.

(** * programmatic_sim.py *)
(** examples/programmatic/programmatic_sim.py:19-25: the state. *)
Definition neutral_st : state dfun := State DNeutral "neutral" true.
(** examples/programmatic/programmatic_sim.py:17-25 [MyAgent]. *)
Definition neutral_class : cls (option (state dfun)) := Cls 2 [fsm_class DDead] [None; Some neutral_st].
(** The attribute [times_run], and the random generator. *)
Record nrest := NRest { nr_times : aid -> nat; nr_draws : nat -> num }.
(** examples/programmatic/programmatic_sim.py:19-25, with the chance [p] of line 23. *)
Definition neutral_fn (p : num) (a : aid) (r : nrest) : nrest :=
  let d := nr_draws r 0 in
  NRest (fun b => if Nat.eqb b a && prob d p then S (nr_times r b) else nr_times r b) (fun i => nr_draws r (S i)).
Definition neutral_code (p : num) : code dfun dfun nrest :=
  Code (fun f => f)
    (fun s a q w =>
       match q with
       | DNeutral => (neutral_fn p a (fw_rest w), [], GReturn PNone)
       | _ => (fw_rest w, [], GReturn (PNum PInf))
       end).
Definition neutral_user (p : num) (shuffle : list aid -> (nat -> num) -> (nat -> num) * list aid) : user (fworld dfun nrest * cors (frame dfun)) :=
  agent_user (neutral_code p) (fun _ => None) (fun l r => let '(g, l') := shuffle l (nr_draws r) in (NRest (nr_times r) g, l')).
(** examples/programmatic/programmatic_sim.py:28-34 [ProgrammaticEnv], with [n] nodes, and [k] steps of it. *)
Definition neutral_run {AR : Arith} (p : num) (shuffle : list aid -> (nat -> num) -> (nat -> num) * list aid) (shuffled : bool) (di : num)
    (n k : nat) (draws : nat -> num) : sched * (fworld dfun nrest * cors (frame dfun)) * list ev :=
  run_hist (neutral_user p shuffle) ((map (fun a => CAdd a None) (seq 1 n) ++ [CWorld (fun w => w)] ++ repeat CStep k)%list) (timed_init shuffled di)
    (FWorld (fun _ => demo_agent neutral_class) (NRest (fun _ => 0) draws), no_cors).

(** * generator_sim.py *)
(** A graph of networkx without directions: its nodes and its edges, each edge once. *)
Record ugraph := UGraph { ug_nodes : list nat; ug_edges : list (nat * nat) }.
Definition is_edge (g : ugraph) (u v : nat) : bool :=
  existsb (fun e => (Nat.eqb (fst e) u && Nat.eqb (snd e) v) || (Nat.eqb (fst e) v && Nat.eqb (snd e) u)) (ug_edges g).
(** [G.add_edge]; both nodes are in the graph. *)
Definition ug_add (g : ugraph) (u v : nat) : ugraph :=
  if is_edge g u v then g else UGraph (ug_nodes g) (ug_edges g ++ [(u, v)])%list.
(** [random.choice(l)]: an index from the random generator; None for IndexError if the list is empty. *)
Definition pick (l : list nat) (draws : nat -> nat) : option (nat * (nat -> nat)) :=
  match l with [] => None | _ => Some (nth (draws 0 mod List.length l) l 0, fun i => draws (S i)) end.
(** [nodes.remove(x)]: the first one. *)
Fixpoint remove_first (x : nat) (l : list nat) : list nat :=
  match l with [] => [] | y :: l' => if Nat.eqb y x then l' else y :: remove_first x l' end.
(** examples/custom_generator/generator_sim.py:17-22: the loop. *)
Fixpoint add_edges (n_edges : nat) (g : ugraph) (draws : nat -> nat) : option ugraph :=
  match n_edges with
  | 0 => Some g
  | S k =>
      match pick (ug_nodes g) draws with
      | None => None
      | Some (n_in, draws) =>
          match pick (remove_first n_in (ug_nodes g)) draws with
          | None => None
          | Some (n_out, draws) => add_edges k (ug_add g n_in n_out) draws
          end
      end
  end.
(** examples/custom_generator/generator_sim.py:7-23 [mygenerator]. *)
Definition mygenerator (n n_edges : nat) (draws : nat -> nat) : option ugraph := add_edges n_edges (UGraph (seq 0 n) []) draws.

(** * torvalds_sim.py *)
(** The agents: the node and the [skill_level] of each, in the order of registration. *)
Record dev := Dev { dv_node : string; dv_skill : string }.
(** soil/agents/__init__.py:416-417 [one], with [node_id=x]: assigns the skill to the first such agent; None for StopIteration. *)
Fixpoint one_gets (x skill : string) (l : list dev) : option (list dev) :=
  match l with
  | [] => None
  | d :: l' => if String.eqb (dv_node d) x then Some (Dev (dv_node d) skill :: l')
               else match one_gets x skill l' with Some l'' => Some (d :: l'') | None => None end
  end.
(** examples/torvalds_sim.py:10-15 [init], for the nodes of the file. *)
Definition torvalds_init (nodes : list string) : option (list dev) :=
  match one_gets "Torvalds" "God" (map (fun x => Dev x "beginner") nodes) with
  | None => None
  | Some l => one_gets "balkian" "developer" l
  end.
(** examples/torvalds_sim.py:17-19 [god_developers]. *)
Definition god_developers (l : list dev) : nat := List.length (filter (fun d => String.eqb (dv_skill d) "God") l).
