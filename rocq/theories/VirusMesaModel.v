(** Model of the third version of the virus on a network: benchmarks/virusonnetwork/mesa_basic.py, a model of mesa.

    Simplifications: as for the other two versions in VirusModel (the network is given, and so is the sample of the outbreak); the agents,
    which are called 0, 1, ... there, are called 1, 2, ... as in the other versions. *)
From Coq Require Import List Bool Arith.
From Verif Require Import Num TimedModel AgentModel VirusModel.
Import ListNotations.

Section Mesa.
(** The agents at the neighbours of the node of an agent, in the order of the network (mesa's [NetworkGrid.get_neighbors] and
    [get_cell_list_contents]).  There is one agent at each node (benchmarks/virusonnetwork/mesa_basic.py:71-83). *)
Variable nbrs : aid -> list aid.
(** benchmarks/virusonnetwork/mesa_basic.py:56-59. *)
Variables spread check recovery gain : num.
(** [model.random.shuffle]. *)
Variable shuffle : list aid -> draws -> draws * list aid.

(** benchmarks/virusonnetwork/mesa_basic.py:141-150. *)
Definition m_infect (a : aid) (w : sworld) : sworld :=
  fold_left (fun w b => let '(yes, g) := vroll spread (sw_draws w) in SWorld (if yes then set_status (sw_status w) b Infected else sw_status w) g)
    (filter (fun b => is_susceptible (sw_status w b)) (nbrs a)) w.
(** benchmarks/virusonnetwork/mesa_basic.py:152-154. *)
Definition m_gain (a : aid) (w : sworld) : sworld :=
  let '(yes, g) := vroll gain (sw_draws w) in SWorld (if yes then set_status (sw_status w) a Resistant else sw_status w) g.
(** benchmarks/virusonnetwork/mesa_basic.py:156-164. *)
Definition m_remove (a : aid) (w : sworld) : sworld :=
  let '(yes, g) := vroll recovery (sw_draws w) in
  if yes then m_gain a (SWorld (set_status (sw_status w) a Susceptible) g) else SWorld (set_status (sw_status w) a Infected) g.
(** benchmarks/virusonnetwork/mesa_basic.py:166-170. *)
Definition m_check (a : aid) (w : sworld) : sworld :=
  let '(yes, g) := vroll check (sw_draws w) in
  let w := SWorld (sw_status w) g in
  if yes then (if is_infected (sw_status w a) then m_remove a w else w) else w.
(** benchmarks/virusonnetwork/mesa_basic.py:172-175. *)
Definition m_step (a : aid) (w : sworld) : sworld :=
  m_check a (if is_infected (sw_status w a) then m_infect a w else w).

(** A model: [schedule.steps] and the agents. *)
Record mworld := MWorld { mw_steps : nat; mw_agents : sworld }.
(** benchmarks/virusonnetwork/mesa_basic.py:111-114, with mesa's [RandomActivation.step]: all agents, shuffled. *)
Definition m_round (n : nat) (w : mworld) : mworld :=
  let '(g, l) := shuffle (virus_ids n) (sw_draws (mw_agents w)) in
  MWorld (S (mw_steps w)) (fold_left (fun w a => m_step a w) l (SWorld (sw_status (mw_agents w)) g)).
(** benchmarks/virusonnetwork/mesa_basic.py:71-88: all are susceptible at first; then the sampled ones are infected. *)
Definition m_init (n : nat) (chosen : list aid) (g : draws) : mworld :=
  MWorld 0 (SWorld (fold_left (fun st a => set_status st a Infected) (filter (fun a => existsb (Nat.eqb a) (virus_ids n)) chosen) (fun _ => Susceptible)) g).
(** benchmarks/virusonnetwork/mesa_basic.py:116-118 [run_model]. *)
Definition mesa_run (n : nat) (chosen : list aid) (k : nat) (g : draws) : mworld := Nat.iter k (m_round n) (m_init n chosen g).
(** benchmarks/virusonnetwork/mesa_basic.py:16-29: [number_state] of the agents in the grid. *)
Definition m_count (p : status -> bool) (n : nat) (w : mworld) : nat :=
  List.length (filter (fun a => p (sw_status (mw_agents w) a)) (virus_ids n)).
End Mesa.
