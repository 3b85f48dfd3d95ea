(** Model of the news of docs/tutorial/soil_tutorial.ipynb: [EventGenerator] and the viewers [NewsSpread], as code
    for the agents of FsmModel. *)
From Coq Require Import ZArith List Bool Arith String QArith.
From Verif Require Import Num PyDict TimedModel AgentModel FsmModel.
Import ListNotations.
Local Open Scope string_scope.
Local Open Scope nat_scope.
#[local] Existing Instance exact.

(** The functions, and where a generator is suspended: [BEvent] is a step that has not begun, [BHappens], [BFade] and
    [BLoop] are the [yield]s of docs/tutorial/soil_tutorial.ipynb:543, 547 and 554. *)
Inductive bfun := BEvent | BHappens | BFade | BLoop | BNeutral | BInfected | BDead.

(** docs/tutorial/soil_tutorial.ipynb:853-854 and 865-866: the decorated states. *)
Definition b_neutral : state bfun := State BNeutral "neutral" true.
Definition b_infected : state bfun := State BInfected "infected" false.
(** docs/tutorial/soil_tutorial.ipynb:848-870 [NewsSpread].  [None]: the two attributes. *)
Definition spread_class : cls (option (state bfun)) :=
  Cls 1 [fsm_class BDead] [None; None; Some b_neutral; Some b_infected].

(** The attributes [has_tv] and [infected_by_friends] of the viewers, their neighbours, the attributes [prob_tv_spread] and
    [prob_neighbor_spread] of the model, and the draws of the random generator to come.  Probabilities and
    draws are rational numbers: what is lost is rounding. *)
Record brest := BRest {
  b_tv : aid -> bool;
  b_nbrs : aid -> list aid;
  b_hit : aid -> bool;
  b_tv_spread : Q;
  b_spread : Q;
  b_draws : nat -> Q }.
Definition b_set_probs (r : brest) (tv p : Q) : brest := BRest (b_tv r) (b_nbrs r) (b_hit r) tv p (b_draws r).
Definition b_set_hit (r : brest) (a : aid) : brest :=
  BRest (b_tv r) (b_nbrs r) (fun b => if Nat.eqb b a then true else b_hit r b) (b_tv_spread r) (b_spread r) (b_draws r).

(** Python's [x < y] and [min(x, y)]. *)
Definition q_lt (x y : Q) : bool := negb (Qle_bool y x).
Definition q_min (x y : Q) : Q := if q_lt y x then y else x.

(** soil/agents/__init__.py:303-315 [self.prob(p)]. *)
Definition b_roll (p : Q) (r : brest) : bool * brest :=
  (q_lt (b_draws r 0) p,
   BRest (b_tv r) (b_nbrs r) (b_hit r) (b_tv_spread r) (b_spread r) (fun n => b_draws r (S n))).

Section Broadcast.
(** A unit of time, in ticks, and the attributes [event_time] (in ticks) and [neighbor_factor] of the model. *)
Variables (one event_time : Z) (factor : Q).

(** docs/tutorial/soil_tutorial.ipynb:550-554: the loop, up to the [yield]. *)
Definition fade (a : aid) (alive : bool) (r : brest) : brest * list (fop bfun) * gout bfun (pyval bfun) :=
  if alive then
    let r1 := b_set_probs r (b_tv_spread r) (b_spread r * factor)%Q in
    if q_lt (b_spread r1) (1 # 100) then (r1, [FDie a], GReturn (PNum PInf))
    else (r1, [], GYield (PNum (Fin one)) BLoop)
  else (r, [], GReturn PNone).

(** docs/tutorial/soil_tutorial.ipynb:541-554 [EventGenerator.step]. *)
Definition event_gen (now : num) (a : aid) (q : bfun) (alive : bool) (r : brest)
  : brest * list (fop bfun) * gout bfun (pyval bfun) :=
  match q with
  | BEvent => (r, [], GYield (PNum (n_add (Fin event_time) (n_opp now))) BHappens)
  | BHappens => (b_set_probs r (1 # 2) (q_min (b_spread r * 2) 1), [], GYield (PNum (Fin one)) BFade)
  | BFade => fade a alive (b_set_probs r 0 (b_spread r))
  | _ => fade a alive r
  end.

(** docs/tutorial/soil_tutorial.ipynb:853-863 [NewsSpread.neutral]. *)
Definition b_neutral_fn (a : aid) (r : brest) : brest * gout bfun (pyval bfun) :=
  if b_hit r a then (r, GReturn (PState b_infected))
  else if b_tv r a then
    let '(yes, r1) := b_roll (b_tv_spread r) r in (r1, GReturn (if yes then PState b_infected else PNone))
  else (r, GReturn PNone).

(** docs/tutorial/soil_tutorial.ipynb:867-869: the loop. *)
Fixpoint tell (l : list aid) (r : brest) : brest :=
  match l with
  | [] => r
  | b :: l' => let '(yes, r1) := b_roll (b_spread r) r in tell l' (if yes then b_set_hit r1 b else r1)
  end.
(** docs/tutorial/soil_tutorial.ipynb:865-870 [NewsSpread.infected].  The states of the neighbours (soil/agents/network_agents.py:29-30) do not
    change while they are visited. *)
Definition b_infected_fn (ag : aid -> fagent bfun) (a : aid) (r : brest) : brest * gout bfun (pyval bfun) :=
  (tell (filter (fun b => match fa_cur (ag b) with Some st => String.eqb (st_name st) "neutral" | None => false end)
           (b_nbrs r a)) r,
   GReturn (PNum (Fin (7 * one)))).

Definition broadcast_code : code bfun bfun brest :=
  Code (fun f => f)
    (fun s a f w =>
       let r := fw_rest w in
       match f with
       | BNeutral => let '(r1, g) := b_neutral_fn a r in (r1, [], g)
       | BInfected => let '(r1, g) := b_infected_fn (fw_agents w) a r in (r1, [], g)
       | BDead => (r, [], GReturn (PNum PInf))
       | _ => event_gen (s_time s) a f (fa_alive (fw_agents w a)) r
       end).

(** The agents and the scheduler.  No function returns a string.  Shuffling only draws numbers. *)
Definition broadcast_user (shuffle : (nat -> Q) -> list aid -> list aid * nat) : user (fworld bfun brest * cors (frame bfun)) :=
  agent_user broadcast_code (fun _ => None)
    (fun l r => let '(l', n) := shuffle (b_draws r) l in
       (BRest (b_tv r) (b_nbrs r) (b_hit r) (b_tv_spread r) (b_spread r) (fun k => b_draws r (n + k)%nat), l')).
End Broadcast.

(** Creation of the agents: soil/agents/__init__.py:117-146 and soil/agents/fsm.py:114-122, with no state given. *)
Definition new_viewer : fagent bfun :=
  FAgent (KFsm (fst (meta spread_class))) true (match fsm_init spread_class PNone with Some cur => cur | None => None end).
Definition new_generator : fagent bfun := FAgent (KPlain BEvent) true None.

(** docs/tutorial/soil_tutorial.ipynb:591-593, 980-984 and 1293-1307: a model in which agent [g] is the generator and the others are viewers, with
    these televisions, neighbours, probabilities and draws. *)
Definition studio (g : aid) (tv : aid -> bool) (nbrs : aid -> list aid) (p_tv p : Q) (draws : nat -> Q) : fworld bfun brest :=
  FWorld (fun a => if Nat.eqb a g then new_generator else new_viewer)
    (BRest tv nbrs (fun _ => false) p_tv p draws).
