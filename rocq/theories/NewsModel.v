(** Model of the viewers of examples/newsspread/newsspread_sim.py, as code for the state machines
    of FsmModel. *)
From Coq Require Import ZArith List Bool Arith String.
From Verif Require Import Num PyDict TimedModel AgentModel FsmModel.
Import ListNotations.
Local Open Scope string_scope.

(** The state functions of the three classes, and the function of [dead]
    (soil/agents/fsm.py:173-175). *)
Inductive nfun := NNeutral | NInfected | NInfectedWise | NCured | NDead.

(** examples/newsspread/newsspread_sim.py:17-19, 26-27, 61-62 and 74-75: the decorated states. *)
Definition neutral : state nfun := State NNeutral "neutral" true.
Definition infected : state nfun := State NInfected "infected" false.
Definition infected_wise : state nfun := State NInfectedWise "infected" false.
Definition cured : state nfun := State NCured "cured" false.

(** examples/newsspread/newsspread_sim.py:8-30, 41-53 and 56-82: the classes. *)
Inductive viewer := Dumb | Herd | Wise.
Definition dumb_class : cls (option (state nfun)) :=
  Cls 1 [fsm_class NDead] [None; None; Some neutral; Some infected; None].
Definition herd_class : cls (option (state nfun)) := Cls 2 [dumb_class] [None].
Definition wise_class : cls (option (state nfun)) := Cls 3 [herd_class] [Some cured; None; Some infected_wise].
Definition class_of (v : viewer) : cls (option (state nfun)) :=
  match v with Dumb => dumb_class | Herd => herd_class | Wise => wise_class end.
(** The attribute [infected] of a viewer. *)
Definition own_infected (v : viewer) : state nfun :=
  match v with Wise => infected_wise | _ => infected end.

(** A parameter of the environment: a number, or a tuple (as the defaults of
    examples/newsspread/newsspread_sim.py:86-91 are, because of the comma at the end). *)
Inductive param := PNumber (p : num) | PTupleOf (p : num).

(** The rest of the world: the class, the television and the neighbours of each viewer, its
    attributes [has_been_infected] and [has_been_cured] (None: there is no such attribute), the
    parameters, and the draws of the random generator to come. *)
Record nrest := NRest {
  nr_class : aid -> viewer;
  nr_tv : aid -> bool;
  nr_nbrs : aid -> list aid;
  nr_hit : aid -> bool;
  nr_cure : aid -> option bool;
  nr_tv_spread : param;
  nr_spread : param;
  nr_prob_cure : param;
  nr_draws : nat -> num }.
Definition set_hit (r : nrest) (a : aid) : nrest :=
  NRest (nr_class r) (nr_tv r) (nr_nbrs r) (fun b => if Nat.eqb b a then true else nr_hit r b) (nr_cure r)
    (nr_tv_spread r) (nr_spread r) (nr_prob_cure r) (nr_draws r).
Definition set_cured (r : nrest) (a : aid) : nrest :=
  NRest (nr_class r) (nr_tv r) (nr_nbrs r) (nr_hit r) (fun b => if Nat.eqb b a then Some true else nr_cure r b)
    (nr_tv_spread r) (nr_spread r) (nr_prob_cure r) (nr_draws r).
(** [self.prob(p)]: draws a number. *)
Definition roll (p : num) (r : nrest) : bool * nrest :=
  (prob (nr_draws r 0) p,
   NRest (nr_class r) (nr_tv r) (nr_nbrs r) (nr_hit r) (nr_cure r)
     (nr_tv_spread r) (nr_spread r) (nr_prob_cure r) (fun n => nr_draws r (S n))).

Section News.
(** [p * n / m] for integers, and [p * (max(n, 1.0) / max(m, 1.0))]. *)
Variable share : num -> nat -> nat -> num.
Variable cure_prob : num -> nat -> nat -> num.

Notation nworld := (fworld nfun nrest).

(** soil/agents/network_agents.py:26-33: the neighbours in the state of that name.  Their states
    do not change while they are visited. *)
Definition neighbours_in (name : string) (ag : aid -> fagent nfun) (r : nrest) (a : aid) : list aid :=
  filter (fun b => match fa_cur (ag b) with Some st => String.eqb (st_name st) name | None => false end)
    (nr_nbrs r a).

(** examples/newsspread/newsspread_sim.py:32-38 and 46-53 [infect].  With false there is an
    exception: ZeroDivisionError, or the TypeError of a tuple. *)
Definition infect (ag : aid -> fagent nfun) (b : aid) (r : nrest) : nrest * bool :=
  match nr_class r b with
  | Dumb => (set_hit r b, true)
  | _ =>
      match nr_spread r with
      | PTupleOf _ => (r, false)
      | PNumber p =>
          let n := List.length (neighbours_in "infected" ag r b) in
          let total := List.length (nr_nbrs r b) in
          if Nat.eqb total 0 then (r, false)
          else let '(yes, r1) := roll (share p n total) r in
               (if yes then set_hit r1 b else r1, true)
      end
  end.
(** examples/newsspread/newsspread_sim.py:28-30: the loop.  [prob] of a tuple draws and raises
    TypeError. *)
Fixpoint spread (ag : aid -> fagent nfun) (l : list aid) (r : nrest) : nrest * bool :=
  match l with
  | [] => (r, true)
  | b :: l' =>
      match nr_spread r with
      | PTupleOf p => (snd (roll p r), false)
      | PNumber p =>
          let '(yes, r1) := roll p r in
          if yes then
            let '(r2, fine) := infect ag b r1 in if fine then spread ag l' r2 else (r2, false)
          else spread ag l' r1
      end
  end.

(** examples/newsspread/newsspread_sim.py:17-24. *)
Definition neutral_fn (a : aid) (r : nrest) : nrest * gout nfun (pyval nfun) :=
  let self_infected := GReturn (PState (own_infected (nr_class r a))) in
  let rest (r : nrest) := (r, if nr_hit r a then self_infected else GReturn PNone) in
  if nr_tv r a then
    match nr_tv_spread r with
    | PTupleOf p => (snd (roll p r), GRaise false)
    | PNumber p =>
        let '(yes, r1) := roll p r in
        if yes then (r1, self_infected) else rest r1
    end
  else rest r.
(** examples/newsspread/newsspread_sim.py:26-30. *)
Definition infected_fn (ag : aid -> fagent nfun) (a : aid) (r : nrest) : nrest * gout nfun (pyval nfun) :=
  let '(r1, fine) := spread ag (neighbours_in "neutral" ag r a) r in
  (r1, if fine then GReturn PNone else GRaise false).
(** examples/newsspread/newsspread_sim.py:64-69: the loop.  Viewers without [cure] are skipped. *)
Fixpoint heal (l : list aid) (r : nrest) : nrest * bool :=
  match l with
  | [] => (r, true)
  | b :: l' =>
      match nr_prob_cure r with
      | PTupleOf p => (snd (roll p r), false)
      | PNumber p =>
          let '(yes, r1) := roll p r in
          heal l' (if yes then match nr_class r1 b with Wise => set_cured r1 b | _ => r1 end else r1)
      end
  end.
(** examples/newsspread/newsspread_sim.py:61-69. *)
Definition cured_fn (ag : aid -> fagent nfun) (a : aid) (r : nrest) : nrest * gout nfun (pyval nfun) :=
  let '(r1, fine) := heal (neighbours_in "infected" ag r a) r in
  (r1, if fine then GReturn PNone else GRaise false).
(** examples/newsspread/newsspread_sim.py:74-82.  Line 76 raises AttributeError if there is no
    attribute [has_been_cured]. *)
Definition infected_wise_fn (ag : aid -> fagent nfun) (a : aid) (r : nrest) : nrest * gout nfun (pyval nfun) :=
  match nr_cure r a with
  | None => (r, GRaise false)
  | Some true => (r, GReturn (PState cured))
  | Some false =>
      match nr_prob_cure r with
      | PTupleOf _ => (r, GRaise false)
      | PNumber p =>
          let n := List.length (neighbours_in "cured" ag r a) in
          let m := List.length (neighbours_in "infected" ag r a) in
          let '(yes, r1) := roll (cure_prob p n m) r in
          (r1, if yes then GReturn (PState cured) else GReturn PNone)
      end
  end.

(** All of it.  Logging is left out. *)
Definition news_code : code nfun nfun nrest :=
  Code (fun f => f)
    (fun s a f w =>
       let r := fw_rest w in let ag := fw_agents w in
       let '(r1, g) := match f with
                       | NNeutral => neutral_fn a r
                       | NInfected => infected_fn ag a r
                       | NInfectedWise => infected_wise_fn ag a r
                       | NCured => cured_fn ag a r
                       | NDead => (r, GReturn (PNum PInf))
                       end in
       (r1, [], g)).

(** The viewers and the scheduler.  No state function returns a string. *)
Definition news_user (shuffle : list aid -> nrest -> nrest * list aid)
  : user (nworld * cors (frame nfun)) := agent_user news_code (fun _ => None) shuffle.
End News.

(** Creation of a viewer: soil/agents/fsm.py:114-122, with no state given. *)
Definition new_viewer (v : viewer) : fagent nfun :=
  FAgent (KFsm (fst (meta (class_of v)))) true
    (match fsm_init (class_of v) PNone with Some cur => cur | None => None end).

(** examples/newsspread/newsspread_sim.py:85-95 [NewsSpread]: the attributes of the class, as
    amounts of hundredths. *)
Definition news_defaults : dict string param :=
  [("ratio_dumb", PTupleOf (Fin 100)); ("ratio_herd", PTupleOf (Fin 0)); ("ratio_wise", PTupleOf (Fin 0));
   ("prob_tv_spread", PTupleOf (Fin 10)); ("prob_neighbor_spread", PTupleOf (Fin 10));
   ("prob_neighbor_cure", PTupleOf (Fin 5))].
(** What a model created with some parameters has: soil/environment.py:103-104. *)
Definition news_param (given : dict string param) (k : string) : option param :=
  match dget k given with Some p => Some p | None => dget k news_defaults end.
(** [random.choices(classes, weights, k=...)] in soil/environment.py:398, as far as it raises:
    TypeError for weights that are no numbers, ValueError if their sum is not positive. *)
Definition weights_ok (plus : num -> num -> num) (l : list (option param)) : bool :=
  forallb (fun p => match p with Some (PNumber _) => true | _ => false end) l &&
  n_ltb (Fin 0) (fold_left (fun acc p => match p with Some (PNumber x) => plus acc x | _ => acc end) l (Fin 0)).
(** examples/newsspread/newsspread_sim.py:93-95 [init]: whether the network can be populated. *)
Definition news_init (plus : num -> num -> num) (given : dict string param) : bool :=
  weights_ok plus (map (news_param given) ["ratio_dumb"; "ratio_herd"; "ratio_wise"]).
