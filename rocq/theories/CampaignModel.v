(** Model of the experiment of examples/newsspread/newsspread_sim.py:98-131, and of the choice of a class for each node in
    soil/environment.py:398. *)
From Coq Require Import ZArith List Bool Arith String.
From Verif Require Import Num PyDict TimedModel AgentModel FsmModel NewsModel.
Import ListNotations.
Local Open Scope string_scope.

(** [random.choices(classes, weights, k=...)] in soil/environment.py:398, for one draw [k / n] of [random()]: the weights are added up
    ([itertools.accumulate]), and [bisect] looks for [random() * total] among all the sums but the last.  Weights are integers in some unit, and
    there is no rounding. *)
Fixpoint accumulate (acc : Z) (l : list Z) : list Z :=
  match l with [] => [] | x :: l => (acc + x)%Z :: accumulate (acc + x) l end.
(** [bisect.bisect]: [less i] tells whether the value is less than that at [i]. *)
Fixpoint bisect (less : nat -> bool) (fuel lo hi : nat) : nat :=
  match fuel with
  | O => lo
  | S fuel =>
      if Nat.ltb lo hi then
        let mid := (lo + hi) / 2 in
        if less mid then bisect less fuel lo mid else bisect less fuel (S mid) hi
      else lo
  end.
(** soil/environment.py:398, one choice. *)
Definition choice (weights : list Z) (k n : Z) : nat :=
  let cum := accumulate 0%Z weights in
  let total := last cum 0%Z in
  bisect (fun i => Z.ltb (k * total) (nth i cum 0%Z * n)) (List.length cum) 0 (List.length cum - 1).

(** Lines 108-112: the ratios, in hundredths, and the networks with their parameters. *)
Definition levels : list Z := [0; 50; 100]%Z.
Definition networks : list (string * (string * Z)) := [("barabasi_albert_graph", ("m", 500%Z)); ("erdos_renyi_graph", ("p", 10%Z))].
(** A simulation, lines 115-130: the parameters of its model (lines 119-126), its network and the number of nodes (line 115), [iterations] and
    [max_steps] (lines 127-128). *)
Record study := Study { st_given : dict string param; st_network : string * (string * Z); st_nodes : nat; st_iterations : nat; st_steps : nat }.
Definition study_of (r1 r2 : Z) (net : string * (string * Z)) : study :=
  Study [("ratio_dumb", PNumber (Fin r1)); ("ratio_herd", PNumber (Fin r2)); ("ratio_wise", PNumber (Fin (100 - r1 - r2)));
         ("prob_neighbor_spread", PNumber (Fin 0))] net 500 5 300.
(** Lines 108-131: the loops. *)
Definition campaign : list study :=
  flat_map (fun r1 => flat_map (fun r2 => map (study_of r1 r2) networks) levels) levels.

(** A ratio as a weight; [news_init] tells whether it is a number. *)
Definition weight_of (p : option param) : Z := match p with Some (PNumber (Fin z)) => z | _ => 0%Z end.
Definition weights (given : dict string param) : list Z :=
  map (fun k => weight_of (news_param given k)) ["ratio_dumb"; "ratio_herd"; "ratio_wise"].
(** examples/newsspread/newsspread_sim.py:93-95 with soil/environment.py:397-408: the class of the viewer of a node, for its draw. *)
Definition viewer_for (given : dict string param) (draw : Z * Z) : viewer :=
  nth (choice (weights given) (fst draw) (snd draw)) [Dumb; Herd; Wise] Dumb.
(** The model at the beginning: no viewer has a television (line 15) or is infected (line 14), whatever the network; [draws] are those of
    [random.choices], one for each node, and [rolls] the others. *)
Definition given_or (given : dict string param) (k : string) : param :=
  match news_param given k with Some p => p | None => PTupleOf (Fin 0) end.
Definition audience (given : dict string param) (nbrs : aid -> list aid) (draws : aid -> Z * Z) (rolls : nat -> num) : fworld nfun nrest :=
  FWorld (fun a => new_viewer (viewer_for given (draws a)))
    (NRest (fun a => viewer_for given (draws a)) (fun _ => false) nbrs (fun _ => false) (fun _ => None)
       (given_or given "prob_tv_spread") (given_or given "prob_neighbor_spread") (given_or given "prob_neighbor_cure") rolls).
