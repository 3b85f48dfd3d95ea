(** Model of examples/terrorism/TerroristNetworkModel_sim.py, as code for the agents of FsmModel.  Beliefs and
    vulnerabilities are exact fractions here, not floats. *)
From Coq Require Import ZArith QArith List Bool Arith String.
From Verif Require Import Num PyDict TimedModel AgentModel FsmModel.
Import ListNotations.
Local Open Scope string_scope.

(** The state functions, and that of [FSM.dead] (soil/agents/fsm.py:173-175). *)
Inductive tfun := FCivil | FLeader | FTerrorist | FNetTerrorist | FNetLeader | FTraining | FHavenCivil | FHavenTerrorist | FDead.

(** examples/terrorism/TerroristNetworkModel_sim.py:77-79, 101-102 and 110-111; 183-185; 217-219 and 231-232;
    258-259 and 263-264: the decorated states. *)
Definition civilian : state tfun := State FCivil "civilian" true.
Definition leader : state tfun := State FLeader "leader" false.
Definition terrorist : state tfun := State FTerrorist "terrorist" false.
Definition training : state tfun := State FTraining "terrorist" true.
Definition haven_civilian : state tfun := State FHavenCivil "civilian" true.
Definition haven_terrorist : state tfun := State FHavenTerrorist "terrorist" false.
Definition net_terrorist : state tfun := State FNetTerrorist "terrorist" false.
Definition net_leader : state tfun := State FNetLeader "leader" false.

(** examples/terrorism/TerroristNetworkModel_sim.py:46-163, 241-312, 166-190 and 193-238: the classes.  (Their other
    base, Geo, has no states.) *)
Definition spread_class : cls (option (state tfun)) :=
  Cls 1 [fsm_class FDead] [None; None; None; None; None; Some civilian; Some leader; Some terrorist; None; None; None].
Definition network_class : cls (option (state tfun)) :=
  Cls 2 [spread_class] [None; None; None; None; Some net_terrorist; Some net_leader; None; None; None].
Definition training_class : cls (option (state tfun)) := Cls 3 [fsm_class FDead] [None; None; None; Some training].
Definition haven_class : cls (option (state tfun)) :=
  Cls 4 [fsm_class FDead] [None; None; None; None; None; Some haven_civilian; Some haven_terrorist].
Inductive akind := ASpread | ANetwork | ATraining | AHaven.
Definition class_of (k : akind) : cls (option (state tfun)) :=
  match k with ASpread => spread_class | ANetwork => network_class | ATraining => training_class | AHaven => haven_class end.
(** [isinstance(agent, TerroristSpreadModel)]. *)
Definition is_spread (k : akind) : bool := match k with ASpread | ANetwork => true | _ => false end.

(** The network, as pairs of agents: the node of an agent has its id. *)
Definition graph : Type := list (aid * aid).
Definition adjacent (g : graph) (a b : aid) : bool :=
  existsb (fun e => (Nat.eqb (fst e) a && Nat.eqb (snd e) b) || (Nat.eqb (fst e) b && Nat.eqb (snd e) a)) g.

(** The rest of the world: the network, the attributes [mean_belief] and [vulnerability], the draws of the random
    generator to come, and the attributes [_degree], [_betweenness] (the network that they were computed for) and
    [_last_step] of the model, if there. *)
Record trest := TRest {
  te_edges : graph;
  te_belief : aid -> Q;
  te_vuln : aid -> Q;
  te_draws : nat -> Q;
  te_degree : option graph;
  te_between : option graph;
  te_last : option num }.
Notation tworld := (fworld tfun trest).
Definition put {V} (f : aid -> V) (a : aid) (v : V) : aid -> V := fun b => if Nat.eqb b a then v else f b.
Definition set_edges (r : trest) (g : graph) : trest :=
  TRest g (te_belief r) (te_vuln r) (te_draws r) (te_degree r) (te_between r) (te_last r).
Definition set_belief (r : trest) (a : aid) (b : Q) : trest :=
  TRest (te_edges r) (put (te_belief r) a b) (te_vuln r) (te_draws r) (te_degree r) (te_between r) (te_last r).
Definition set_vuln (r : trest) (a : aid) (v : Q) : trest :=
  TRest (te_edges r) (te_belief r) (put (te_vuln r) a v) (te_draws r) (te_degree r) (te_between r) (te_last r).
Definition set_draws (r : trest) (d : nat -> Q) : trest :=
  TRest (te_edges r) (te_belief r) (te_vuln r) d (te_degree r) (te_between r) (te_last r).
(** [random.random()]. *)
Definition draw (r : trest) : Q * trest := (te_draws r 0, set_draws r (fun n => te_draws r (S n))).

Definition Qltb (x y : Q) : bool := negb (Qle_bool y x).

(** The attributes of the classes: examples/terrorism/TerroristNetworkModel_sim.py:58-61, 176-177, 205-207 and
    253-256 (classes of users may have other values). *)
Record attrs := Attrs {
  intensity : Q; additional : Q; spread_min : Q; spread_max : Q;
  train_influence : Q; train_min : Q;
  haven_influence : Q; haven_min : Q; haven_max : Q;
  weight_social : Q; weight_link : Q }.

(** What else is needed of a model: the attributes of the classes, [prob_interaction] of the model, the class of each
    agent, and the number of nodes. *)
Record config := Config {
  cf_attrs : attrs; cf_interaction : Q; cf_kind : aid -> akind; cf_nodes : nat }.
(** Functions that are not modelled: [x ** y], [nx.betweenness_centrality], [geo_search] (see GeoModel) and [ego_search]
    (None for an exception), [nx.shortest_path_length] (None: there is no path), and [get_distance] (None: a KeyError). *)
Record library := Library {
  l_pow : Q -> Q -> Q;
  l_centrality : graph -> aid -> Q;
  l_geo_search : trest -> aid -> option (list aid);
  l_ego_search : trest -> aid -> option (list aid);
  l_path_length : graph -> aid -> aid -> option nat;
  l_distance : aid -> aid -> option Q }.

Section Terror.
Variable cf : config.
Variable lib : library.
Notation att := (cf_attrs cf).
Notation prob_interaction := (cf_interaction cf).
Notation kind_of := (cf_kind cf).
Notation nodes := (cf_nodes cf).
Notation pow := (l_pow lib).
Notation centrality := (l_centrality lib).
Notation geo_search := (l_geo_search lib).
Notation ego_search := (l_ego_search lib).
Notation path_length := (l_path_length lib).
Notation get_distance := (l_distance lib).

(** [get_neighbors] of soil/agents/network_agents.py:31-32 with conditions. *)
Definition neighbors (s : sched) (r : trest) (a : aid) (p : aid -> bool) : list aid :=
  filter (fun b => adjacent (te_edges r) a b && p b) (s_reg s).
Definition a_spread (b : aid) : bool := is_spread (kind_of b).
(** [agent.state_id in (...)]. *)
Definition state_in (w : tworld) (names : list string) (b : aid) : bool :=
  match fa_cur (fw_agents w b) with Some st => existsb (String.eqb (st_name st)) names | None => false end.

(** [nx.degree_centrality]. *)
Definition ends (g : graph) (a : aid) : nat :=
  fold_right (fun e n => (if Nat.eqb (fst e) a then 1 else 0) + (if Nat.eqb (snd e) a then 1 else 0) + n)%nat 0%nat g.
Definition degree_centrality (g : graph) (a : aid) : Q :=
  if (nodes <=? 1)%nat then 1 else inject_Z (Z.of_nat (ends g a)) / inject_Z (Z.of_nat (nodes - 1)).
(** examples/terrorism/TerroristNetworkModel_sim.py:146-150 and 156-160: whether to compute it again. *)
Definition outdated (force : bool) (now : num) (r : trest) (cache : option graph) : bool :=
  force || match cache with None => true | Some _ => false end ||
  n_ltb (match te_last r with Some t => t | None => Fin 0 end) now.
(** examples/terrorism/TerroristNetworkModel_sim.py:145-153.  (All agents have been there from the start: their
    nodes are in the cache.) *)
Definition degree (force : bool) (now : num) (r : trest) (a : aid) : trest * Q :=
  let r' := if outdated force now r (te_degree r)
            then TRest (te_edges r) (te_belief r) (te_vuln r) (te_draws r) (Some (te_edges r)) (te_between r) (Some now)
            else r in
  (r', match te_degree r' with Some g => degree_centrality g a | None => 0 end).
(** examples/terrorism/TerroristNetworkModel_sim.py:155-163. *)
Definition betweenness (force : bool) (now : num) (r : trest) (a : aid) : trest * Q :=
  let r' := if outdated force now r (te_between r)
            then TRest (te_edges r) (te_belief r) (te_vuln r) (te_draws r) (te_degree r) (Some (te_edges r)) (Some now)
            else r in
  (r', match te_between r' with Some g => centrality g a | None => 0 end).

(** [sum(self.degree(i) for i in l)]. *)
Fixpoint total_degree (now : num) (l : list aid) (r : trest) : trest * Q :=
  match l with
  | [] => (r, 0)
  | i :: l' =>
      let '(r1, d) := degree false now r i in
      let '(r2, t) := total_degree now l' r1 in (r2, d + t)
  end.
(** [sum(i.mean_belief * self.degree(i) / influence for i in l)]; None for a ZeroDivisionError. *)
Fixpoint weighted (now : num) (influence : Q) (l : list aid) (r : trest) : trest * option Q :=
  match l with
  | [] => (r, Some 0)
  | i :: l' =>
      let '(r1, d) := degree false now r i in
      if Qeq_bool influence 0 then (r1, None)
      else
        match weighted now influence l' r1 with
        | (r2, Some t) => (r2, Some (te_belief r1 i * d / influence + t))
        | (r2, None) => (r2, None)
        end
  end.
(** examples/terrorism/TerroristNetworkModel_sim.py:83-85. *)
Fixpoint choose (l : list aid) (r : trest) : list aid * trest :=
  match l with
  | [] => ([], r)
  | i :: l' =>
      let '(d, r1) := draw r in
      let '(k, r2) := choose l' r1 in
      (if Qle_bool d prob_interaction then i :: k else k, r2)
  end.

Notation out := (trest * list (fop tfun) * gout unit (pyval tfun))%type.
(** [return self.name]: the state of that name of its class. *)
Definition goto (w : tworld) (a : aid) (name : string) (r : trest) : out :=
  match fa_kind (fw_agents w a) with
  | KFsm states => match dget name states with Some st => (r, [], GReturn (PState st)) | None => (r, [], GRaise false) end
  | KPlain _ => (r, [], GRaise false)
  end.

(** examples/terrorism/TerroristNetworkModel_sim.py:90-96: the belief of a civilian that is influenced. *)
Definition influenced (r : trest) (a : aid) (mean : Q) : Q :=
  let own := te_belief r a in
  let m := mean * intensity att + own * (1 - intensity att) in
  m * te_vuln r a + own * (1 - te_vuln r a).
(** examples/terrorism/TerroristNetworkModel_sim.py:98-99. *)
Definition radicalised (w : tworld) (a : aid) (r : trest) : out :=
  if Qle_bool (4 # 5) (te_belief r a) then goto w a "terrorist" r else (r, [], GReturn PNone).
(** examples/terrorism/TerroristNetworkModel_sim.py:77-99. *)
Definition civilian_fn (s : sched) (a : aid) (w : tworld) : out :=
  let r := fw_rest w in
  match neighbors s r a a_spread with
  | [] => radicalised w a r
  | l =>
      let '(interactions, r1) := choose l r in
      let '(r2, influence) := total_degree (s_time s) interactions r1 in
      match weighted (s_time s) influence interactions r2 with
      | (r3, None) => (r3, [], GRaise false)
      | (r3, Some mean) => radicalised w a (set_belief r3 a (influenced r3 a mean))
      end
  end.

(** Whether one of these has more betweenness, as far as it is looked for. *)
Fixpoint above (now : num) (a : aid) (l : list aid) (r : trest) : trest * bool :=
  match l with
  | [] => (r, false)
  | n :: l' =>
      let '(r1, x) := betweenness false now r n in
      let '(r2, y) := betweenness false now r1 a in
      if Qltb y x then (r2, true) else above now a l' r2
  end.
(** examples/terrorism/TerroristNetworkModel_sim.py:101-108. *)
Definition leader_fn (s : sched) (a : aid) (w : tworld) : out :=
  let r := fw_rest w in
  let r1 := set_belief r a (pow (te_belief r a) (1 - additional att)) in
  match above (s_time s) a (neighbors s r1 a (state_in w ["terrorist"; "leader"])) r1 with
  | (r2, true) => goto w a "terrorist" r2
  | (r2, false) => (r2, [], GReturn PNone)
  end.
(** examples/terrorism/TerroristNetworkModel_sim.py:134-136, which asks in the other order. *)
Fixpoint above' (now : num) (a : aid) (l : list aid) (r : trest) : trest * bool :=
  match l with
  | [] => (r, false)
  | n :: l' =>
      let '(r1, y) := betweenness false now r a in
      let '(r2, x) := betweenness false now r1 n in
      if Qltb y x then (r2, true) else above' now a l' r2
  end.
(** examples/terrorism/TerroristNetworkModel_sim.py:110-137.  The [mean_belief] of lines 119-124 is not used. *)
Definition terrorist_fn (s : sched) (a : aid) (w : tworld) : out :=
  let r := fw_rest w in
  let l := neighbors s r a (fun b => state_in w ["terrorist"; "leader"] b && a_spread b) in
  let r3 :=
    match l with
    | [] => (r, true)
    | _ =>
        let '(r1, influence) := total_degree (s_time s) l r in
        match weighted (s_time s) influence l r1 with
        | (r2, None) => (r2, false)
        | (r2, Some _) => (set_belief r2 a (pow (te_belief r2 a) (1 - additional att)), true)
        end
    end in
  match r3 with
  | (r2, false) => (r2, [], GRaise false)
  | (r2, true) =>
      match filter (state_in w ["leader"]) l with
      | _ :: _ => (r2, [], GReturn PNone)
      | [] =>
          match above' (s_time s) a l r2 with
          | (r4, true) => (r4, [], GReturn PNone)
          | (r4, false) => goto w a "leader" r4
          end
      end
  end.

(** examples/terrorism/TerroristNetworkModel_sim.py:287-299, the loop.  False: it raised. *)
Fixpoint new_relationship (w : tworld) (a : aid) (l : list aid) (r : trest) : trest * bool :=
  match l with
  | [] => (r, true)
  | b :: l' =>
      match path_length (te_edges r) a b with
      | Some 0%nat => (r, false)
      | p =>
          let social := match p with Some n => 1 / inject_Z (Z.of_nat n) | None => 0 end in
          match get_distance a b with
          | None => (r, false)
          | Some d =>
              let prob := weight_social att * social + weight_link att * (1 - d) in
              if state_in w ["civilian"] b then
                let '(x, r1) := draw r in
                if Qltb x prob
                then (set_edges r1 (if adjacent (te_edges r1) a b then te_edges r1 else (a, b) :: te_edges r1), true)
                else new_relationship w a l' r1
              else new_relationship w a l' r
          end
      end
  end.
(** examples/terrorism/TerroristNetworkModel_sim.py:268-299.  [get_agents(search)] gives all agents, because
    soil/agents/network_agents.py:42 does away with the ids. *)
Definition update_relationships (s : sched) (a : aid) (w : tworld) : trest * bool :=
  let r := fw_rest w in
  match neighbors s r a (state_in w ["civilian"]) with
  | _ :: _ => (r, true)
  | [] =>
      match geo_search r a, ego_search r a with
      | Some close_ups, Some step_neighbours => new_relationship w a (s_reg s) r
      | _, _ => (r, false)
      end
  end.
(** examples/terrorism/TerroristNetworkModel_sim.py:258-266: [super().terrorist] and [super().leader] are states, and
    calling them is an exception (soil/agents/fsm.py:32-33). *)
Definition network_fn (s : sched) (a : aid) (w : tworld) : out := (fst (update_relationships s a w), [], GRaise false).

(** examples/terrorism/TerroristNetworkModel_sim.py:183-190. *)
Definition training_fn (s : sched) (a : aid) (w : tworld) : out :=
  let r := fw_rest w in
  (fold_left (fun r b => if Qltb (train_min att) (te_vuln r b)
                         then set_vuln r b (pow (te_vuln r b) (1 - train_influence att)) else r)
     (neighbors s r a a_spread) r, [], GReturn PNone).
(** examples/terrorism/TerroristNetworkModel_sim.py:213-229. *)
Definition haven_civilian_fn (s : sched) (a : aid) (w : tworld) : out :=
  let r := fw_rest w in
  match neighbors s r a (fun b => state_in w ["civilian"] b && a_spread b) with
  | [] => goto w a "terrorist" r
  | _ =>
      goto w a "civilian"
        (fold_left (fun r b => if Qltb (haven_min att) (te_vuln r b)
                               then set_vuln r b (te_vuln r b * (1 - haven_influence att)) else r)
           (neighbors s r a a_spread) r)
  end.
(** examples/terrorism/TerroristNetworkModel_sim.py:231-238. *)
Definition haven_terrorist_fn (s : sched) (a : aid) (w : tworld) : out :=
  let r := fw_rest w in
  goto w a "terrorist"
    (fold_left (fun r b => if Qltb (te_vuln r b) (haven_max att)
                           then set_vuln r b (pow (te_vuln r b) (1 - haven_influence att)) else r)
       (neighbors s r a a_spread) r).

(** All of it. *)
Definition terror_code : code tfun tfun trest :=
  Code (fun f => f)
    (fun s a f w =>
       let '(r, ops, g) :=
         match f with
         | FCivil => civilian_fn s a w
         | FLeader => leader_fn s a w
         | FTerrorist => terrorist_fn s a w
         | FNetTerrorist | FNetLeader => network_fn s a w
         | FTraining => training_fn s a w
         | FHavenCivil => haven_civilian_fn s a w
         | FHavenTerrorist => haven_terrorist_fn s a w
         | FDead => (fw_rest w, [], GReturn (PNum PInf))
         end in
       (r, ops, match g with GYield v _ => GYield v f | GReturn v => GReturn v | GRaise d => GRaise d end)).
(** The agents and the scheduler.  No state function returns a string. *)
Definition terror_user (shuffle : list aid -> trest -> trest * list aid) : user (tworld * cors (frame tfun)) :=
  agent_user terror_code (fun _ => None) shuffle.

(** [random.uniform(x, y)], of a draw. *)
Definition uniform (x y d : Q) : Q := x + (y - x) * d.
(** examples/terrorism/TerroristNetworkModel_sim.py:63-71: the belief at the start. *)
Definition first_belief (state_id : string) (d : Q) : option Q :=
  if String.eqb state_id "civilian" then Some (uniform 0 (1 # 2) d)
  else if String.eqb state_id "terrorist" then Some (uniform (4 # 5) 1 d)
  else if String.eqb state_id "leader" then Some 1
  else None.
(** examples/terrorism/TerroristNetworkModel_sim.py:63-75, 179-181 and 209-211: the belief and the vulnerability of a new
    agent.  (Training areas and havens get a [mean_believe], which nothing reads.) *)
Definition new_belief (k : akind) (state_id : string) (d : Q) : Q :=
  if is_spread k then match first_belief state_id d with Some b => b | None => 0 end else 0.
Definition new_vuln (k : akind) (d : Q) : Q := if is_spread k then uniform (spread_min att) (spread_max att) d else 0.
(** Creation of an agent: soil/agents/fsm.py:114-122. *)
Definition new_agent (k : akind) (state_id : option string) : fagent tfun :=
  FAgent (KFsm (fst (meta (class_of k)))) true
    (match fsm_init (class_of k) (match state_id with Some x => PStr x | None => PNone end) with Some cur => cur | None => None end).
Definition name_of (x : fagent tfun) : string := match fa_cur x with Some st => st_name st | None => "" end.
(** A society: the states that were asked for, the network, and the draws of [init] and of later. *)
Definition society (state_ids : aid -> option string) (g : graph) (d1 d2 : aid -> Q) (draws : nat -> Q) : tworld :=
  FWorld (fun a => new_agent (kind_of a) (state_ids a))
    (TRest g (fun a => new_belief (kind_of a) (name_of (new_agent (kind_of a) (state_ids a))) (d1 a))
       (fun a => new_vuln (kind_of a) (d2 a)) draws None None None).
(** The model, after so many steps. *)
Definition society_run {AR : Arith} (shuffle : list aid -> trest -> trest * list aid) (ordered : bool) (di : num)
    (state_ids : aid -> option string) (g : graph) (d1 d2 : aid -> Q) (draws : nat -> Q) (steps : nat)
  : sched * (tworld * cors (frame tfun)) * list ev :=
  run_hist (terror_user shuffle) (map (fun a => CAdd a None) (seq 0 nodes) ++ repeat CStep steps)%list
    (timed_init (negb ordered) di) (society state_ids g d1 d2 draws, no_cors).
End Terror.

(** soil/agents/__init__.py:215-222 [get]: the attribute of the agent or of its class, or that of the model. *)
Definition agent_get {V} (own model : string -> option V) (key : string) (default : V) : V :=
  match own key with
  | Some v => v
  | None => match model key with Some v => v | None => default end
  end.
(** examples/terrorism/TerroristNetworkModel_sim.py:58-61: the attributes of the class TerroristSpreadModel. *)
Definition spread_attrs (key : string) : option Q :=
  dget key [("information_spread_intensity", 1 # 10); ("terrorist_additional_influence", 1 # 10);
            ("min_vulnerability", 0); ("max_vulnerability", 1)]%Q.
