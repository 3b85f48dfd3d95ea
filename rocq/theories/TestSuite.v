(** The project's own tests, run on the model.

    Each [Example] below transcribes the program of one test of /repo/tests and states the
    assertions of that test about the model.  These are tests, on literals, and no part of what
    is claimed: their purpose is to check that the definitions of the model behave as the
    authors of the code say that the code does. *)
From Coq Require Import ZArith List Bool Arith String.
From Verif Require Import Num PyDict TimedModel AgentModel FsmModel EventModel QueryModel.
From Verif Require NetModel GeoModel CounterModel SimModel EasyModel SerialModel.
Import ListNotations.
Local Open Scope string_scope.
Local Open Scope list_scope.

Definition no_float (s : string) : option num := None.
(** The number of a tick: time is measured in units of 1. *)
Definition sec (z : Z) : num := Fin z.
(** [model.now], and the number that it is. *)
Definition clock (s : sched) : Z := match s_time s with Fin z => z | _ => (-1)%Z end.

Section Runner.
Context {F Q W : Type} (u : code F Q W) (shuffle : list aid -> W -> W * list aid).
Definition world : Type := (sched * (fworld F W * cors (frame Q)))%type.
(** One call of [model.step()]. *)
Definition one_step (x : world) : world :=
  let '(s, w, _, _) := timed_step (AR := exact) (agent_user u no_float shuffle) (fst x) (snd x) in (s, w).
(** One call of [agent.step()]: what it gives, and the world after it. *)
Definition agent_call (a : aid) (x : world) : outcome * world :=
  let '(w, c, ops, o) := agent_step u no_float (fst x) a (snd x) in
  (o, (fst (run_ops (fst x) ops), (w, c))).
(** A model whose agents were added in this order. *)
Definition fresh (ordered : bool) (l : list aid) (agents : aid -> fagent F) (r : W) : world :=
  (fold_left (fun s a => timed_add s a None) l (timed_init (negb ordered) (sec 1)), (FWorld agents r, no_cors)).
Definition rest (x : world) : W := fw_rest (fst (snd x)).
(** [a.state_id] *)
Definition state_id (a : aid) (x : world) : option string :=
  option_map (@st_name F) (fa_cur (fw_agents (fst (snd x)) a)).
Fixpoint steps (n : nat) (x : world) : world := match n with O => x | S n => steps n (one_step x) end.
End Runner.

(** The agent of a class of state machines, in its initial state. *)
Definition machine {F} (c : cls (option (state F))) : fagent F :=
  FAgent (KFsm (fst (meta c))) true (match fsm_init c PNone with Some cur => cur | None => None end).
Definition unshuffled {W} (l : list aid) (w : W) : W * list aid := (w, l).

(** * tests/test_time.py *)
Module Time.
(** 17-29 [CondAgent.step]: the four lists, and where the generator is. *)
Record lists := Lists { started : list Z; awakened : list Z; asleep : list Z; done : list Z }.
Definition loop (s : sched) (w : lists) : lists * list (fop unit) * gout bool (pyval unit) :=
  if (clock s <? 10)%Z then (w, [], GYield (PNum (sec 2)) true)
  else (Lists (started w) (awakened w ++ [clock s]) (asleep w) (done w ++ [clock s]), [], GReturn PNone).
Definition cond : code unit bool lists :=
  Code (fun _ => false) (fun s _ q w => let w := fw_rest w in
    if q then loop s w
    else loop s (Lists (started w ++ [clock s]) (awakened w) (asleep w ++ [clock s]) (done w))).
Definition env := fresh (Q := bool) false [0] (fun _ => FAgent (KPlain tt) true None) (Lists [] [] [] []).
Definition at_ n := steps cond unshuffled n env.

Example test_cond_env :
  clock (fst (at_ 6)) = 11%Z /\ started (rest (at_ 6)) = [0]%Z /\ awakened (rest (at_ 6)) = [10]%Z /\
  done (rest (at_ 6)) = [10]%Z /\ s_steps (fst (at_ 6)) = 6 /\
  map (fun n => clock (fst (at_ n))) (seq 0 8) = [0; 2; 4; 6; 8; 10; 11; 12]%Z /\
  clock (fst (at_ 8)) = 13%Z /\ started (rest (at_ 8)) = [0; 11; 12]%Z /\
  awakened (rest (at_ 8)) = [10; 11; 12]%Z /\ done (rest (at_ 8)) = [10; 11; 12]%Z /\ s_steps (fst (at_ 8)) = 8.
Proof. vm_compute. repeat split. Qed.
End Time.

(** * tests/test_agents.py *)
Module Agents.
(** 8-12 [Dead]; the function 1 is [only], 0 is that of [FSM.dead]. *)
Definition only : state nat := State 1 "only" true.
Definition Dead_ : cls (option (state nat)) := Cls 1 [fsm_class 0] [Some only].
Definition dies : code nat nat unit :=
  Code (fun f => f) (fun _ a _ _ => (tt, [FDie a], GReturn (PNum PInf))).
Definition d := fresh (Q := nat) false [] (fun _ => machine Dead_) tt.

Example test_die_returns_infinity : fst (agent_call dies 0 d) = Ret (Some PInf).
Proof. reflexivity. Qed.

Example test_die_raises_exception :
  fa_alive (fw_agents (fst (snd d)) 0) = true /\
  let d' := snd (agent_call dies 0 d) in
  fa_alive (fw_agents (fst (snd d')) 0) = false /\ fst (agent_call dies 0 d') = Dead.
Proof. vm_compute. repeat split. Qed.

(** 38-43 [Gen.step]: the state of the generator is the number of turns it has left. *)
Definition turn (i : nat) (w : nat) : nat * list (fop unit) * gout nat (pyval unit) :=
  match i with O => (w, [], GReturn PNone) | S i' => (w, [], GYield PNone i') end.
Definition gen : code unit (bool * nat) nat :=
  Code (fun _ => (false, 5)) (fun _ _ q w =>
    let w := if fst q then S (fw_rest w) else fw_rest w in
    let '(w, l, o) := turn (snd q) w in
    (w, l, match o with GYield v i => GYield v (true, i) | GReturn v => GReturn v | GRaise e => GRaise e end)).
Definition gens := fresh (Q := bool * nat) false [1] (fun _ => FAgent (KPlain tt) true None) 0.

Example test_agent_generator :
  map (fun i => rest (steps gen unshuffled (S i) gens)) (seq 0 5) = seq 0 5.
Proof. reflexivity. Qed.

(** 54-63 [MyAgent]; the two decorators are those of EasyModel. *)
Definition root : state nat := State 1 "original" true.
Definition other : state nat := State 2 "other" false.
Definition MyAgent : cls (option (state nat)) := Cls 1 [fsm_class 0] [Some root; Some other].
Definition my : code nat nat nat :=
  Code (fun f => f) (fun _ _ f w =>
    match f with
    | 1 => (fw_rest w, [], GReturn (PState other))
    | _ => (S (fw_rest w), [], GReturn PNone)
    end).
Definition mine := fresh (Q := nat) false [0] (fun _ => machine MyAgent) 0.

Example test_state_decorator :
  EasyModel.state_decorator (Some "original") true (EasyModel.DFun 1 "root" false) = Some (EasyModel.DState root) /\
  EasyModel.state_decorator None false (EasyModel.DFun 2 "other" false) = Some (EasyModel.DState other) /\
  let e := steps my unshuffled 1 mine in
  let e1 := snd (agent_call my 0 e) in
  let e2 := snd (agent_call my 0 e1) in
  rest e = 0 /\ rest e1 = 1 /\ state_id 0 e1 = Some (st_name other) /\ rest e2 = 2.
Proof. vm_compute. repeat split. Qed.

(** 81-95 [BCast].  The rest of the world is [pings_received] of each agent. *)
Definition pings : Type := eworld unit (aid -> nat).
Definition on_ping (now : num) (a : aid) (v : unit) (sender : option aid) (w : pings)
  : (aid -> nat) * list (sending unit) * option unit :=
  (fun b => if Nat.eqb b a then S (e_rest w b) else e_rest w b, [], Some tt).
Definition bcast : code unit bool pings :=
  Code (fun _ => false) (fun s a q w =>
    let w := fw_rest w in
    let w := if q then w else broadcast (AR := exact) (s_time s) (s_reg s) tt None None None w in
    let '(w, _, _) := process_messages (AR := exact) tt on_ping (s_time s) a w in
    (w, [], GYield PNone true)).
Definition ten := fresh (Q := bool) false (seq 0 10) (fun _ => FAgent (KPlain tt) true None)
  (EWorld (fun _ => Some []) (fun _ => 0) (fun _ => tt) 0 (fun _ : aid => 0)).
Definition pings_received (x : world (F := unit) (Q := bool) (W := pings)) := map (e_rest (rest x)) (s_reg (fst x)).
(** The agents are activated in any order: here one that is neither the order of creation nor its
    reverse.  The k-th to be activated has received k pings after the first step. *)
Definition some_order (l : list aid) (w : pings) : pings * list aid :=
  (w, if Nat.eqb (List.length l) 10 then [3; 9; 0; 1; 7; 5; 8; 2; 6; 4] else l).

Example test_broadcast :
  let e1 := steps bcast some_order 1 ten in
  let e2 := steps bcast some_order 2 ten in
  map (fun k => count_occ Nat.eq_dec (pings_received e1) k) (seq 1 10) = repeat 1 10 /\
  List.length (pings_received e1) = 10 /\ forallb (Nat.eqb 10) (pings_received e2) = true /\
  List.length (pings_received e2) = 10.
Proof. vm_compute. repeat split. Qed.

(** 125-151 [Ping]: the lists of times, and where the generator is: not started; in the loop of [ask] (line 137)
    with the ask and its deadline; in the loop of [received] (line 144) with its deadline.  A payload or answer is
    false for None and true for the strings. *)
Record ppl := Ppl { pi_ : list Z; po_ : list Z; re_ : nat }.
Definition evs : Type := eworld bool ppl.
Inductive ppoint := P0 | PAsk (k : nat) (deadline : num) | PRec (deadline : num).
Definition on_msg (now : num) (a : aid) (v : bool) (sender : option aid) (w : evs)
  : ppl * list (sending bool) * option bool :=
  let r := e_rest w in
  (Ppl (pi_ r) (po_ r ++ [match now with Fin z => z | _ => 0%Z end]) (re_ r), [], Some true).
Definition pout : Type := evs * list (fop unit) * gout ppoint (pyval unit).
Section Ping.
Variable s : sched.
Variable a : aid.
(** The whole body of the loop, from its three points.  The fuel bounds the turns in one activation. *)
Fixpoint at_top (fuel : nat) (w : evs) : pout :=
  match fuel with
  | O => (w, [], GRaise false)
  | S fuel =>
      let after_received w :=
        at_top fuel w in
      let check w :=
        let '(w, _, p) := process_messages (AR := exact) false on_msg (s_time s) a w in
        match p with
        | POk (_ :: _) => after_received w
        | POk [] => (w, [], GYield (PNum (sec 1)) (PRec (received_deadline (AR := exact) (s_time s) None (sec 60))))
        | _ => (w, [], GRaise false)
        end in
      let r := e_rest w in
      match po_ r, pi_ r with
      | [], _ :: _ => check w
      | _, _ =>
          let w := set_rest w (Ppl (pi_ r ++ [clock s]) (po_ r) (re_ r)) in
          let '(w, k, dl) := ask_start (AR := exact) false (s_time s) (1 - a) true None w in
          match ask_resume (fun b => b) (s_time s) k dl w with
          | AWait => (w, [], GYield (PNum (sec 1)) (PAsk k dl))
          | _ => (w, [], GRaise false)
          end
      end
  end.
Definition resume (q : ppoint) (w : evs) : pout :=
  match q with
  | P0 => at_top 5 w
  | PAsk k dl =>
      match ask_resume (fun b => b) (s_time s) k dl w with
      | AWait => (w, [], GYield (PNum (sec 1)) (PAsk k dl))
      | ATimedOut => (w, [], GRaise false)
      | AReturn _ =>
          let r := e_rest w in
          let w := set_rest w (Ppl (pi_ r) (po_ r) (S (re_ r))) in
          let '(w, _, p) := process_messages (AR := exact) false on_msg (s_time s) a w in
          match p with
          | POk (_ :: _) => at_top 5 w
          | POk [] => (w, [], GYield (PNum (sec 1)) (PRec (received_deadline (AR := exact) (s_time s) None (sec 60))))
          | _ => (w, [], GRaise false)
          end
      end
  | PRec dl =>
      let '(w, _, r) := received_resume (AR := exact) false on_msg (s_time s) a dl true w in
      match r with
      | RWait => (w, [], GYield (PNum (sec 1)) (PRec dl))
      | RInbox => at_top 5 w
      | _ => (w, [], GRaise false)
      end
  end.
End Ping.
Definition ping : code unit ppoint evs := Code (fun _ => P0) (fun s a q w => resume s a q (fw_rest w)).
Definition two := fresh (Q := ppoint) true [0; 1] (fun _ => FAgent (KPlain tt) true None)
  (EWorld (fun _ => Some []) (fun _ => 0) (fun _ => false) 0 (Ppl [] [] 0)).
Definition total (l : list Z) : Z := fold_right Z.add 0%Z l.

Example test_ask_messages :
  clock (fst two) = 0%Z /\
  forall i, In i (seq 0 5) ->
  let e := steps ping unshuffled (S i) two in
  let r := e_rest (rest e) in
  clock (fst e) = Z.of_nat (S i) /\ List.length (pi_ r) = 2 * S i /\ List.length (po_ r) = 2 * S i - 1 /\
  total (pi_ r) = (total (map Z.of_nat (seq 0 (S i))) * 2)%Z /\
  total (po_ r) = (total (map Z.of_nat (seq 0 (S i))) * 2)%Z.
Proof. split; [reflexivity|]. intros i I. cbn in I. repeat destruct I as [<-|I]; try destruct I; vm_compute; repeat split. Qed.

(** 169-179: agents are numbers, and so are their ids; the classes are 0 [BaseAgent], 1 [Evented] and
    2 [NetworkAgent]. *)
Definition is_a (a c : nat) : bool := match c with 0 => true | 1 => Nat.eqb a 1 | _ => false end.
Example test_agent_filter :
  let q c ids := filter_agents Nat.eqb (fun a : nat => a) (fun _ => 0) (fun _ _ => 0) is_a [0; 1]
                   (Criteria [] ids None (Some [c]) None None []) in
  List.length (q 0 None) = 2 /\ q 1 None = [1] /\ q 2 (Some (Many [0; 1])) = [].
Proof. vm_compute. repeat split. Qed.

(** 186-206 [TestAgent]: [self.two], [self.three.at(10)], and so on. *)
Definition st (f : nat) (name : string) : state nat := State f name (Nat.eqb f 1).
Definition TestAgent : cls (option (state nat)) :=
  Cls 1 [fsm_class 0] [Some (st 1 "one"); Some (st 2 "two"); Some (st 3 "three"); Some (st 4 "four"); Some (st 5 "five")].
Definition test : code nat (nat * bool) unit :=
  Code (fun f => (f, false)) (fun s _ q _ =>
    (tt, [], match q with
             | (1, _) => GReturn (PState (st 2 "two"))
             | (2, _) => GReturn (PTuple [PState (st 3 "three"); PNum (sec (10 - clock s))])
             | (3, _) => GReturn (PTuple [PState (st 4 "four"); PNum (sec 1)])
             | (4, false) => GYield (PNum (sec 2)) (4, true)
             | (4, true) => GReturn (PTuple [PState (st 5 "five"); PNum (sec 3)])
             | _ => GReturn (PNum (sec 1))
             end)).
Definition tested n := steps test unshuffled n (fresh (Q := nat * bool) false [0] (fun _ => machine TestAgent) tt).
(** 181-229, and 231-279: a coroutine that awaits a delay is a generator that yields it (soil/time.py:27-28). *)
Example test_agent_return_and_async :
  map (fun n => (state_id 0 (tested n), clock (fst (tested n)))) (seq 0 7) =
  [(Some "one", 0); (Some "two", 1); (Some "three", 10); (Some "four", 11); (Some "four", 13);
   (Some "five", 16); (Some "five", 17)]%Z.
Proof. reflexivity. Qed.

(** 286-308: [my_state] and [my_count]. *)
Definition manual : code unit unit (nat * nat) :=
  Code (fun _ => tt) (fun s _ _ w =>
    let '(state, count) := fw_rest w in
    match state with
    | 1 => ((2, count), [], GReturn PNone)
    | 2 => ((3, count), [], GReturn (PNum (sec (10 - clock s))))
    | 3 => ((4, 0), [], GReturn (PNum (sec 1)))
    | 4 => if Nat.eqb (S count) 1 then ((4, S count), [], GReturn (PNum (sec 2)))
           else ((5, S count), [], GReturn (PNum (sec 3)))
    | _ => ((state, count), [], GReturn (PNum (sec 1)))
    end).
Definition manually n := steps manual unshuffled n
  (fresh (Q := unit) false [0] (fun _ => FAgent (KPlain tt) true None) (1, 0)).
Example test_agent_return_step :
  map (fun n => (fst (rest (manually n)), clock (fst (manually n)))) (seq 0 7) =
  [(1%nat, 0); (2%nat, 1); (3%nat, 10); (4%nat, 11); (4%nat, 13); (5%nat, 16); (5%nat, 17)]%Z.
Proof. reflexivity. Qed.

(** 338-352: the number of awaits that were passed.  [self.delay()] is a delay of 1. *)
Definition awaits : code unit nat nat :=
  Code (fun _ => 0) (fun s _ q w =>
    match q with
    | 0 => (2, [], GYield (PNum (sec 1)) 1)
    | 1 => (3, [], GYield (PNum (sec (10 - clock s))) 2)
    | 2 => (4, [], GYield (PNum (sec 1)) 3)
    | 3 => (fw_rest w, [], GYield (PNum (sec 2)) 4)
    | 4 => (5, [], GYield (PNum (sec 3)) 5)
    | _ => (fw_rest w, [], GYield (PNum (sec 1)) 5)
    end).
Definition awaited n := steps awaits unshuffled n
  (fresh (Q := nat) false [0] (fun _ => FAgent (KPlain tt) true None) 1).
Example test_agent_return_step_async :
  map (fun n => (rest (awaited n), clock (fst (awaited n)))) (seq 0 7) =
  [(1%nat, 0); (2%nat, 1); (3%nat, 10); (4%nat, 11); (4%nat, 13); (5%nat, 16); (5%nat, 17)]%Z.
Proof. reflexivity. Qed.
End Agents.

(** * tests/test_network.py *)
Module Network.
Import NetModel.
(** tests/test.gexf: two nodes and an edge.  Nodes are numbers here. *)
Definition two_nodes : graph nat := Graph [(0, None); (1, None)] [(0, 1)] false.
(** Ids and the values of attributes are numbers; every agent is in the state "normal" (7). *)
Definition neighbors (e : nenv nat) (o : obj) (state : option nat) : option nat :=
  option_map (@List.length obj)
    (get_neighbors Nat.eqb Z.to_nat (fun _ => 7) (fun _ _ => 0) (fun _ (_ : unit) => true) e o
       (Criteria [] None (option_map One state) None None None [])).
Definition count_state (e : nenv nat) (state : nat) : nat :=
  List.length (net_get_agents Nat.eqb (uid_of Z.to_nat e) (fun _ => 7) (fun _ _ => 0) (fun _ (_ : unit) => true) (ne_reg e)
    (Criteria [] None (Some (One state)) None None None [])).
(** 53-63 and 65-72. *)
Example test_custom_agent_neighbors :
  let '(e, r) := populate (fun n => n) (NEnv two_nodes (-1) [] []) [KNet; KNet] in
  r = None /\ List.length (g_nodes (ne_graph e)) = 2 /\ List.length (ne_reg e) = 2 /\
  count_state e 7 = 2 /\ neighbors e 1 (Some 7) = Some 1 /\ neighbors e 0 None = Some 1.
Proof. vm_compute. repeat split. Qed.

(** 74-87: the nodes 3, 1 and 2, with an edge between the last two. *)
Definition three : graph nat := Graph [(3, None); (1, None); (2, None)] [(1, 2)] false.
Definition env3 := fst (populate (fun n => n) (NEnv three (-1) [] []) [KNet; KNet; KNet]).
Definition g3 : GeoModel.gworld unit :=
  GeoModel.GWorld (map (fun p => (fst p, GeoModel.GNode None None)) (g_nodes (ne_graph env3))) (g_edges (ne_graph env3))
    (fun o => Some (node_of env3 o)).
(** [env.agent(node_id=n)] *)
Definition agent_at (n : nat) : option obj :=
  get_agent Nat.eqb (uid_of Z.to_nat env3) (fun _ => 7) (fun o _ => match node_of env3 o with Some m => m | None => 99 end)
    (fun _ (_ : unit) => true) (ne_reg env3) (Criteria [] None None None None None [("node_id", One n)]).
Definition near (o : obj) : list obj :=
  match get_neighbors Nat.eqb Z.to_nat (fun _ => 7) (fun _ _ => 0) (fun _ (_ : unit) => true) env3 o
          (Criteria [] None None None None None []) with Some l => l | None => [] end.
Definition size (x : dict nat (GeoModel.gnode unit) * list (nat * nat) + GeoModel.gexn) : option nat :=
  match x with inl (nodes, _) => Some (List.length nodes) | inr _ => None end.
Example test_subgraph : exists a2 a3, agent_at 2 = Some a2 /\ agent_at 3 = Some a3 /\
  size (GeoModel.subgraph g3 a2 true (near a2)) = Some 2 /\
  size (GeoModel.subgraph g3 a3 true (near a3)) = Some 1 /\
  size (GeoModel.subgraph g3 a3 false (near a3)) = Some 0 /\
  size (GeoModel.subgraph g3 a3 true
    (net_get_agents Nat.eqb (uid_of Z.to_nat env3) (fun _ => 7) (fun _ _ => 0) (fun _ (_ : unit) => true) (ne_reg env3)
       (Criteria [] None None (Some [tt]) None None []))) = Some 3.
Proof. exists 2, 0. vm_compute. repeat split. Qed.
End Network.

(** * tests/test_main.py *)
Module Main.
Import CounterModel.
(** 62-75. *)
Definition tickers : cworld :=
  CWorldOf (fun _ => Ticker) (fun _ => []) (fun a => match a with 0 => 10 | _ => 20 end) (fun _ => 0) (fun _ => 0).
Definition ticked : cworld :=
  let '(_, w, _, _) := timed_step (AR := exact) (counter_user (fun l => rev l))
    (fold_left (fun s a => timed_add s a None) [0; 1] (timed_init true (sec 1))) tickers in w.
Example test_counter_agent :
  cw_times tickers 0 = 10 /\ cw_times tickers 1 = 20 /\ cw_times ticked 0 = 11 /\ cw_times ticked 1 = 21.
Proof. vm_compute. repeat split. Qed.

(** 77-85, the counting. *)
Definition weight (a : nat) : nat := match a with 0 => 1 | _ => 3 end.
Definition count (q : criteria nat unit) : nat :=
  count_agents Nat.eqb (fun a => a) (fun _ => 0) (fun a _ => weight a) (fun _ _ => true) [0; 1] q.
Example test_init_and_count_agents :
  count (Criteria [] None None None None None []) = 2 /\
  count (Criteria [] None None None None None [("weight", One 1)]) = 1 /\
  count (Criteria [] None None None None None [("weight", One 3)]) = 1 /\
  count (Criteria [] None None (Some [tt]) None None []) = 2.
Proof. vm_compute. repeat split. Qed.

(** 112-126.  Objects are numbers; the module soil has a name BaseAgent (soil/__init__.py). *)
Definition modules (m : string) : option (dict string nat) :=
  if String.eqb m "soil" then Some [("BaseAgent", 1)]
  else if String.eqb m "soil.agents" then Some [("BaseAgent", 1)] else None.
Definition BaseAgent := SerialModel.Build_class 1 "BaseAgent" "soil.agents".
Definition Custom := SerialModel.Build_class 2 "CustomAgent" "test_main".
Example test_serialize_class :
  fst (SerialModel.name modules [] BaseAgent [] []) = Some "soil.agents.BaseAgent" /\
  fst (SerialModel.name modules [] BaseAgent ["soil"] []) = Some "BaseAgent" /\
  fst (SerialModel.name modules [] Custom ["soil"] []) = Some "test_main.CustomAgent".
Proof. vm_compute. repeat split. Qed.

(** 164-181 and 183-200: [ToggleAgent], without and with a delay. *)
Definition Toggle : cls (option (state (option bool))) :=
  Cls 1 [fsm_class None] [Some (State (Some false) "ping" true); Some (State (Some true) "pong" false)].
Definition toggle (delay : option num) : code (option bool) (option bool) unit :=
  Code (fun f => f) (fun _ _ f _ =>
    (tt, [], match f with
             | Some false =>
                 let next := PState (State (Some true) "pong" false) in
                 GReturn (match delay with None => next | Some n => PTuple [next; PNum n] end)
             | _ => GReturn (PState (State (Some false) "ping" true))
             end)).
Definition toggler := fresh (Q := option bool) false [] (fun _ => machine Toggle) tt.
Example test_fsm :
  let a1 := snd (agent_call (toggle None) 0 toggler) in
  let a2 := snd (agent_call (toggle None) 0 a1) in
  map (state_id 0) [toggler; a1; a2] = [Some "ping"; Some "pong"; Some "ping"].
Proof. reflexivity. Qed.
Example test_fsm_when :
  let '(when, a1) := agent_call (toggle (Some (sec 2))) 0 toggler in
  when = Ret (Some (sec 2)) /\ fst (agent_call (toggle (Some (sec 2))) 0 a1) = Ret None.
Proof. vm_compute. repeat split. Qed.

(** 220-229. *)
Import SimModel.
Definition of_matrix (m : dict string (list (param nat unit))) : sim nat unit :=
  Sim [] m "" 1 1 false 0 [] [].
Definition vals (l : list nat) : list (param nat unit) := map PVal l.
Example test_config_matrix :
  let configs := collect_params (of_matrix [("a", vals [1; 2]); ("b", vals [3; 4])]) in
  List.length configs = 4 /\
  forall i j, In i [1; 2] -> In j [3; 4] -> In [("a", PVal i); ("b", PVal j)] configs.
Proof. vm_compute. split; [reflexivity|]. intros i j I J. intuition subst; auto. Qed.
End Main.
