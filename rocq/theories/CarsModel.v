(** Model of examples/cars/cars_sim.py: drivers and passengers, as code for the agents of FsmModel with the
    messages of EventModel. *)
From Coq Require Import ZArith List Bool Arith String.
From Verif Require Import Num PyDict TimedModel AgentModel FsmModel EventModel.
Import ListNotations.
Local Open Scope string_scope.

(** The state functions, and that of [FSM.dead] (soil/agents/fsm.py:173-175). *)
Inductive cfun := FWander | FDrive | FAsking | FHome | FDead.

(** examples/cars/cars_sim.py:100-101, 129-130, 177-179 and 211-212: the decorated states. *)
Definition wandering : state cfun := State FWander "wandering" true.
Definition driving : state cfun := State FDrive "driving" false.
Definition asking : state cfun := State FAsking "asking" true.
Definition driving_home : state cfun := State FHome "driving_home" false.
Definition dead : state cfun := State FDead "dead" false.

(** examples/cars/cars_sim.py:83-164 and 167-222: the classes. *)
Definition driver_class : cls (option (state cfun)) :=
  Cls 1 [fsm_class FDead] [None; None; None; None; None; Some wandering; Some driving; None].
Definition passenger_class : cls (option (state cfun)) :=
  Cls 2 [fsm_class FDead] [None; None; Some asking; Some driving_home].

Definition cell : Type := Z * Z.
(** examples/cars/cars_sim.py:29-43 [Journey]. *)
Record journey := Journey {
  j_origin : cell; j_dest : cell; j_tip : Z; j_pass : aid; j_driver : option aid }.

(** The rest of the world: the journeys that were created (a journey is its place in the list), the
    attributes [pos], [journey] and [earnings] of the agents, [total_earnings] of the model, and the random
    generator.  A payload is a journey; None is the value None. *)
Record crest := CRest {
  cr_journeys : list journey;
  cr_pos : aid -> cell;
  cr_journey : aid -> option nat;
  cr_earnings : aid -> Z;
  cr_total : Z;
  cr_draws : nat -> nat }.
Notation payload := (option nat).
Notation cevents := (eworld payload crest).
Notation cworld := (fworld cfun cevents).

Definition at_agent {V} (f : aid -> V) (a : aid) (v : V) : aid -> V := fun b => if Nat.eqb b a then v else f b.
Definition set_journeys (r : crest) (l : list journey) : crest :=
  CRest l (cr_pos r) (cr_journey r) (cr_earnings r) (cr_total r) (cr_draws r).
Definition set_pos (r : crest) (a : aid) (p : cell) : crest :=
  CRest (cr_journeys r) (at_agent (cr_pos r) a p) (cr_journey r) (cr_earnings r) (cr_total r) (cr_draws r).
Definition set_journey (r : crest) (a : aid) (j : option nat) : crest :=
  CRest (cr_journeys r) (cr_pos r) (at_agent (cr_journey r) a j) (cr_earnings r) (cr_total r) (cr_draws r).
(** examples/cars/cars_sim.py:139-140. *)
Definition pay (r : crest) (a : aid) (tip : Z) : crest :=
  CRest (cr_journeys r) (cr_pos r) (cr_journey r) (at_agent (cr_earnings r) a (cr_earnings r a + tip)%Z)
    (cr_total r + tip)%Z (cr_draws r).
Definition set_draws (r : crest) (d : nat -> nat) : crest :=
  CRest (cr_journeys r) (cr_pos r) (cr_journey r) (cr_earnings r) (cr_total r) d.

(** The random generator: one arbitrary number for each call.  [randint(lo, hi)]; None for the
    ValueError of an empty range. *)
Definition randint (lo hi : Z) (r : crest) : option (Z * crest) :=
  if (hi <? lo)%Z then None
  else Some (lo + Z.of_nat (cr_draws r 0) mod (hi - lo + 1), set_draws r (fun n => cr_draws r (S n)))%Z.
(** [choice(l)]; None for IndexError. *)
Definition choice {V} (l : list V) (r : crest) : option (V * crest) :=
  match nth_error l (cr_draws r 0 mod List.length l) with
  | None => None
  | Some x => Some (x, set_draws r (fun n => cr_draws r (S n)))
  end.

(** Where a generator is suspended: nowhere yet; line 117 with the local [target]; line 121, in the loop of
    [ask] (soil/agents/evented.py:38-41) with the ask and the deadline; lines 134 and 137; line 201, in the loop of
    [received] (soil/agents/evented.py:21-27), with the locals [journey] and [expiration] and the
    deadline; line 218, likewise. *)
Inductive cpoint :=
| CStart (f : cfun)
| CWander (target : option cell)
| CConfirm (ask : nat) (deadline : num)
| CToOrigin | CToDest
| CWait (j : nat) (expiration deadline : num)
| CHome (deadline : num).

Section Cars.
Context {AR : Arith}.
(** The number one, in ticks, the size of the grid and which agents are drivers (the others are
    passengers). *)
Variable one : Z.
Variable width height : Z.
Variable is_driver : aid -> bool.

Definition secs (n : Z) : num := Fin (n * one)%Z.
Notation out := (cevents * list (fop cfun) * gout cpoint (pyval cfun))%type.

(** Is the cell on the grid? *)
Definition on_grid (p : cell) : bool :=
  (0 <=? fst p)%Z && (fst p <? width)%Z && (0 <=? snd p)%Z && (snd p <? height)%Z.
(** [mesa.space.Grid.get_neighborhood(pos, moore=False)], without the cell itself and without torus. *)
Definition neighborhood (p : cell) : list cell :=
  filter on_grid [(fst p - 1, snd p); (fst p, snd p - 1); (fst p, snd p + 1); (fst p + 1, snd p)]%Z.
(** [mesa.space.MultiGrid.move_agent], on a grid that is not a torus; None for the exception of a cell
    outside it. *)
Definition move_agent (r : crest) (a : aid) (p : cell) : option crest :=
  if on_grid p then Some (set_pos r a p) else None.

(** examples/cars/cars_sim.py:151-158: the next cell. *)
Definition next_cell (p target : cell) : cell :=
  if (fst p <? fst target)%Z then (fst p + 1, snd p)%Z
  else if (fst target <? fst p)%Z then (fst p - 1, snd p)%Z
  else if (snd p <? snd target)%Z then (fst p, snd p + 1)%Z
  else if (snd target <? snd p)%Z then (fst p, snd p - 1)%Z
  else p.
(** examples/cars/cars_sim.py:145-164 [move_towards]: what it returns, or None for an exception. *)
Definition move_towards (r : crest) (a : aid) (target : cell) (with_passenger : bool) : crest * option bool :=
  if (fst target =? fst (cr_pos r a))%Z && (snd target =? snd (cr_pos r a))%Z then (r, Some false)
  else
    match move_agent r a (next_cell (cr_pos r a) target) with
    | None => (r, None)
    | Some r1 =>
        if with_passenger then
          match cr_journey r1 a with
          | None => (r1, None)
          | Some j =>
              match nth_error (cr_journeys r1) j with
              | None => (r1, None)
              | Some x => (set_pos r1 (j_pass x) (cr_pos r1 a), Some true)
              end
          end
        else (r1, Some true)
    end.

(** examples/cars/cars_sim.py:94-98 [check_passengers]: whether there are any. *)
Definition check_passengers (s : sched) : bool :=
  negb (Nat.eqb (List.length (filter (fun b => negb (is_driver b)) (s_reg s))) 0).

(** examples/cars/cars_sim.py:88-92 and 170-175 [on_receive].  All payloads are journeys. *)
Definition update {V} (l : list V) (n : nat) (f : V -> V) : list V :=
  (firstn n l ++ match nth_error l n with Some x => [f x] | None => [] end ++ skipn (S n) l)%list.
Definition assign (d : aid) (x : journey) : journey :=
  Journey (j_origin x) (j_dest x) (j_tip x) (j_pass x) (Some d).
Definition receive (now : num) (a : aid) (msg : payload) (sender : option aid) (w : cevents)
  : crest * list (sending payload) * option payload :=
  let r := e_rest w in
  match msg with
  | None => (r, [], Some None)
  | Some j =>
      if is_driver a then
        match cr_journey r a, nth_error (cr_journeys r) j with
        | None, Some x =>
            match j_driver x with
            | None => (set_journey (set_journeys r (update (cr_journeys r) j (assign a))) a (Some j), [], Some None)
            | Some _ => (r, [], Some None)
            end
        | _, _ => (r, [], Some None)
        end
      else (set_journey r a (Some j), [], Some (Some j))
  end.
(** soil/agents/evented.py:44-55 with these handlers; None for an exception. *)
Definition process (now : num) (a : aid) (w : cevents) : option cevents :=
  match process_messages None receive now a w with
  | (w', _, POk _) => Some w'
  | _ => None
  end.
Definition a_journey (p : payload) : bool := match p with Some _ => true | None => false end.

(** [return self.die(...)] of a state machine (soil/agents/fsm.py:169-171). *)
Definition dies (w : cevents) (a : aid) : out := (w, [FDie a], GReturn (PTuple [PState dead; PNum PInf])).

(** examples/cars/cars_sim.py:119-127: the loop of [ask], and what follows. *)
Definition confirm (s : sched) (a : aid) (k : nat) (deadline : num) (w : cevents) : out :=
  match ask_resume a_journey (s_time s) k deadline w with
  | AWait => (w, [], GYield (PNum (secs 5)) (CConfirm k deadline))
  | AReturn v => (set_rest w (set_journey (e_rest w) a v), [], GReturn (PState driving))
  | ATimedOut => (set_rest w (set_journey (e_rest w) a None), [], GReturn PNone)
  end.
(** examples/cars/cars_sim.py:121, as far as the loop of [ask]. *)
Definition start_asking (s : sched) (a : aid) (w : cevents) : out :=
  match cr_journey (e_rest w) a with
  | None => (w, [], GRaise false)
  | Some j =>
      match nth_error (cr_journeys (e_rest w)) j with
      | None => (w, [], GRaise false)
      | Some x =>
          let '(w1, k, deadline) := ask_start None (s_time s) (j_pass x) (Some j) (Some (secs 60)) w in
          confirm s a k deadline w1
      end
  end.
(** examples/cars/cars_sim.py:108-111: the new target; None for an exception. *)
Definition new_target (r : crest) (a : aid) (target : option cell) : crest * option (option cell) :=
  let '(r1, moved) := match target with None => (r, Some false) | Some t => move_towards r a t false end in
  match moved with
  | None => (r1, None)
  | Some true => (r1, Some target)
  | Some false =>
      match choice (neighborhood (cr_pos r1 a)) r1 with
      | None => (r1, None)
      | Some (t, r2) => (r2, Some (Some t))
      end
  end.
(** examples/cars/cars_sim.py:107-117: the loop, from its condition to the next wait. *)
Definition wander (s : sched) (a : aid) (target : option cell) (w : cevents) : out :=
  match cr_journey (e_rest w) a with
  | Some _ => start_asking s a w
  | None =>
      let '(r1, t) := new_target (e_rest w) a target in
      let w1 := set_rest w r1 in
      match t with
      | None => (w1, [], GRaise false)
      | Some target' =>
          if negb (check_passengers s) then dies w1 a
          else
            match process (s_time s) a w1 with
            | None => (w1, [], GRaise false)
            | Some w2 => (w2, [], GYield (PNum (secs 30)) (CWander target'))
            end
      end
  end.
(** examples/cars/cars_sim.py:100-107, from the start. *)
Definition wandering_fn (s : sched) (a : aid) (w : cevents) : out :=
  if negb (check_passengers s) then dies w a
  else wander s a None (set_rest w (set_journey (e_rest w) a None)).

(** examples/cars/cars_sim.py:135-143: the second loop, and what follows. *)
Definition to_destination (s : sched) (a : aid) (w : cevents) : out :=
  match cr_journey (e_rest w) a with
  | None => (w, [], GRaise false)
  | Some j =>
      match nth_error (cr_journeys (e_rest w)) j with
      | None => (w, [], GRaise false)
      | Some x =>
          match move_towards (e_rest w) a (j_dest x) true with
          | (r, None) => (set_rest w r, [], GRaise false)
          | (r, Some true) => (set_rest w r, [], GYield (PNum (secs 1)) CToDest)
          | (r, Some false) =>
              let w1 := set_rest w (pay r a (j_tip x)) in
              if negb (check_passengers s) then dies w1 a else (w1, [], GReturn (PState wandering))
          end
      end
  end.
(** examples/cars/cars_sim.py:129-135: the first loop, and what follows. *)
Definition to_origin (s : sched) (a : aid) (w : cevents) : out :=
  match cr_journey (e_rest w) a with
  | None => (w, [], GRaise false)
  | Some j =>
      match nth_error (cr_journeys (e_rest w)) j with
      | None => (w, [], GRaise false)
      | Some x =>
          match move_towards (e_rest w) a (j_origin x) false with
          | (r, None) => (set_rest w r, [], GRaise false)
          | (r, Some true) => (set_rest w r, [], GYield (PNum (secs 1)) CToOrigin)
          | (r, Some false) => to_destination s a (set_rest w r)
          end
      end
  end.

(** The drivers that [broadcast] reaches in lines 195 and 204-206. *)
Definition broadcast_to_drivers (s : sched) (a : aid) (j : nat) (w : cevents) : cevents :=
  broadcast (s_time s) (filter is_driver (s_reg s)) (Some j) (Some a) None (Some (secs 60)) w.
(** examples/cars/cars_sim.py:196-209: the loop, from inside [received].  It has at most four turns in one
    activation unless sixty seconds later is not later, in which case it never ends: the agent is not
    activated again here. *)
Fixpoint wait_for_driver (turns : nat) (s : sched) (a : aid) (j : nat) (expiration deadline : num) (w : cevents) : out :=
  match turns with
  | 0 => (w, [], GYield (PNum PInf) (CWait j expiration deadline))
  | S turns' =>
      match received_resume None receive (s_time s) a deadline true w with
      | (w1, _, RWait) => (w1, [], GYield (PNum (secs 10)) (CWait j expiration deadline))
      | (w1, _, RRaise) => (w1, [], GRaise false)
      | (w1, _, RInbox) =>
          match cr_journey (e_rest w1) a with
          | Some _ => (w1, [], GReturn (PState driving_home))
          | None => wait_for_driver turns' s a j expiration
                      (received_deadline (s_time s) (Some expiration) (secs 60)) w1
          end
      | (w1, _, RTimedOut) =>
          let e := n_add (s_time s) (secs 60) in
          wait_for_driver turns' s a j e (received_deadline (s_time s) (Some e) (secs 60))
            (broadcast_to_drivers s a j w1)
      end
  end.
(** examples/cars/cars_sim.py:177-196, from the start. *)
Definition asking_fn (s : sched) (a : aid) (w : cevents) : out :=
  let r := e_rest w in
  match randint 0 (height - 1) r with
  | None => (w, [], GRaise false)
  | Some (x, r1) =>
      match randint 0 (width - 1) r1 with
      | None => (set_rest w r1, [], GRaise false)
      | Some (y, r2) =>
          let r3 := set_journey r2 a None in
          match randint 10 100 r3 with
          | None => (set_rest w r3, [], GRaise false)
          | Some (tip, r4) =>
              let j := List.length (cr_journeys r4) in
              let r5 := set_journeys r4 (cr_journeys r4 ++ [Journey (cr_pos r4 a) (x, y) tip a None]) in
              let expiration := n_add (s_time s) (secs 60) in
              wait_for_driver 4 s a j expiration (received_deadline (s_time s) (Some expiration) (secs 60))
                (broadcast_to_drivers s a j (set_rest w r5))
          end
      end
  end.

(** examples/cars/cars_sim.py:211-222: the loop, from its condition; [received] is called with a timeout only.
    At most three turns, as above. *)
Definition at_home (r : crest) (a : aid) : option bool :=
  match cr_journey r a with
  | None => None
  | Some j =>
      match nth_error (cr_journeys r) j with
      | None => None
      | Some x => Some ((fst (cr_pos r a) =? fst (j_dest x))%Z && (snd (cr_pos r a) =? snd (j_dest x))%Z)
      end
  end.
Fixpoint ride (turns : nat) (s : sched) (a : aid) (deadline : num) (w : cevents) : out :=
  match turns with
  | 0 => (w, [], GYield (PNum PInf) (CHome deadline))
  | S turns' =>
      let again w1 :=
        match at_home (e_rest w1) a with
        | None => (w1, [], GRaise false)
        | Some true => (w1, [FDie a], GReturn PNone)
        | Some false => ride turns' s a (received_deadline (s_time s) None (secs 60)) w1
        end in
      match received_resume None receive (s_time s) a deadline true w with
      | (w1, _, RWait) => (w1, [], GYield (PNum (secs 1)) (CHome deadline))
      | (w1, _, RRaise) => (w1, [], GRaise false)
      | (w1, _, RInbox) => again w1
      | (w1, _, RTimedOut) => again w1
      end
  end.
Definition home_fn (s : sched) (a : aid) (w : cevents) : out :=
  match at_home (e_rest w) a with
  | None => (w, [], GRaise false)
  | Some true => (w, [FDie a], GReturn PNone)
  | Some false => ride 3 s a (received_deadline (s_time s) None (secs 60)) w
  end.

(** All of it.  Logging is left out. *)
Definition cars_code : code cfun cpoint cevents :=
  Code CStart
    (fun s a q w =>
       let e := fw_rest w in
       match q with
       | CStart FWander => wandering_fn s a e
       | CStart FDrive => to_origin s a e
       | CStart FAsking => asking_fn s a e
       | CStart FHome => home_fn s a e
       | CStart FDead => (e, [], GReturn (PNum PInf))
       | CWander target => wander s a target e
       | CConfirm k deadline => confirm s a k deadline e
       | CToOrigin => to_origin s a e
       | CToDest => to_destination s a e
       | CWait j expiration deadline => wait_for_driver 4 s a j expiration deadline e
       | CHome deadline => ride 3 s a deadline e
       end).
(** The agents and the scheduler.  No state function returns a string. *)
Definition cars_user (shuffle : list aid -> cevents -> cevents * list aid) : user (cworld * cors (frame cpoint)) :=
  agent_user cars_code (fun _ => None) shuffle.

(** Creation of an agent: soil/agents/fsm.py:114-122, with no state given. *)
Definition new_agent (k : cls (option (state cfun))) : fagent cfun :=
  FAgent (KFsm (fst (meta k))) true (match fsm_init k PNone with Some cur => cur | None => None end).
End Cars.

(** examples/cars/cars_sim.py:64-75 [init]: the first agents are the drivers, and the others passengers; [place]
    are the cells that the grid chooses for them. *)
Definition a_driver (n_cars : nat) (a : aid) : bool := (a <? n_cars)%nat.
Definition city_world (n_cars : nat) (place : aid -> cell) (draws : nat -> nat) : cworld :=
  FWorld (fun a => new_agent (if a_driver n_cars a then driver_class else passenger_class))
    (EWorld (fun _ => Some []) (fun _ => 0) (fun _ => None) 0
       (CRest [] place (fun _ => None) (fun _ => 0%Z) 0 draws)).
(** The model, after so many steps. *)
Definition city_run {AR : Arith} (one width height : Z) (shuffle : list aid -> cevents -> cevents * list aid) (ordered : bool)
    (di : num) (n_cars n_passengers : nat) (place : aid -> cell) (draws : nat -> nat) (steps : nat)
  : sched * (cworld * cors (frame cpoint)) * list ev :=
  run_hist (cars_user one width height (a_driver n_cars) shuffle)
    (map (fun a => CAdd a None) (seq 0 (n_cars + n_passengers)) ++ repeat CStep steps)%list
    (timed_init (negb ordered) di) (city_world n_cars place draws, no_cors).
