(** Specification for CityModel: cities, where the agents are, who is on the way, and itineraries. *)
From Coq Require Import ZArith List Bool Arith Permutation.
From Verif Require Import Num PyDict TimedModel AgentModel FsmModel LockstepModel CityModel.
Import ListNotations.

(** * Cities *)

(** There is a street. *)
Definition leads (c : city) (u v : node) : Prop := exists s, In s (c_streets c) /\ st_from s = u /\ st_to s = v.
(** The streets are between nodes. *)
Definition drawn (c : city) : Prop :=
  NoDup (c_nodes c) /\ forall s, In s (c_streets c) -> In (st_from s) (c_nodes c) /\ In (st_to s) (c_nodes c).
(** One can leave every place, travel times are positive and finite, and among the streets between two places one has the key 0. *)
Definition drivable (c : city) : Prop :=
  (forall u, In u (c_nodes c) -> exists v, leads c u v) /\
  (forall s, In s (c_streets c) -> n_ltb (Fin 0) (st_time s) = true /\ n_ltb (st_time s) PInf = true) /\
  (forall u v, leads c u v -> exists s, In s (c_streets c) /\ st_from s = u /\ st_to s = v /\ st_key s = 0).
(** [d] is the least time of the streets between two places. *)
Definition least_time (c : city) (u v : node) (d : num) : Prop :=
  (exists s, In s (c_streets c) /\ st_from s = u /\ st_to s = v /\ st_time s = d) /\
  forall s, In s (c_streets c) -> st_from s = u -> st_to s = v -> n_ltb (st_time s) d = false.

(** * The states of the model *)

Definition fair (shuffle : list aid -> crest -> crest * list aid) : Prop :=
  forall l r, Permutation l (snd (shuffle l r)) /\
  exists d, fst (shuffle l r) = CRest (cr_pos r) (cr_at r) (cr_occupation r) (cr_waiting r) d.
(** What is reached by running a city with a default interval [di], with [lockstep] or without: the world, the suspended
    steps, and what was observed.  The draws, the shuffles and the interval of the lockstep are any. *)
Definition runs {AR : Arith} (c : city) (gradual : bool) (di : num) (n_other n_lazy : nat) (places : aid -> node)
    (x : cworld * cors (frame cpoint)) (tr : list ev) : Prop :=
  exists shuffle ordered draws steps, fair shuffle /\
    ((exists s, city_run c gradual shuffle ordered di n_other n_lazy places draws steps = (s, x, tr)) \/
     exists interval fuel l, city_lockstep c gradual shuffle ordered di interval n_other n_lazy places draws fuel steps = Some (l, x, tr)).
(** The same with any interval, and any arithmetic of the clock. *)
Definition reached (c : city) (gradual : bool) (n_other n_lazy : nat) (places : aid -> node)
    (x : cworld * cors (frame cpoint)) (tr : list ev) : Prop :=
  exists (AR : Arith) di, runs c gradual di n_other n_lazy places x tr.
(** The agent has set out from [u], and its step waits to arrive at [v]. *)
Definition travels (x : cworld * cors (frame cpoint)) (u v : node) (a : aid) : Prop :=
  cr_pos (fw_rest (fst x)) a = Some u /\ get_co (snd x) a = Some (GSusp (FIn (QOn v))).
(** A set of agents of which there are [n]. *)
Definition amount (P : aid -> Prop) (n : nat) : Prop :=
  exists l, NoDup l /\ (forall a, In a l <-> P a) /\ List.length l = n.

(** * Itineraries *)

(** What is observed of an agent that is at [u] and to be activated at [t], until it is at [w]; the boolean tells whether
    it is on the way to another place then.  It sets out to some neighbour [v], asks to be woken after the travel time, is
    woken then and arrives, and asks for no delay; the scheduler wakes it a default interval later. *)
Inductive itinerary {AR : Arith} (c : city) (di : num) (a : aid) : num -> node -> list ev -> node -> bool -> Prop :=
| it_here t u : itinerary c di a t u [] u false
| it_leaving t u v d : least_time c u v d -> itinerary c di a t u [EvAct t a (Ret (Some d))] u true
| it_trip t u v d evs w b : least_time c u v d -> itinerary c di a (n_add (n_add t d) di) v evs w b ->
    itinerary c di a t u (EvAct t a (Ret (Some d)) :: EvAct (n_add t d) a (Ret (Some (Fin 0))) :: evs) w b.
(** Without [gradual_move] it jumps to a neighbour at once, each default interval. *)
Inductive jumps {AR : Arith} (c : city) (di : num) (a : aid) : num -> node -> list ev -> node -> Prop :=
| ju_here t u : jumps c di a t u [] u
| ju_jump t u v evs w : leads c u v -> jumps c di a (n_add t di) v evs w ->
    jumps c di a t u (EvAct t a (Ret (Some (Fin 0))) :: evs) w.
