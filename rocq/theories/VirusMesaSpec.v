(** What C238-C240 speak about: how statuses can change, whatever the order of the agents and of the draws. *)
From Coq Require Import ZArith List Bool Arith String.
From Verif Require Import Num TimedModel AgentModel VirusModel VirusSpec VirusMesaModel.
Import ListNotations.
Local Open Scope string_scope.
Local Open Scope list_scope.

(** The history of a run: the status of each agent after each number of steps. *)
Definition history := nat -> aid -> status.

Section Spec.
(** The numbers that [random()] can give. *)
Variable U : num -> Prop.
(** A draw can be below [p], or not. *)
Definition can (p : num) (b : bool) : Prop := exists u, U u /\ prob u p = b.
Variable nbrs : aid -> list aid.
Variables spread check recovery gain : num.

(** The turn of an agent: if it is infected it may infect susceptible neighbours, and may recover or become resistant. *)
Definition turn (st : aid -> status) (a : aid) (st' : aid -> status) : Prop :=
  match st a with
  | Infected =>
      (forall b, st b = Susceptible -> In b (nbrs a) -> st' b = Infected /\ can spread true \/ st' b = Susceptible /\ can spread false) /\
      (forall b, b <> a -> st b <> Susceptible \/ ~ In b (nbrs a) -> st' b = st b) /\
      match st' a with
      | Infected => can check false \/ can check true /\ can recovery false
      | Susceptible => can check true /\ can recovery true /\ can gain false
      | Resistant => can check true /\ can recovery true /\ can gain true
      end
  | _ => forall b, st' b = st b
  end.
Inductive turns : list aid -> (aid -> status) -> (aid -> status) -> Prop :=
| turns_nil st st' : (forall b, st' b = st b) -> turns [] st st'
| turns_cons a l st st1 st' : turn st a st1 -> turns l st1 st' -> turns (a :: l) st st'.
(** A step: the agents that are not resistant have their turns, each once, in any order. *)
Definition one_step (n : nat) (st st' : aid -> status) : Prop :=
  exists order, NoDup order /\ (forall a, In a order <-> In a (virus_ids n) /\ st a <> Resistant) /\ turns order st st'.
(** The histories of [k] steps after an outbreak. *)
Definition possible (n : nat) (chosen : list aid) (k : nat) (h : history) : Prop :=
  (forall a, h 0 a = Infected <-> In a chosen /\ In a (virus_ids n)) /\ (forall a, h 0 a <> Resistant) /\
  (forall j, j < k -> one_step n (h j) (h (S j))).
End Spec.

(** All draws are of those numbers, and shuffling does not change that. *)
Definition drawn (U : num -> Prop) (g : draws) : Prop := forall i, U (g i).
Definition fair (U : num -> Prop) (shuffle : list aid -> draws -> draws * list aid) : Prop :=
  rearranges shuffle /\ forall l g, drawn U g -> drawn U (fst (shuffle l g)).
(** There are two numbers that can be drawn. *)
Definition two (U : num -> Prop) : Prop := exists x y, U (Fin x) /\ U (Fin y) /\ x <> y.
(** The networks are the same. *)
Definition same_edges (nbrs nbrs' : aid -> list aid) : Prop := forall a b, In b (nbrs a) <-> In b (nbrs' a).
(** From 0 to 1, without 1, in some unit. *)
Definition unit_range (one : Z) (u : num) : Prop := exists z, u = Fin z /\ (0 <= z < one)%Z.

(** The histories of the three versions: [h] is how the statuses of the agents can be after up to [k] steps, for some shuffle and some draws. *)
Definition step_can {AR : Arith} U nbrs spread check recovery gain (di : num) n chosen k (h : history) : Prop :=
  exists shuffle g, fair U shuffle /\ drawn U g /\
    forall j s w tr, j <= k -> step_run nbrs spread check recovery gain shuffle true di n chosen j g = (s, w, tr) -> forall a, sw_status w a = h j a.
Definition mesa_can U nbrs spread check recovery gain n chosen k (h : history) : Prop :=
  exists shuffle g, fair U shuffle /\ drawn U g /\
    forall j, j <= k -> forall a, sw_status (mw_agents (mesa_run nbrs spread check recovery gain shuffle n chosen j g)) a = h j a.
Definition name_of (x : status) : string := match x with Susceptible => "susceptible" | Infected => "infected" | Resistant => "resistant" end.
Definition states_can {AR : Arith} U nbrs spread check recovery gain (di : num) n chosen k (h : history) : Prop :=
  exists shuffle g, fair U shuffle /\ drawn U g /\
    forall j s x tr, j <= k -> virus_run nbrs spread check recovery gain shuffle true di n chosen j g = (s, x, tr) -> forall a, state_id x a (name_of (h j a)).
