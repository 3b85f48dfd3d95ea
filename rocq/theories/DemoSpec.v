(** What C194-C198 speak about. *)
From Coq Require Import ZArith List Bool Arith String.
From Verif Require Import Num TimedModel AgentModel FsmModel DemoModel.
Import ListNotations.
Local Open Scope string_scope.

(** The instants of someone who waits [draws 0], [draws 1], ... and the default interval [di] for a draw of 0. *)
Fixpoint instant {AR : Arith} (di : num) (draws : nat -> num) (k : nat) : num :=
  match k with
  | 0 => Fin 0
  | S j => n_add (if n_eqb (draws j) (Fin 0) then di else draws j) (instant di draws j)
  end.
(** They are finite and positive. *)
Definition instants {AR : Arith} (di : num) (draws : nat -> num) (k : nat) : Prop :=
  forall j, j < k -> exists z, instant di draws (S j) = Fin z /\ (0 < z)%Z.
(** The ping, and so many pongs. *)
Definition game {AR : Arith} (di : num) (draws : nat -> num) (k : nat) : list (num * aid * string) :=
  ((Fin 0, 1, "Ping") :: map (fun i => (instant di draws i, 1, "Pong")) (seq 1 k))%list.

(** How many of the rolls [i], [i + n], [i + 2 n], ... ([k] of them) are below [p]. *)
Fixpoint hits (p : num) (draws : nat -> num) (n i k : nat) : nat :=
  match k with
  | 0 => 0
  | S j => hits p draws n i j + if n_ltb (draws (j * n + i)) p then 1 else 0
  end.

(** There is an edge between two nodes, in either direction. *)
Definition joined (g : ugraph) (u v : nat) : Prop := In (u, v) (ug_edges g) \/ In (v, u) (ug_edges g).
(** A graph without directions has an edge at most once. *)
Definition simple (g : ugraph) : Prop :=
  NoDup (ug_edges g) /\ forall u v, In (u, v) (ug_edges g) -> u <> v /\ ~ In (v, u) (ug_edges g) /\ In u (ug_nodes g) /\ In v (ug_nodes g).
(** The pair number [i]: one of the nodes, and then one of the others. *)
Definition drawn_pair (n : nat) (draws : nat -> nat) (i : nat) : nat * nat :=
  let u := draws (2 * i) mod n in
  let o := draws (2 * i + 1) mod (n - 1) in
  (u, if Nat.ltb o u then o else S o).
Definition same_pair (e f : nat * nat) : Prop := e = f \/ e = (snd f, fst f).

(** The skills that the example gives. *)
Definition skill_of (node : string) : string :=
  if String.eqb node "balkian" then "developer" else if String.eqb node "Torvalds" then "God" else "beginner".

(** Infinity plus anything finite is infinity: so for exact numbers and for floats. *)
Definition inf_absorbs (AR : Arith) : Prop := forall z, n_add PInf (Fin z) = PInf.
(** The attribute [times_run] of an agent. *)
Definition times_run (x : fworld dfun nrest * cors (frame dfun)) (a : aid) : nat := nr_times (fw_rest (fst x)) a.
