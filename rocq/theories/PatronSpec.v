(** What is expected of the patrons and the police of the pubcrawl example. *)
From Coq Require Import ZArith List Bool Arith String Permutation.
From Verif Require Import Num PyDict TimedModel AgentModel FsmModel PubModel PubSpec PatronModel.
Import ListNotations.
Local Open Scope string_scope.

(** Shuffling gives a permutation and uses nothing but the random generator. *)
Definition fair (shuffle : list aid -> prest -> prest * list aid) : Prop :=
  forall l r, let '(r', l') := shuffle l r in
  Permutation l l' /\
  exists draws, r' = PRest (pr_city r) (pr_edges r) (pr_pints r) (pr_drunk r) (pr_kicked r) draws.

Definition in_state (name : string) (w : fworld pfun prest) (a : aid) : Prop :=
  exists st, fa_cur (fw_agents w a) = Some st /\ st_name st = name.
(** Two nodes share an edge. *)
Definition joined (l : list (aid * aid)) (a b : aid) : Prop := In (a, b) l \/ In (b, a) l.
Definition a_patron (patrons : nat) (a : aid) : Prop := (1 <= a <= patrons)%nat.
Definition the_patrons (patrons : nat) : list aid := seq 1 patrons.
(** The patron is in no pub. *)
Definition outside (w : fworld pfun prest) (a : aid) : Prop := forall p, ~ inside (pr_city (fw_rest w)) a p.

(** A world that a run with so many pubs, so many places in each, that network and so many patrons
    reaches. *)
Definition reached openness max_pints tenfold mix pubs capacity edges patrons (s : sched) (w : fworld pfun prest)
    (c : cors (frame pfun)) : Prop :=
  exists (AR : Arith) shuffle ordered di draws n tr, fair shuffle /\
  crawl_run openness max_pints tenfold mix shuffle ordered di pubs capacity edges draws patrons n = (s, (w, c), tr).

(** The states of an evening, in order, and what is known of a patron in each of them. *)
Definition evening : list string :=
  ["looking_for_friends"; "looking_for_pub"; "sober_in_pub"; "drunk_in_pub"; "at_home"].
Definition follows (x y : string) : Prop :=
  exists i, nth_error evening i = Some x /\ nth_error evening (S i) = Some y.
Definition as_described (max_pints : aid -> Z) (w : fworld pfun prest) (a : aid) (name : string) : Prop :=
  let r := fw_rest w in
  if String.eqb name "sober_in_pub" then
    ~ outside w a /\ (0 <= pr_pints r a <= max_pints a)%Z /\ pr_drunk r a = false
  else if String.eqb name "drunk_in_pub" then ~ outside w a /\ pr_pints r a = (max_pints a + 1)%Z
  else if String.eqb name "at_home" then
    pr_pints r a = (max_pints a + 1)%Z /\ pr_drunk r a = true /\ pr_kicked r a = true
  else outside w a /\ pr_pints r a = 0%Z /\ pr_drunk r a = false /\ pr_kicked r a = false.
