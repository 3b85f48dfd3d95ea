(** What C187-C193 speak about. *)
From Coq Require Import ZArith List Bool Arith String Permutation.
From Verif Require Import Num TimedModel AgentModel FsmModel VirusModel.
Import ListNotations.
Local Open Scope string_scope.

(** The agent is in the state of that name. *)
Definition state_id (w : fworld vfun vrest * cors (frame vfun)) (a : aid) (name : string) : Prop :=
  exists st, fa_cur (fw_agents (fst w) a) = Some st /\ st_name st = name.

(** Agents that the virus can get to in [k] hops from some agents. *)
Fixpoint within (nbrs : aid -> list aid) (from : list aid) (k : nat) (a : aid) : Prop :=
  match k with
  | 0 => In a from
  | S j => within nbrs from j a \/ exists b, within nbrs from j b /\ In a (nbrs b)
  end.

(** The agents that were activated, in order. *)
Fixpoint actors (tr : list ev) : list aid :=
  match tr with
  | [] => []
  | EvAct _ a _ :: tr' => a :: actors tr'
  | _ :: tr' => actors tr'
  end.

(** A sample of [k] of the agents. *)
Definition sample (n : nat) (chosen : list aid) (k : nat) : Prop :=
  NoDup chosen /\ (forall a, In a chosen -> In a (virus_ids n)) /\ List.length chosen = k.

(** Shuffling rearranges. *)
Definition rearranges (shuffle : list aid -> draws -> draws * list aid) : Prop := forall l g, Permutation l (snd (shuffle l g)).
(** All draws are from [0] to [one], without [one]. *)
Definition unit_draws (one : num) (g : draws) : Prop := forall n, n_leb (Fin 0) (g n) = true /\ n_ltb (g n) one = true.
Definition keeps_unit (one : num) (shuffle : list aid -> draws -> draws * list aid) : Prop :=
  forall l g, unit_draws one g -> unit_draws one (fst (shuffle l g)).
