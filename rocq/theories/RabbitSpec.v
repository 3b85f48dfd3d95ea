(** What is expected of the rabbits. *)
From Coq Require Import ZArith List Bool Arith String Permutation.
From Verif Require Import Num PyDict TimedModel AgentModel FsmModel RabbitModel.
Import ListNotations.
Local Open Scope string_scope.

(** The first three agents are a male, a female and the accidents; all others are rabbits. *)
Definition a_family (who : aid -> role) : Prop :=
  who 0 = Male /\ who 1 = Female /\ who 2 = Accident /\ forall a, (2 < a)%nat -> who a <> Accident.

(** Shuffling gives a permutation and uses nothing but the random generator. *)
Definition fair (shuffle : list aid -> rrest -> rrest * list aid) : Prop :=
  forall l r, let '(r', l') := shuffle l r in
  Permutation l l' /\
  exists draws, r' = RRest (rr_next r) (rr_nodes r) (rr_edges r) (rr_age r) (rr_offspring r)
                       (rr_pregnancy r) (rr_mate r) (rr_litter r) draws.

Definition alive (w : fworld rfun rrest) (a : aid) : Prop := fa_alive (fw_agents w a) = true.
Definition in_state (name : string) (w : fworld rfun rrest) (a : aid) : Prop :=
  exists st, fa_cur (fw_agents w a) = Some st /\ st_name st = name.
(** The agent has been created. *)
Definition created (w : fworld rfun rrest) (a : aid) : Prop := (a < rr_next (fw_rest w))%nat.

(** The rabbits that an accident may befall: those in the schedule that are not in the state "dead". *)
Definition at_risk (who : aid -> role) (s : sched) (w : fworld rfun rrest) : list aid :=
  filter (fun b => negb (match fa_cur (fw_agents w b) with Some st => String.eqb (st_name st) "dead" | None => false end))
    (filter (fun b => match who b with Accident => false | _ => true end) (s_reg s)).
(** Those whose draw is below the risk; the draws are used in turn. *)
Definition victims (risk : num) (draws : nat -> num) (l : list aid) : list aid :=
  map fst (filter (fun e => n_ltb (draws (snd e)) risk) (combine l (seq 0 (List.length l)))).

(** A world as those that runs of the model reach. *)
Definition reached (who : aid -> role) (p : rparams) litter_of times (s : sched) (w : fworld rfun rrest)
    (c : cors (frame rfun)) : Prop :=
  exists (AR : Arith) shuffle ordered di draws n tr, a_family who /\ fair shuffle /\
  rabbit_run who p litter_of times shuffle ordered di draws n = (s, (w, c), tr).
