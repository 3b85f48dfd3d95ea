(** What is expected of the first agents of the tutorial. *)
From Coq Require Import ZArith List Bool Arith String Permutation.
From Verif Require Import Num PyDict TimedModel TimedSpec AgentModel FsmModel TutorModel.
Import ListNotations.
Local Open Scope string_scope.
#[local] Existing Instance exact.

(** A run of a model with these agents, from the beginning: the owner steps it, adds agents and
    removes agents.  The clock is finite when an agent is added. *)
Record lesson_run (m : nat) (d : Z) (kinds : aid -> lesson) (s : sched) (w : fworld tfun trest) (tr : list ev) : Prop := {
  lr_run : exists shuffle sh h c, (forall k l, Permutation l (shuffle k l)) /\ (forall f, ~ In (CWorld f) h) /\
    run_hist (tutor_user m shuffle) h (timed_init sh (Fin d)) (classroom kinds, no_cors) = (s, (w, c), tr);
  lr_interval : (0 < d)%Z;
  lr_adds : forall t a, In (EvAdd t a) tr -> exists z, t = Fin z }.

(** The instants of the activations of an agent, in order. *)
Fixpoint instants (a : aid) (tr : list ev) : list num :=
  match tr with
  | [] => []
  | EvAct t b _ :: tr' => if Nat.eqb b a then t :: instants a tr' else instants a tr'
  | EvAdd _ _ :: tr' => instants a tr'
  end.
(** The first [n] instants of a progression. *)
Definition every (t0 d : Z) (n : nat) : list num := map (fun k => Fin (t0 + Z.of_nat k * d)) (seq 0 n).

(** [agent.state_id], [agent.alive] and [agent.is_infected]. *)
Definition state_id (w : fworld tfun trest) (a : aid) : option string :=
  option_map st_name (fa_cur (fw_agents w a)).
Definition alive (w : fworld tfun trest) (a : aid) : bool := fa_alive (fw_agents w a).
Definition is_infected (w : fworld tfun trest) (a : aid) : bool := t_flag (fw_rest w) a.
