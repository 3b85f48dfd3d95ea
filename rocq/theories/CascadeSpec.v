(** What is expected of IndependentCascadeModel. *)
From Coq Require Import ZArith List Bool Arith String.
From Verif Require Import Num PyDict TimedModel AgentModel FsmModel CascadeModel.
Import ListNotations.
Local Open Scope string_scope.

(** An agent is in the state of that name. *)
Definition in_state (name : string) (w : fworld afun arest) (a : aid) : Prop :=
  exists st, fa_cur (fw_agents w a) = Some st /\ st_name st = name.
(** All agents are of the class, and not dead. *)
Definition all_cascade (w : fworld afun arest) : Prop :=
  forall a, fa_kind (fw_agents w a) = KFsm (fst (meta cascade_class)) /\
  exists n st, In n ["outside"; "imitate"] /\ dget n (fst (meta cascade_class)) = Some st /\
    fa_cur (fw_agents w a) = Some st.
(** Numbers drawn are not negative. *)
Definition good_draws (r : arest) : Prop := forall n, n_leb (Fin 0) (ar_draws r n) = true.
(** Shuffling uses the random generator only. *)
Definition only_draws (shuffle : list aid -> arest -> arest * list aid) : Prop :=
  forall l r, good_draws r -> good_draws (fst (shuffle l r)) /\
    ar_correlation (fst (shuffle l r)) = ar_correlation r /\ ar_aware (fst (shuffle l r)) = ar_aware r.
(** The owner of the model steps it, adds agents and removes agents. *)
Definition hands_off {W} (h : list (cmd (W := W))) : Prop := forall f, ~ In (CWorld f) h.
(** A product with zero. *)
Definition zero_product (times : nat -> num -> num) : Prop := forall p, times 0 p = Fin 0 \/ times 0 p = NaN.
