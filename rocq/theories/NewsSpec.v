(** What is expected of the viewers of the newsspread example. *)
From Coq Require Import ZArith List Bool Arith String.
From Verif Require Import Num PyDict TimedModel AgentModel FsmModel NewsModel.
Import ListNotations.
Local Open Scope string_scope.

(** An agent is in the state of that name. *)
Definition in_state (name : string) (w : fworld nfun nrest) (a : aid) : Prop :=
  exists st, fa_cur (fw_agents w a) = Some st /\ st_name st = name.

(** All agents are viewers: each is in one of the states of its class. *)
Definition all_viewers (w : fworld nfun nrest) : Prop :=
  forall a, let v := nr_class (fw_rest w) a in
  fa_kind (fw_agents w a) = KFsm (fst (meta (class_of v))) /\
  exists n st, In n ["neutral"; "infected"; "cured"] /\
    dget n (fst (meta (class_of v))) = Some st /\ fa_cur (fw_agents w a) = Some st.

(** Another network, other classes or parameters. *)
Definition same_setting (r r' : nrest) : Prop :=
  nr_class r' = nr_class r /\ nr_tv r' = nr_tv r /\ nr_nbrs r' = nr_nbrs r /\
  nr_tv_spread r' = nr_tv_spread r /\ nr_spread r' = nr_spread r /\ nr_prob_cure r' = nr_prob_cure r.
(** Shuffling uses the random generator only. *)
Definition only_draws (shuffle : list aid -> nrest -> nrest * list aid) : Prop :=
  forall l r, same_setting r (fst (shuffle l r)) /\ nr_hit (fst (shuffle l r)) = nr_hit r /\
    nr_cure (fst (shuffle l r)) = nr_cure r.

(** The owner of the model steps it, adds agents and removes agents. *)
Definition hands_off {W} (h : list (cmd (W := W))) : Prop := forall f, ~ In (CWorld f) h.

(** How many of these viewers are in the state of that name. *)
Fixpoint how_many (name : string) (w : fworld nfun nrest) (l : list aid) : nat :=
  match l with
  | [] => 0
  | b :: l' => (match fa_cur (fw_agents w b) with
                | Some st => if string_dec (st_name st) name then 1 else 0
                | None => 0 end) + how_many name w l'
  end.
