(** What is expected of the society of the terrorism example. *)
From Coq Require Import ZArith QArith List Bool Arith String Permutation.
From Verif Require Import Num PyDict TimedModel AgentModel FsmModel TerrorModel.
Import ListNotations.
Local Open Scope string_scope.

Definition share (x : Q) : Prop := (0 <= x <= 1)%Q.
(** Powers of shares: [x ** y] is at least x. *)
Definition powers (pow : Q -> Q -> Q) : Prop := forall x y, share x -> share y -> (x <= pow x y <= 1)%Q.
(** Settings that make sense. *)
Definition sound (att : attrs) : Prop :=
  share (intensity att) /\ share (additional att) /\ share (train_influence att) /\ share (haven_influence att) /\
  (0 <= spread_min att)%Q /\ (spread_min att <= spread_max att)%Q /\ (spread_max att <= 1)%Q.
(** State ids that agents of these classes can be created with, and then do not raise or stay idle. *)
Definition valid_id (k : akind) (x : option string) : Prop :=
  match x with
  | None => True
  | Some x => In x (match k with
                    | ASpread | ANetwork => ["civilian"; "leader"; "terrorist"]
                    | ATraining => ["terrorist"]
                    | AHaven => ["civilian"; "terrorist"]
                    end)
  end.
(** Shuffling gives a permutation and uses nothing but the random generator. *)
Definition fair (shuffle : list aid -> trest -> trest * list aid) : Prop :=
  forall l r, let '(r', l') := shuffle l r in Permutation l l' /\ exists draws, r' = set_draws r draws.
Definition in_state (name : string) (w : fworld tfun trest) (a : aid) : Prop :=
  exists st, fa_cur (fw_agents w a) = Some st /\ st_name st = name.
Definition person (cf : config) (a : aid) : Prop := cf_kind cf a = ASpread \/ cf_kind cf a = ANetwork.
Definition believes (w : fworld tfun trest) (a : aid) : Q := te_belief (fw_rest w) a.
Definition vulnerable (w : fworld tfun trest) (a : aid) : Q := te_vuln (fw_rest w) a.

(** A world that a simulation reaches, from whatever network. *)
Definition reached (cf : config) (lib : library) (s : sched) (w : fworld tfun trest) (c : cors (frame tfun)) : Prop :=
  exists (AR : Arith) shuffle ordered di ids g d1 d2 draws n tr, fair shuffle /\
  (forall a, valid_id (cf_kind cf a) (ids a)) /\ (forall a, share (d1 a)) /\ (forall a, share (d2 a)) /\
  society_run cf lib shuffle ordered di ids g d1 d2 draws n = (s, (w, c), tr).

(** The agents that share an edge with this one. *)
Definition linked (w : fworld tfun trest) (a b : aid) : Prop :=
  In (a, b) (te_edges (fw_rest w)) \/ In (b, a) (te_edges (fw_rest w)).
(** The mean of the values, by weight. *)
Definition sum (f : aid -> Q) (l : list aid) : Q := fold_right (fun a t => (f a + t)%Q) 0%Q l.
Definition mean_by (weight value : aid -> Q) (l : list aid) : Q := (sum (fun a => value a * weight a) l / sum weight l)%Q.
(** Which of these are met, with such draws. *)
Definition met (prob : Q) (draws : nat -> Q) (l : list aid) : list aid :=
  map fst (filter (fun p => Qle_bool (snd p) prob) (combine l (map draws (seq 0 (List.length l))))).
(** The number of links of an agent (a loop counts twice). *)
Definition links (w : fworld tfun trest) (a : aid) : Q :=
  inject_Z (Z.of_nat (List.length (filter (fun e => Nat.eqb (fst e) a) (te_edges (fw_rest w))) +
                      List.length (filter (fun e => Nat.eqb (snd e) a) (te_edges (fw_rest w))))).
(** The people that this agent is linked to, and those of them that are radical. *)
Definition near (cf : config) (s : sched) (w : fworld tfun trest) (a b : aid) : Prop :=
  In b (s_reg s) /\ linked w a b /\ person cf b.
Definition fellow (cf : config) (s : sched) (w : fworld tfun trest) (a b : aid) : Prop :=
  near cf s w a b /\ (in_state "terrorist" w b \/ in_state "leader" w b).
(** The first is more central in the network than the second. *)
Definition more_central (lib : library) (w : fworld tfun trest) (b a : aid) : Prop :=
  (l_centrality lib (te_edges (fw_rest w)) a < l_centrality lib (te_edges (fw_rest w)) b)%Q.
(** An activation that raised an exception is among these events. *)
Definition some_raise (tr : list ev) : Prop := exists t a, In (EvAct t a Exc) tr.
