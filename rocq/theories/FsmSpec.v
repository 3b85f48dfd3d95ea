(** What users expect of state machines. *)
From Coq Require Import ZArith List Bool Arith String.
From Verif Require Import Num PyDict TimedModel TimedSpec AgentModel AgentSpec FsmModel.
Import ListNotations.

Section Spec.
Context {F Q W : Type}.

(** * States (C33, C34) *)

(** The current state of an agent is declared by its class. *)
Definition declared (x : fagent F) : Prop :=
  match fa_kind x, fa_cur x with
  | KFsm states, Some st => In (st_name st) (dkeys states)
  | _, _ => True
  end.

(** The state objects in what a state function returns are states of the class. *)
Fixpoint native (states : dict string (state F)) (v : pyval F) : Prop :=
  match v with
  | PState st => In (st_name st) (dkeys states)
  | PTuple (x :: _) => native states x
  | _ => True
  end.

(** [kinds] gives the class (or step) of every agent.  User code in which agents only use
    states of the class of the agent concerned. *)
Definition own_states (kinds : aid -> kind F) (u : code F Q W) : Prop :=
  forall s a q w r ops o, (forall b, fa_kind (fw_agents w b) = kinds b) ->
    c_resume u s a q w = (r, ops, o) ->
    (forall v states, o = GReturn v -> kinds a = KFsm states -> native states v) /\
    (forall b v states, In (FSet b v) ops -> kinds b = KFsm states -> native states v).

(** Under every key of the table of states there is a state of that name. *)
Definition keyed (k : kind F) : Prop :=
  match k with
  | KFsm states => forall n st, dget n states = Some st -> st_name st = n
  | KPlain _ => True
  end.

(** Every agent is of its kind and in a declared state. *)
Definition all_declared (kinds : aid -> kind F) (w : fworld F W) : Prop :=
  forall b, fa_kind (fw_agents w b) = kinds b /\ declared (fw_agents w b).

(** Commands from outside that keep some property of the world. *)
Definition keeps {X} (P : X -> Prop) (c : cmd (W := X)) : Prop :=
  match c with CWorld f => forall x, P x -> P (f x) | _ => True end.

(** [target states cur x cur']: [x] names the state [cur'] (None: stay in [cur]). *)
Inductive target (states : dict string (state F)) (cur : option (state F))
  : pyval F -> option (state F) -> Prop :=
| tg_stay : target states cur PNone cur
| tg_state st : target states cur (PState st) (Some st)
| tg_name n st : dget n states = Some st -> target states cur (PStr n) (Some st).

(** [moves states cur v cur' d]: when a state function returns [v], the agent is then in
    [cur'] and is woken after [d] (None: the default interval). *)
Inductive moves (states : dict string (state F)) (cur : option (state F))
  : pyval F -> option (state F) -> option num -> Prop :=
| mv_target v cur' : target states cur v cur' ->
    (forall n, v = PStr n -> String.length n <> 2) -> moves states cur v cur' None
| mv_delay d : moves states cur (PNum d) cur (Some d)
| mv_both x cur' d : target states cur x cur' ->
    moves states cur (PTuple [x; PNum d]) cur' (Some d)
| mv_both_none x cur' : target states cur x cur' ->
    moves states cur (PTuple [x; PNone]) cur' None.

(** Values that name no state, and values that a state function must not return. *)
Inductive nameless (states : dict string (state F)) : pyval F -> Prop :=
| nl_num d : nameless states (PNum d)
| nl_obj : nameless states PObj
| nl_tuple l : nameless states (PTuple l)
| nl_name n : ~ In n (dkeys states) -> nameless states (PStr n).
Inductive invalid (states : dict string (state F)) (float_str : string -> option num)
  : pyval F -> Prop :=
| iv_obj : invalid states float_str PObj
| iv_tuple l : List.length l <> 2 -> invalid states float_str (PTuple l)
| iv_name n : ~ In n (dkeys states) -> String.length n <> 2 -> float_str n = None ->
    invalid states float_str (PStr n)
| iv_pair x y : nameless states x -> invalid states float_str (PTuple [x; y]).

(** [running u a wc q]: if agent [a] is activated now, the user's code is run from
    [q]. *)
Definition running (u : code F Q W) (a : aid) (wc : fworld F W * cors (frame Q)) (q : Q) : Prop :=
  (get_co (snd wc) a = None /\ fa_alive (fw_agents (fst wc) a) = true /\
   exists st, fa_cur (fw_agents (fst wc) a) = Some st /\ q = c_start u (st_fun st)) \/
  get_co (snd wc) a = Some (GSusp (FIn q)).

(** * Overriding (C35) *)

(** The last state called [n] in the body of a class. *)
Fixpoint own_state (n : string) (own : list (option (state F))) : option (state F) :=
  match own with
  | [] => None
  | o :: own' =>
      match own_state n own' with
      | Some st => Some st
      | None => match o with
                | Some st => if String.eqb n (st_name st) then Some st else None
                | None => None
                end
      end
  end.

(** The first class of a list whose body defines the state [n]. *)
Fixpoint first_state (n : string) (l : list (cls (option (state F)))) : option (state F) :=
  match l with
  | [] => None
  | c :: l' => match own_state n (c_own c) with Some st => Some st | None => first_state n l' end
  end.

(** The last state marked as default in the body of a class. *)
Definition own_default (own : list (option (state F))) : option (state F) :=
  last_some (map (fun o => match o with
                           | Some st => if st_default st then Some st else None
                           | None => None
                           end) own).

(** * Death (C36) *)

(** The delay in a value, if there is one, is not negative. *)
Definition mild (v : pyval F) : Prop :=
  match v with
  | PNum n | PTuple [_; PNum n] => nonneg n = true
  | _ => True
  end.

(** A dead state machine that is not suspended inside one of its states. *)
Definition dead_idle (a : aid) (wc : fworld F W * cors (frame Q)) : Prop :=
  (exists states, fa_kind (fw_agents (fst wc) a) = KFsm states) /\
  fa_alive (fw_agents (fst wc) a) = false /\
  (get_co (snd wc) a = None \/ get_co (snd wc) a = Some GDone).

(** Two programs that differ only in what they do when they run as agent [a]. *)
Definition same_but (a : aid) (u v : code F Q W) : Prop :=
  (forall f, c_start u f = c_start v f) /\
  forall s b q w, b <> a -> c_resume u s b q w = c_resume v s b q w.

Definition act_of (a : aid) (e : ev) : bool :=
  match e with EvAct _ b _ => Nat.eqb b a | _ => false end.
End Spec.
