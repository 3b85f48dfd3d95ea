(** Model of the reporters of an environment: soil/environment.py:39-65 and 204-214,
    soil/decorators.py and the part of mesa's DataCollector that evaluates them. *)
From Coq Require Import List Bool Arith String.
From Verif Require Import PyDict.
Import ListNotations.
Local Open Scope string_scope.

(** What an evaluation ends in: a value, AttributeError, RecursionError, or another exception. *)
Inductive result (V : Type) := Value (v : V) | AttributeError | RecursionError | TypeError | OtherError.
Arguments Value {V}. Arguments AttributeError {V}. Arguments RecursionError {V}.
Arguments TypeError {V}. Arguments OtherError {V}.

(** Evaluates the elements in order, up to the first exception. *)
Fixpoint each {X Y} (f : X -> result Y) (l : list X) : result (list Y) :=
  match l with
  | [] => Value []
  | x :: l' => match f x with
               | Value y => match each f l' with
                            | Value r => Value (y :: r)
                            | AttributeError => AttributeError | RecursionError => RecursionError
                            | TypeError => TypeError | OtherError => OtherError
                            end
               | AttributeError => AttributeError | RecursionError => RecursionError
               | TypeError => TypeError | OtherError => OtherError
               end
  end.

(** * Reporters of agents *)
Section Agents.
(** Agents, classes and values; [none] is None. *)
Context {A T V : Type}.
Variable none : V.
Variable isinstance : A -> T -> bool.
(** [getattr(agent, name)]. *)
Variable getattr : A -> string -> result V.

(** What the variable [reporter] can refer to: None, a string, a function, and the lambda of
    line 213, a closure over the variable itself (a cell) and over the class. *)
Inductive reporter :=
| PNone
| PStr (s : string)
| PFun (f : A -> result V)
| PLambda (cell : nat) (t : T).

(** The cells of closures, and the reporters of the collector by name. *)
Record env := Env { e_cells : list reporter; e_reporters : dict string reporter }.

Definition falsy (r : reporter) : bool :=
  match r with PNone => true | PStr "" => true | _ => false end.

(** soil/environment.py:209-214.  The variable [reporter] is captured by the lambda, so each call
    has its own cell, and the lambda sees what is in it when it is called. *)
Definition add_agent_reporter (name : string) (r : reporter) (agent_type : option T) (e : env) : env :=
  let cell := List.length (e_cells e) in
  let r' := match agent_type with
            | None => if falsy r then PStr name else r
            | Some t => PLambda cell t
            end in
  Env (e_cells e ++ [r']) (dset name r' (e_reporters e)).

(** A Python call of a reporter with an agent; [limit] calls can be nested.  Strings and None
    cannot be called. *)
Fixpoint call (limit : nat) (cells : list reporter) (r : reporter) (a : A) : result V :=
  match r with
  | PNone | PStr _ => TypeError
  | PFun f => f a
  | PLambda cell t =>
      if isinstance a t then
        match limit with
        | 0 => RecursionError
        | S n => call n cells (nth cell cells PNone) a
        end
      else Value none
  end.

(** mesa: strings are attributes of the agent, None when they are missing. *)
Definition evaluate (limit : nat) (cells : list reporter) (r : reporter) (a : A) : result V :=
  match r with
  | PStr s => match getattr a s with AttributeError => Value none | x => x end
  | _ => call limit cells r a
  end.

(** The data of each agent, mesa's [_record_agents].  Simplification: when all the reporters are
    strings, some versions of mesa raise AttributeError for missing attributes. *)
Definition record (limit : nat) (e : env) (agents : list A) : result (list (list V)) :=
  each (fun a => each (fun kr => evaluate limit (e_cells e) (snd kr) a) (e_reporters e)) agents.
End Agents.
Arguments reporter : clear implicits.
Arguments env : clear implicits.

(** * Reporters of the model *)
Section Models.
(** Models and values, with None. *)
Context {M V : Type}.
Variable none : V.

(** An attribute of a class: a property or a function, with or without the mark of [report], or
    something else. *)
Inductive attr :=
| AProperty (marked : bool) (f : M -> result V)
| AFunction (marked : bool) (f : M -> result V)
| AOther (v : V).
(** soil/decorators.py:1-6.  Simplification: other values cannot be decorated (they are left as they
    are here, in Python [setattr] may raise). *)
Definition report (a : attr) : attr :=
  match a with AProperty _ f => AProperty true f | AFunction _ f => AFunction true f | AOther v => AOther v end.

(** A class is the list of the namespaces in its order of resolution. *)
Notation mro := (list (dict string attr)).
Fixpoint lookup (c : mro) (k : string) : option attr :=
  match c with [] => None | ns :: c' => match dget k ns with Some a => Some a | None => lookup c' k end end.
(** [dir(cls)]; Python sorts the names. *)
Definition dir (c : mro) : list string := nodup string_dec (List.concat (List.map dkeys c)).

(** Reporters are functions or names of attributes; what they report can also be a bound method. *)
Inductive source := SFun (f : M -> result V) | SName (k : string).
Inductive cell := CValue (v : V) | CMethod (k : string).

(** soil/environment.py:62. *)
Definition marked (a : attr) : bool :=
  match a with AProperty b _ => b | AFunction b _ => b | AOther _ => false end.
(** soil/environment.py:204-207, with the name itself by default. *)
Definition add_model_reporter (name : string) (func : option source) (r : dict string source) : dict string source :=
  dset name (match func with Some f => f | None => SName name end) r.
(** soil/environment.py:58-63. *)
Definition add_marked (c : mro) (r : dict string source) : dict string source :=
  fold_left (fun r k => match lookup c k with
                        | Some a => if marked a then add_model_reporter k (Some (SName k)) r else r
                        | None => r
                        end) (dir c) r.

(** mesa's [getattr(model, name, None)] for an attribute of the class (instance attributes are left
    out). *)
Definition get_cell (c : mro) (m : M) (k : string) : result cell :=
  match lookup c k with
  | None => Value (CValue none)
  | Some (AProperty _ f) =>
      match f m with
      | Value v => Value (CValue v)
      | AttributeError => Value (CValue none)
      | RecursionError => RecursionError | TypeError => TypeError | OtherError => OtherError
      end
  | Some (AFunction _ _) => Value (CMethod k)
  | Some (AOther v) => Value (CValue v)
  end.
Definition value_of (c : mro) (m : M) (s : source) : result cell :=
  match s with
  | SName k => get_cell c m k
  | SFun f => match f m with
              | Value v => Value (CValue v)
              | AttributeError => AttributeError
              | RecursionError => RecursionError | TypeError => TypeError | OtherError => OtherError
              end
  end.
(** One row of the data of the model. *)
Definition row (c : mro) (r : dict string source) (m : M) : result (dict string cell) :=
  each (fun ks => match value_of c m (snd ks) with
                  | Value x => Value (fst ks, x)
                  | AttributeError => AttributeError | RecursionError => RecursionError
                  | TypeError => TypeError | OtherError => OtherError
                  end) r.
End Models.
Arguments attr : clear implicits.
Arguments source : clear implicits.
Arguments cell : clear implicits.
