(** Model of logging (soil/environment.py:177-187, soil/agents/__init__.py:130-131 and 251-268), of
    the class attributes that [MetaAgent] keeps (soil/agents/__init__.py:57-102) and of
    [BaseAgent.from_dict] (soil/agents/__init__.py:169-182). *)
From Coq Require Import List Bool Arith Ascii String.
From Verif Require Import PyDict.
Import ListNotations.
Local Open Scope string_scope.

(** What a call of [log] does: nothing, pass a message to the logger, or raise. *)
Inductive logged := Silent | Logged (message : string) | RaisesValueError | RaisesKeyError.

(** Python's [" ".join]. *)
Fixpoint join (l : list string) : string :=
  match l with [] => "" | [x] => x | x :: l' => x ++ " " ++ join l' end.
(** [{:>n}]: spaces on the left. *)
Fixpoint spaces (n : nat) : string := match n with 0 => "" | S n => " " ++ spaces n end.
Definition right (n : nat) (s : string) : string := spaces (n - String.length s) ++ s.

(** [for k, v in kwargs: message += " {k}={v} ".format(k, v)]: the loop is over the keys, each of
    which is unpacked into its letters (ValueError unless there are two), and the fields [k] and
    [v] of the format are not among its arguments (KeyError). *)
Definition add_kwargs {V} (kwargs : dict string V) (message : string) : logged :=
  match kwargs with
  | [] => Logged message
  | (k, _) :: _ => if Nat.eqb (String.length k) 2 then RaisesKeyError else RaisesValueError
  end.

(** soil/environment.py:177-187.  The arguments are given as their [str]. *)
Definition env_log {V} (enabled : bool) (now message : string) (args : list string) (kwargs : dict string V) : logged :=
  if enabled then
    add_kwargs kwargs (" @" ++ right 3 now ++ ": " ++ (message ++ join args))
  else Silent.
(** soil/agents/__init__.py:251-262; [repr] is that of the agent. *)
Definition agent_log {V} (enabled : bool) (now repr : string) (message : list string) (kwargs : dict string V) : logged :=
  if enabled then
    add_kwargs kwargs ("[@" ++ right 4 now ++ "]" ++ String (Ascii.ascii_of_nat 9) "" ++ right 10 repr ++ ": " ++ join message)
  else Silent.

(** * The namespace of an agent class *)
(** Entries of a class body, by what matters for the metaclass: functions, properties, class
    methods, static methods and other values. *)
Inductive entry (V : Type) := EFunction | EProperty (v : V) | EClassmethod | EStaticmethod | EValue (v : V).
Arguments EFunction {V}. Arguments EProperty {V}. Arguments EClassmethod {V}. Arguments EStaticmethod {V}. Arguments EValue {V}.
Definition private (k : string) : bool :=
  match k with String c _ => Ascii.eqb c "_"%char | "" => false end.

(** soil/agents/__init__.py:70-98: what stays in the class and what becomes a default; None when the
    class statement raises: [step] has to be a function, the empty name has no first letter
    (it cannot be written in a class body) and [copy] of a static method raises TypeError. *)
Fixpoint meta_new {V} (body : dict string (entry V)) (kept : dict string (entry V)) (defaults : dict string V)
  : option (dict string (entry V) * dict string V) :=
  match body with
  | [] => Some (kept, defaults)
  | (k, e) :: body' =>
      if String.eqb k "step" then
        match e with EFunction => meta_new body' (dset k e kept) defaults | _ => None end
      else match e with
           | EFunction | EProperty _ | EClassmethod => meta_new body' (dset k e kept) defaults
           | EStaticmethod => if private k then meta_new body' (dset k e kept) defaults else None
           | EValue v => if private k then meta_new body' (dset k e kept) defaults
                         else meta_new body' kept (dset k v defaults)
           end
  end.

(** * The level of the logger of an agent *)
Section Level.
Context {V : Type}.
(** The attributes that the constructor has set when the logger is made. *)
Definition set_before : list string := ["unique_id"; "model"; "pos"; "name"; "alive"; "logger"].
(** soil/agents/__init__.py:130-131 for a class whose kept namespaces are, in the order of
    resolution, [mro] (those of [BaseAgent] and mesa, without [level], are left out): the level
    given to the logger, if any. *)
Fixpoint find (mro : list (dict string (entry V))) (k : string) : option (entry V) :=
  match mro with [] => None | ns :: l => match dget k ns with Some e => Some e | None => find l k end end.
Definition logger_level (mro : list (dict string (entry V))) : option (entry V) :=
  if existsb (String.eqb "level") set_before then None else find mro "level".
End Level.

(** * [from_dict] *)
(** What it ends in: NameError (the name agent_class is not defined in the method), or the call of
    the constructor with keyword arguments. *)
Inductive made (V : Type) := RaisesNameError | Constructed (args : dict string V).
Arguments RaisesNameError {V}. Arguments Constructed {V}.
(** soil/agents/__init__.py:169-182; [parameters] are the names in the signature of the class. *)
Definition from_dict {V} (parameters : list string) (attrs : dict string V) (warn_extra : bool) : made V :=
  let '(args, ignored) :=
    fold_left (fun ai kv => let '(args, ignored) := ai in
                 if existsb (String.eqb (fst kv)) parameters then (dset (fst kv) (snd kv) args, ignored)
                 else (args, dset (fst kv) (snd kv) ignored)) attrs ([], []) in
  match ignored with
  | _ :: _ => if warn_extra then RaisesNameError else Constructed args
  | [] => Constructed args
  end.
