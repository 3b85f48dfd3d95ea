(** Model of the names of classes and of the representation of values as text:
    soil/serialization.py:158-282. *)
From Coq Require Import List Bool Arith Ascii String.
From Verif Require Import PyDict.
Import ListNotations.
Local Open Scope string_scope.

(** * Strings *)
(** [s.rsplit(".", 1)]: what is before and after the last dot, if there is one. *)
Fixpoint rsplit (s : string) : option (string * string) :=
  match s with
  | "" => None
  | String c s' =>
      match rsplit s' with
      | Some (a, b) => Some (String c a, b)
      | None => if Ascii.eqb c "."%char then Some ("", s') else None
      end
  end.
(** What follows a prefix. *)
Fixpoint strip (p s : string) : option string :=
  match p, s with
  | "", _ => Some s
  | String a p', String b s' => if Ascii.eqb a b then strip p' s' else None
  | _, "" => None
  end.
(** What is before the last occurrence of ['>] (the greedy group of line 215). *)
Fixpoint before_end (s : string) : option string :=
  match s with
  | "" => None
  | String c s' =>
      match before_end s' with
      | Some a => Some (String c a)
      | None => if match strip "'>" s with Some _ => true | None => false end then Some "" else None
      end
  end.
(** [IS_CLASS.match(s)], line 215, and its group, for strings without line breaks. *)
Definition is_class (s : string) : option string :=
  match strip "<class '" s with Some s' => before_end s' | None => None end.

(** * Modules *)
Section Serial.
(** Objects that are found in modules.  [hook] is the attribute [deserialize] of an object, if it has one. *)
Context {O : Type}.
Notation module := (dict string O).
(** [importlib.import_module]; None is ImportError.  The builtins.  [eval]; None if it raises. *)
Context (import : string -> option module) (builtins : module) (eval : string -> option O) (hook : O -> option O).

(** KNOWN_MODULES, soil/serialization.py:113-116: None for those that have not been imported. *)
Notation registry := (dict string (option module)).

(** soil/serialization.py:158-163. *)
Definition get_module (modname : string) (r : registry) : option module * registry :=
  match dget modname r with
  | Some (Some m) => (Some m, r)
  | _ => match import modname with
         | Some m => (Some m, dset modname (Some m) r)
         | None => (None, r)
         end
  end.

(** What is found under a name: the function that returns its argument, the one that returns None, the one that
    evaluates a literal (or calls the builtin without arguments), or an object; ValueError. *)
Inductive found := Identity | AlwaysNone | Literal (builtin : O) | Found (o : O) | RaisesValueError | RaisesOther.

Definition with_hook (o : O) : O := match hook o with Some f => f | None => o end.

(** Lines 247-254. *)
Fixpoint try_options (options : list (string * string)) (r : registry) : found * registry :=
  match options with
  | [] => (RaisesValueError, r)
  | (modname, tname) :: options =>
      match get_module modname r with
      | (None, r) => try_options options r
      | (Some m, r) => match dget tname m with
                       | Some o => (Found (with_hook o), r)
                       | None => try_options options r
                       end
      end
  end.

(** Lines 218-254, for a string.  [known] is the argument known_modules, the keys of KNOWN_MODULES by default. *)
Definition deserializer (type_ : string) (known : list string) (r : registry) : found * registry :=
  if String.eqb type_ "str" then (Identity, r)
  else if String.eqb type_ "None" then (AlwaysNone, r)
  else match dget type_ builtins with
  | Some b => (Literal b, r)
  | None =>
      match is_class type_ with
      | Some q =>
          match rsplit q with
          | None => (RaisesValueError, r)
          | Some (modname, tname) =>
              match get_module modname r with
              | (None, r) => (RaisesOther, r)
              | (Some m, r) => match dget tname m with
                               | Some o => (Found (with_hook o), r)
                               | None => (RaisesOther, r)
                               end
              end
          end
      | None =>
          let options := map (fun md => (md, type_)) (filter (fun md => negb (String.eqb md "")) known) in
          let options := match rsplit type_ with Some (m, t) => (options ++ [(m, t)])%list | None => options end in
          try_options options r
      end
  end.

(** Lines 257-273 without a value and without globals. *)
Definition deserialize (type_ : string) (r : registry) : found * registry :=
  match deserializer type_ (dkeys r) r with
  | (RaisesValueError, r) => match eval type_ with Some o => (Found o, r) | None => (RaisesValueError, r) end
  | x => x
  end.

(** * Names *)
(** A class has a name and the name of its module. *)
Record class := { c_object : O; c_name : string; c_module : string }.

(** Lines 179-182: one of the known modules has that name; None if one cannot be imported. *)
Fixpoint known_name (tname : string) (known : list string) (r : registry) : option bool * registry :=
  match known with
  | [] => (Some false, r)
  | kmod :: known =>
      match get_module kmod r with
      | (None, r) => (None, r)
      | (Some m, r) => if dhas tname m then (Some true, r) else known_name tname known r
      end
  end.
(** Lines 166-183 for a class; None is ImportError. *)
Definition name (c : class) (known : list string) (r : registry) : option string * registry :=
  let tname := c_name c in
  if dhas tname builtins then (Some tname, r)
  else if String.eqb (c_module c) "__main__" then (Some tname, r)
  else if existsb (String.eqb (c_module c)) known then (Some tname, r)
  else match known_name tname known r with
       | (None, r) => (None, r)
       | (Some true, r) => (Some tname, r)
       | (Some false, r) => (Some (c_module c ++ "." ++ tname), r)
       end.
(** [repr] of a class that is defined in a module (not in another class). *)
Definition class_repr (c : class) : string := "<class '" ++ c_module c ++ "." ++ c_name c ++ "'>".

(** * Calls *)
(** The calls that use the registry, one after the other. *)
Inductive call := Deserialize (type_ : string) | NameOf (c : class) | GetModule (modname : string).
Definition run_call (x : call) (r : registry) : registry :=
  match x with
  | Deserialize t => snd (deserialize t r)
  | NameOf c => snd (name c (dkeys r) r)
  | GetModule m => snd (get_module m r)
  end.
Definition run_calls (l : list call) (r : registry) : registry := fold_left (fun r x => run_call x r) l r.
End Serial.
Arguments found : clear implicits. Arguments class : clear implicits. Arguments call : clear implicits.

(** * Dictionaries as text *)
Section Dicts.
(** Values that are neither strings, nor containers nor classes (numbers, None, functions, ...), and classes. *)
Context {A C : Type} `{EA : Eqb A}.
Inductive dkey := KStr (s : string) | KAtom (a : A).
#[global, refine] Instance Eqb_dkey : Eqb dkey := {|
  eqb a b := match a, b with KStr s, KStr t => eqb s t | KAtom x, KAtom y => eqb x y | _, _ => false end |}.
Proof.
  intros [s|x] [t|y]; try rewrite eqb_eq; split; intros E; try congruence; try discriminate; now injection E.
Defined.
Inductive value :=
  | VStr (s : string) | VAtom (a : A) | VClass (c : C)
  | VDict (d : list (dkey * value)) | VList (l : list value) | VTuple (l : list value).
(** [repr] of values, and the name and the [repr] of a class. *)
Context (repr : value -> string) (class_name class_text : C -> string).

(** A value as a key: strings and atoms (tuples and classes as keys are not modelled, lists and dictionaries
    raise TypeError). *)
Definition as_key (v : value) : option dkey :=
  match v with VStr s => Some (KStr s) | VAtom a => Some (KAtom a) | _ => None end.

(** serialize_dict, soil/serialization.py:199-212.  [Whole] is the function itself, [Field] is what the loop does with
    the value of an item: dictionaries and the elements of lists are converted, classes become their names, the rest is
    left alone.  [dict(d)] accepts dictionaries and sequences of pairs (strings of two letters too), also the empty
    string; if it raises TypeError or ValueError the text of the value is returned. *)
Inductive mode := Whole | Field.
Fixpoint ser (m : mode) (v : value) {struct v} : value :=
  let fix pairs (l : list value) : option (list (dkey * value)) :=
    match l with
    | [] => Some []
    | x :: l' =>
        match (match x with
               | VTuple [k; y] | VList [k; y] => match as_key k with Some k => Some (k, ser Field y) | None => None end
               | VStr (String a (String b "")) => Some (KStr (String a ""), VStr (String b ""))
               | VDict [(k, _); (KStr s, _)] => Some (k, VStr s)
               | VDict [(k, _); (KAtom a, _)] => Some (k, VAtom a)
               | _ => None
               end) with
        | None => None
        | Some p => match pairs l' with None => None | Some ps => Some (p :: ps) end
        end
    end in
  match v with
  | VDict d => VDict (map (fun kv => (fst kv, ser Field (snd kv))) d)
  | VList l =>
      match m with
      | Field => VList (map (ser Whole) l)
      | Whole => match pairs l with Some ps => VDict (dict_of ps) | None => VStr (repr v) end
      end
  | VTuple l =>
      match m with
      | Field => v
      | Whole => match pairs l with Some ps => VDict (dict_of ps) | None => VStr (repr v) end
      end
  | VStr s => match m with Field => v | Whole => if String.eqb s "" then VDict [] else VStr s end
  | VAtom a => match m with Field => v | Whole => VStr (repr v) end
  | VClass c => match m with Field => VStr (class_name c) | Whole => VStr (class_text c) end
  end.
Definition serialize_dict (d : list (dkey * value)) : list (dkey * value) :=
  map (fun kv => (fst kv, ser Field (snd kv))) d.
(** The argument after the call: line 209 assigns to the elements of its lists. *)
Fixpoint after (v : value) : value :=
  match v with
  | VDict d => VDict (map (fun kv => (fst kv, after (snd kv))) d)
  | VList l => VList (map (ser Whole) l)
  | v => v
  end.
Definition argument_after (d : list (dkey * value)) : list (dkey * value) := map (fun kv => (fst kv, after (snd kv))) d.
End Dicts.
Arguments value : clear implicits. Arguments dkey : clear implicits.
