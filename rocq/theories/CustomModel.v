(** Model of the classes made from other classes ([custom] and [w], soil/agents/__init__.py:162-163 and 691-693) and of the names of
    agent classes (soil/agents/__init__.py:368-382). *)
From Coq Require Import List Bool Arith Ascii String.
From Verif Require Import PyDict AgentModel FsmModel SerialModel.
Import ListNotations.
Local Open Scope string_scope.
Local Open Scope list_scope.

(** * Attributes *)
Section Attributes.
Context {V : Type}.
(** Functions, properties and class methods; functions that are accepted as [step] (soil/agents/__init__.py:71-85);
    dictionaries. *)
Context (is_function legal_step : V -> bool) (as_dict : V -> option (dict string V)).

(** [attr[0] == "_"]; IndexError (None) for the empty name. *)
Definition private_name (k : string) : option bool :=
  match k with "" => None | String c _ => Some (Ascii.eqb c "_") end.

(** soil/agents/__init__.py:70-98: what each keyword argument adds to the defaults of the class; None is ValueError (a step that is not
    a function), TypeError (defaults that are not a dictionary) or IndexError.  Simplification: [copy(func)] is the value itself, so
    later changes of the object passed to [w] are not modelled. *)
Definition keyword (k : string) (v : V) : option (list (item V)) :=
  if String.eqb k "step" then (if legal_step v then Some [] else None)
  else if is_function v then Some []
  else match private_name k with
       | None => None
       | Some true => Some []
       | Some false =>
           if String.eqb k "defaults" then match as_dict v with Some d => Some [IDefaults d] | None => None end
           else Some [IAttr k v]
       end.
Fixpoint keywords (kw : dict string V) : option (list (item V)) :=
  match kw with
  | [] => Some []
  | (k, v) :: kw' =>
      match keyword k v, keywords kw' with Some a, Some b => Some (a ++ b) | _, _ => None end
  end.

(** soil/agents/__init__.py:691-693 [custom] and 162-163 [w]: a new class ([i] is its identity) whose only base is the template. *)
Definition custom (i : nat) (template : cls (item V)) (kw : dict string V) : option (cls (item V)) :=
  match keywords kw with Some own => Some (Cls i [template] own) | None => None end.
End Attributes.

(** The same for state machines: [kw] are the values of the keyword arguments, states or something else. *)
Definition custom_fsm {F} (i : nat) (template : cls (option (state F))) (kw : list (option (state F))) : cls (option (state F)) :=
  Cls i [template] kw.

(** * Names *)
(** The class made by [custom] for the object [o].  It has the name of the template; its module is that of the innermost Python frame
    when [type.__new__] is called, which is that of [ABCMeta.__new__] in the module abc of Python (the base of [MetaAgent],
    soil/agents/__init__.py:57 and 102), unless [__module__] is one of the keyword arguments. *)
Definition custom_class {O} (o : O) (template : class O) (module : option string) : class O :=
  {| c_object := o; c_name := c_name template; c_module := match module with Some m => m | None => "abc" end |}.

Section Types.
Context {O : Type} (import : string -> option (dict string O)) (builtins : dict string O) (hook : O -> option O).
Notation registry := (dict string (option (dict string O))).

(** An agent class, or the name of one. *)
Inductive type_arg := TName (s : string) | TClass (c : class O).

(** soil/agents/__init__.py:368-374 [_serialize_type].  [own] is the list passed as [known_modules], if any, and [default] the list that
    is the default value of this parameter: the list in use is extended in place.  The results are the name (None is ImportError), the two
    lists after the call and the registry of modules.  Further keyword arguments are not modelled (serialize takes none). *)
Definition serialize_type (c : type_arg) (own : option (list string)) (default : list string) (r : registry)
  : option string * option (list string) * list string * registry :=
  match c with
  | TName s => (Some s, own, default, r)
  | TClass c =>
      match own with
      | Some l => let l' := l ++ ["soil.agents"] in let '(n, r') := name import builtins c l' r in (n, Some l', default, r')
      | None => let l' := default ++ ["soil.agents"] in let '(n, r') := name import builtins c l' r in (n, None, l', r')
      end
  end.
(** Several calls, one after the other: their results, and the lists passed to them afterwards. *)
Fixpoint serialize_types (calls : list (type_arg * option (list string))) (default : list string) (r : registry)
  : list (option string * option (list string)) * list string * registry :=
  match calls with
  | [] => ([], default, r)
  | (c, own) :: calls' =>
      let '(n, own', default1, r1) := serialize_type c own default r in
      let '(l, default2, r2) := serialize_types calls' default1 r1 in
      ((n, own') :: l, default2, r2)
  end.

(** soil/agents/__init__.py:377-382 [_deserialize_type] for a name. *)
Definition deserialize_type (s : string) (known : list string) (r : registry) : found O * registry :=
  deserializer import builtins hook s (known ++ ["soil.agents"; "soil.agents.custom"]) r.
End Types.
Arguments type_arg : clear implicits.
