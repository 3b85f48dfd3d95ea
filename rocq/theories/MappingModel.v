(** Model of agents and environments as dictionaries: soil/agents/__init__.py:184-223, 145-146 and
    283-291, soil/environment.py:226-253, and the methods that agents inherit from Python's
    [collections.abc.MutableMapping]. *)
From Coq Require Import List Bool Arith Ascii String.
From Verif Require Import PyDict.
Import ListNotations.
Local Open Scope string_scope.

(** The exceptions that matter here, and the others. *)
Inductive exc := AttributeError | KeyError | TypeError | IndexError | Other (n : nat).
Inductive result (A : Type) := Ok (a : A) | Raise (e : exc).
Arguments Ok {A}. Arguments Raise {A}.
Definition bind {A B} (x : result A) (f : A -> result B) : result B :=
  match x with Ok a => f a | Raise e => Raise e end.

Section Mapping.
(** Values of attributes. *)
Context {V : Type}.

(** What a class has under a name: a property without setter (its getter sees the attributes of the
    instance), or anything else (a method, a value). *)
Inductive class_attribute := CProperty (get : dict string V -> result V) | CValue (v : V).
(** An object: the attributes of its class (and of the bases), and its own [__dict__]. *)
Record object := { cls : dict string class_attribute; own : dict string V }.
Definition with_own (o : object) (d : dict string V) : object := {| cls := cls o; own := d |}.

(** What can be used as a key: a string, or a pair of a name and a value. *)
Inductive key := Str (s : string) | Pair (p : string * V).

(** Python's [getattr], [setattr] and [delattr].  A property takes precedence over the attributes of
    the instance, and these over the rest of the class. *)
Definition getattr (o : object) (k : key) : result V :=
  match k with
  | Pair _ => Raise TypeError
  | Str s =>
      match dget s (cls o) with
      | Some (CProperty get) => get (own o)
      | c => match dget s (own o) with
             | Some v => Ok v
             | None => match c with Some (CValue v) => Ok v | _ => Raise AttributeError end
             end
      end
  end.
Definition setattr (o : object) (k : key) (v : V) : result object :=
  match k with
  | Pair _ => Raise TypeError
  | Str s =>
      match dget s (cls o) with
      | Some (CProperty _) => Raise AttributeError
      | _ => Ok (with_own o (dset s v (own o)))
      end
  end.
Definition delattr (o : object) (k : key) : result object :=
  match k with
  | Pair _ => Raise TypeError
  | Str s =>
      match dget s (cls o) with
      | Some (CProperty _) => Raise AttributeError
      | _ => if dhas s (own o) then Ok (with_own o (ddel s (own o))) else Raise AttributeError
      end
  end.
(** [hasattr]: only AttributeError means no. *)
Definition hasattr (o : object) (k : key) : result bool :=
  match getattr o k with
  | Ok _ => Ok true
  | Raise AttributeError => Ok false
  | Raise e => Raise e
  end.

(** * Agents *)
(** soil/agents/__init__.py:184-188. *)
Definition getitem (a : object) (k : key) : result V :=
  match getattr a k with
  | Raise AttributeError => Raise KeyError
  | r => r
  end.
(** Lines 190-191, 193-194 and 196-197. *)
Definition delitem (a : object) (k : key) : result object := delattr a k.
Definition contains (a : object) (k : key) : result bool := hasattr a k.
Definition setitem (a : object) (k : key) (v : V) : result object := setattr a k v.

(** Line 25. *)
Definition IGNORED_FIELDS : list string := ["model"; "logger"].
(** Lines 205-206, as a list: the names whose first letter is not an underscore, without the ignored
    ones; the empty name has no first letter. *)
Fixpoint names (ignored : list string) (l : list string) : result (list string) :=
  match l with
  | [] => Ok []
  | k :: l' =>
      match k with
      | "" => Raise IndexError
      | String c _ =>
          if Ascii.eqb c "_"%char then names ignored l'
          else if existsb (String.eqb k) ignored then names ignored l'
          else bind (names ignored l') (fun ks => Ok (k :: ks))
      end
  end.
Definition keys (a : object) : result (list string) := names IGNORED_FIELDS (dkeys (own a)).
(** Lines 199-200. *)
Definition len (a : object) : result nat := bind (keys a) (fun ks => Ok (List.length ks)).

(** Lines 215-222. *)
Definition get (a model : object) (k : key) (default : V) : result V :=
  match getattr a k with
  | Raise AttributeError =>
      match getattr model k with
      | Raise AttributeError => Ok default
      | r => r
      end
  | r => r
  end.

(** Lines 208-213, as a list; [none] is None.  An empty [skip] is false. *)
Fixpoint pairs (a model : object) (none : V) (ks : list string) : result (list (string * V)) :=
  match ks with
  | [] => Ok []
  | k :: ks => bind (get a model (Str k) none) (fun v => bind (pairs a model none ks) (fun l => Ok ((k, v) :: l)))
  end.
Definition items (a model : object) (none : V) (ks : option (list string)) (skip : list string) : result (list (string * V)) :=
  bind (match ks with Some ks => Ok ks | None => keys a end) (fun ks =>
  bind (pairs a model none ks) (fun it =>
  match skip with
  | [] => Ok it
  | _ => Ok (filter (fun x => negb (existsb (String.eqb (fst x)) skip)) it)
  end)).
(** Lines 202-203: what a loop over the agent yields. *)
Definition iter (a model : object) (none : V) : result (list key) :=
  bind (items a model none None []) (fun l => Ok (map Pair l)).

(** Lines 283-291: the attributes that [to_str] shows (their layout is not modelled). *)
Definition to_str (a model : object) (none : V) (ks : option (list string)) (skip : list string) : result (dict string V) :=
  bind (items a model none ks []) (fun l => Ok (dict_of l)).

(** The methods of MutableMapping that agents do not override. *)
(** [values()], as a list: [for key in self: yield self[key]]. *)
Fixpoint get_all (a : object) (ks : list key) : result (list V) :=
  match ks with
  | [] => Ok []
  | k :: ks => bind (getitem a k) (fun v => bind (get_all a ks) (fun vs => Ok (v :: vs)))
  end.
Definition values (a model : object) (none : V) : result (list V) :=
  bind (iter a model none) (get_all a).
(** [pop(key)] and [pop(key, default)]. *)
Definition pop (a : object) (k : key) (default : option V) : result (V * object) :=
  match getitem a k with
  | Raise KeyError => match default with None => Raise KeyError | Some d => Ok (d, a) end
  | Raise e => Raise e
  | Ok v => bind (delitem a k) (fun a' => Ok (v, a'))
  end.
(** [popitem()]: [key = next(iter(self)); value = self[key]; del self[key]].  The first pair is
    computed before the rest of the attributes is looked at. *)
Fixpoint first_name (l : list string) : result string :=
  match l with
  | [] => Raise KeyError
  | k :: l' =>
      match k with
      | "" => Raise IndexError
      | String c _ =>
          if Ascii.eqb c "_"%char then first_name l'
          else if existsb (String.eqb k) IGNORED_FIELDS then first_name l'
          else Ok k
      end
  end.
Definition popitem (a model : object) (none : V) : result (key * V * object) :=
  bind (first_name (dkeys (own a))) (fun k =>
  bind (get a model (Str k) none) (fun v =>
  let key := Pair (k, v) in
  bind (getitem a key) (fun v => bind (delitem a key) (fun a' => Ok (key, v, a'))))).
(** [clear()]: popitem until KeyError; an agent has finitely many attributes, [fuel] is their number
    plus one. *)
Fixpoint clear_loop (fuel : nat) (a model : object) (none : V) : result object :=
  match fuel with
  | 0 => Ok a
  | S fuel =>
      match popitem a model none with
      | Raise KeyError => Ok a
      | Raise e => Raise e
      | Ok (_, _, a') => clear_loop fuel a' model none
      end
  end.
Definition clear (a model : object) (none : V) : result object :=
  clear_loop (S (List.length (own a))) a model none.
(** [setdefault(key, default)]. *)
Definition setdefault (a : object) (k : key) (default : V) : result (V * object) :=
  match getitem a k with
  | Raise KeyError => bind (setitem a k default) (fun a' => Ok (default, a'))
  | Raise e => Raise e
  | Ok v => Ok (v, a)
  end.
(** [update(other)] for a dictionary, and for another agent: [for key in other: self[key] = other[key]]. *)
Fixpoint set_all (a : object) (l : list (string * V)) : result object :=
  match l with
  | [] => Ok a
  | (k, v) :: l => bind (setitem a (Str k) v) (fun a => set_all a l)
  end.
Definition update_dict (a : object) (d : dict string V) : result object := set_all a d.
Fixpoint set_from (a other : object) (ks : list key) : result object :=
  match ks with
  | [] => Ok a
  | k :: ks => bind (getitem other k) (fun v => bind (setitem a k v) (fun a => set_from a other ks))
  end.
Definition update_agent (a other model : object) (none : V) : result object :=
  bind (iter other model none) (set_from a other).

(** [==] (Mapping.__eq__): the dictionaries of the items are compared; [veqb] is Python's comparison
    of values. *)
Definition dict_eqb (veqb : V -> V -> bool) (d e : dict string V) : bool :=
  Nat.eqb (List.length d) (List.length e) &&
  forallb (fun kv => match dget (fst kv) e with Some v => veqb (snd kv) v | None => false end) d.
Definition agent_eqb (veqb : V -> V -> bool) (none : V) (a ma b mb : object) : result bool :=
  bind (items a ma none None []) (fun l => bind (items b mb none None []) (fun m =>
  Ok (dict_eqb veqb (dict_of l) (dict_of m)))).
(** soil/agents/__init__.py:145-146; [hash] is Python's for the values. *)
Definition agent_hash {H} (hash : V -> H) (a : object) : result H :=
  bind (getattr a (Str "unique_id")) (fun v => Ok (hash v)).

(** * Environments *)
(** soil/environment.py:226-239 are the same four methods.  Lines 252-253. *)
Definition env_keys (e : object) : result (list string) := names [] (dkeys (own e)).
(** Lines 243-244. *)
Definition env_len (e : object) : result nat := bind (env_keys e) (fun ks => Ok (List.length ks)).
(** Lines 249-250. *)
Definition env_get (e : object) (k : key) (default : V) : result V :=
  bind (contains e k) (fun b => if b then getitem e k else Ok default).
(** Lines 240-241: the dictionary whose [str] is returned. *)
Fixpoint read_all (e : object) (ks : list string) : result (list (string * V)) :=
  match ks with
  | [] => Ok []
  | k :: ks => bind (getitem e (Str k)) (fun v => bind (read_all e ks) (fun l => Ok ((k, v) :: l)))
  end.
Definition env_dict (e : object) : result (dict string V) :=
  bind (env_keys e) (fun ks => bind (read_all e ks) (fun l => Ok (dict_of l))).
End Mapping.
Arguments class_attribute : clear implicits. Arguments object : clear implicits. Arguments key : clear implicits.

(** Lines 246-247: what a loop over an environment yields are agents, and [agent in env] is [hasattr(env, agent)]
    (lines 234-235), which raises TypeError for everything that is not a string. *)
Inductive member (A : Type) := Name (s : string) | Agent (a : A).
Arguments Name {A}. Arguments Agent {A}.
Definition env_iter {A} (agents : list A) : list (member A) := map Agent agents.
Definition env_contains {V A} (e : object V) (x : member A) : result bool :=
  match x with Name s => contains e (Str s) | Agent _ => Raise TypeError end.
