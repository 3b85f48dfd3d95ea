(** Model of the attributes of state machines: what soil/agents/fsm.py:35-54, 79-128 and
    soil/agents/__init__.py:57-102, 117-146 leave in the class and in its agents under the
    names of the states and of the functions that define them. *)
From Coq Require Import ZArith List Bool Arith String Ascii.
From Verif Require Import Num PyDict AgentModel FsmModel.
Import ListNotations.
Local Open Scope string_scope.

Section Attrs.
(** Functions, and values that are neither functions, properties nor states. *)
Context {F V : Type}.
(** [v is None]. *)
Variable none : V -> bool.
(** The argument of [dict.update], None if it raises. *)
Variable as_dict : V -> option (dict string V).

(** What a class body can bind to a name: an unbound state (soil/agents/fsm.py:35-40), a
    function or class method, a property without a setter, or any other value.
    Simplification: no bound states and no properties with a setter in class bodies. *)
Inductive entry := EState (st : state F) | EFun (f : F) | EProp | EVal (v : V).

(** What can be found in an agent: besides that, the states of soil/agents/fsm.py:43-54,
    bound to the agent. *)
Inductive attr := ABound (st : state F) | AEntry (e : entry).

(** A class made by [MetaFSM]: [_states], [_state], [_defaults] and the other names of
    the class itself.  Simplification: [_state] and [_states] are kept apart from the
    other names. *)
Record fcls := FCls {
  fc_states : dict string (state F);
  fc_default : option (state F);
  fc_defaults : dict string entry;
  fc_dict : dict string entry }.

(** The bases of a class: made by [MetaFSM], by [MetaAgent] only (with its [_defaults]),
    or by none of them. *)
Inductive base := BFsm (c : fcls) | BAgent (d : dict string entry) | BOther.

(** soil/agents/fsm.py:80-90: the states of the bases. *)
Definition inherit (acc : dict string (state F) * option (state F)) (b : base) :=
  match b with
  | BFsm c =>
      fold_left (fun acc kv =>
                   (dset (fst kv) (snd kv) (fst acc),
                    if st_default (snd kv) then Some (snd kv) else snd acc))
                (fc_states c) acc
  | _ => acc
  end.

(** soil/agents/fsm.py:92-97: the states of the class body. *)
Definition own_state (acc : dict string (state F) * option (state F)) (p : string * entry) :=
  match snd p with
  | EState st => (dset (st_name st) st (fst acc),
                  if st_default st then Some st else snd acc)
  | _ => acc
  end.

Definition class_states (bases : list base) (ns : dict string entry) :=
  fold_left own_state ns (fold_left inherit bases ([], None)).

(** soil/agents/__init__.py:61-64: the defaults of the bases. *)
Definition inherit_defaults (d : dict string entry) (b : base) : dict string entry :=
  match b with
  | BFsm c => dupdate d (fc_defaults c)
  | BAgent e => dupdate d e
  | BOther => d
  end.

(** [attr[0] == "_"]. *)
Definition private (k : string) : bool :=
  match k with String c _ => Ascii.eqb c "_" | EmptyString => false end.

(** soil/agents/__init__.py:70-98: one name of the class body; the defaults and the names
    of the class, or None for an exception. *)
Definition place (acc : dict string entry * dict string entry) (p : string * entry)
  : option (dict string entry * dict string entry) :=
  let '(defaults, names) := acc in
  let '(k, e) := p in
  if String.eqb k "step" then
    match e with EFun _ => Some (defaults, dset k e names) | _ => None end
  else
    match e with
    | EFun _ | EProp => Some (defaults, dset k e names)
    | EState _ | EVal _ =>
        if private k then Some (defaults, dset k e names)
        else if String.eqb k "defaults" then
          match e with
          | EVal v => match as_dict v with
                      | Some d => Some (dupdate defaults
                                          (map (fun q => (fst q, EVal (snd q))) d), names)
                      | None => None
                      end
          | _ => None
          end
        else Some (dset k e defaults, names)
    end.

Fixpoint place_all (ns : dict string entry) (acc : dict string entry * dict string entry)
  : option (dict string entry * dict string entry) :=
  match ns with
  | [] => Some acc
  | p :: ns' => match place acc p with Some acc' => place_all ns' acc' | None => None end
  end.

(** soil/agents/fsm.py:79-110 [MetaFSM.__new__]; None for an exception. *)
Definition new_class (bases : list base) (ns : dict string entry) : option fcls :=
  let '(states, default) := class_states bases ns in
  match place_all ns (fold_left inherit_defaults bases [], []) with
  | None => None
  | Some (defaults, names) =>
      Some (FCls states default defaults
              (fold_left (fun d kv => dset (fst kv) (EState (snd kv)) d) states names))
  end.

(** The class [FSM] of soil/agents/fsm.py:113-175, with the names of its body given in
    [names] (all functions and properties) and its state [dead]. *)
Definition fsm_body (names : dict string entry) (dead : F) : dict string entry :=
  (names ++ [("dead", EState (State dead "dead" false))])%list.

(** ** Attributes *)

(** The names of a class and, in the order in which Python looks them up, of the other
    classes it inherits from. *)
Fixpoint find (mro : list (dict string entry)) (k : string) : option entry :=
  match mro with
  | [] => None
  | d :: mro' => match dget k d with Some e => Some e | None => find mro' k end
  end.

(** The values of properties that are None. *)
Variable prop_none : string -> bool.
(** The names found by [find] in the class of the agent. *)
Variable mro : list (dict string entry).

(** [getattr(self, k)]; None for AttributeError.  Properties come before the attributes
    of the agent, all other names of the class after them. *)
Definition getattr (d : dict string attr) (k : string) : option attr :=
  match find mro k with
  | Some EProp => Some (AEntry EProp)
  | o => match dget k d with
         | Some v => Some v
         | None => match o with Some e => Some (AEntry e) | None => None end
         end
  end.

(** [setattr(self, k, v)]; None for AttributeError. *)
Definition setattr (d : dict string attr) (k : string) (v : attr)
  : option (dict string attr) :=
  match find mro k with Some EProp => None | _ => Some (dset k v d) end.

Definition is_none_attr (k : string) (a : attr) : bool :=
  match a with
  | AEntry EProp => prop_none k
  | AEntry (EVal v) => none v
  | _ => false
  end.

(** soil/agents/__init__.py:133-136; [model k] is [getattr(model, k, None)]. *)
Fixpoint from_model (model : string -> option attr) (ks : list string)
  (d : dict string attr) : option (dict string attr) :=
  match ks with
  | [] => Some d
  | k :: ks' =>
      match model k with
      | Some v => match setattr d k v with
                  | Some d' => from_model model ks' d'
                  | None => None
                  end
      | None => from_model model ks' d
      end
  end.

(** soil/agents/__init__.py:138-140.  Simplification: a copy of a value is the value. *)
Fixpoint from_defaults (ds : dict string entry) (d : dict string attr)
  : option (dict string attr) :=
  match ds with
  | [] => Some d
  | (k, e) :: ds' =>
      if match getattr d k with None => true | Some a => is_none_attr k a end then
        match setattr d k (AEntry e) with
        | Some d' => from_defaults ds' d'
        | None => None
        end
      else from_defaults ds' d
  end.

(** soil/agents/__init__.py:142-143. *)
Fixpoint from_kwargs (kw : dict string attr) (d : dict string attr)
  : option (dict string attr) :=
  match kw with
  | [] => Some d
  | (k, v) :: kw' =>
      match setattr d k v with Some d' => from_kwargs kw' d' | None => None end
  end.

(** soil/agents/fsm.py:123-124 and 37-40: every state is bound to the agent; [bind] sets
    the attribute with the name of the state, the loop the one with its key. *)
Fixpoint bind_all (states : dict string (state F)) (d : dict string attr)
  : option (dict string attr) :=
  match states with
  | [] => Some d
  | (k, st) :: states' =>
      match setattr d (st_name st) (ABound st) with
      | None => None
      | Some d1 =>
          match setattr d1 k (ABound st) with
          | None => None
          | Some d2 => bind_all states' d2
          end
      end
  end.

(** soil/agents/fsm.py:114-124 [FSM.__init__], from the attributes [d0] that the
    constructor of mesa and soil/agents/__init__.py:121-131 leave; the attributes and the
    current state before [init()], or None for an exception. *)
Definition create (c : fcls) (model : string -> option attr) (d0 : dict string attr)
  (kw : dict string attr) (state_id : pyval F)
  : option (dict string attr * option (state F)) :=
  match from_model model (dkeys (fc_defaults c)) d0 with
  | None => None
  | Some d1 =>
      match from_defaults (fc_defaults c) d1 with
      | None => None
      | Some d2 =>
          match from_kwargs kw d2 with
          | None => None
          | Some d3 =>
              match FsmModel.set_state (fc_states c) (fc_default c) state_id with
              | None => None
              | Some cur =>
                  if (1 <? List.length (fc_states c))%nat
                     && match cur with None => true | _ => false end
                  then None
                  else match bind_all (fc_states c) d3 with
                       | None => None
                       | Some d4 => Some (d4, cur)
                       end
              end
          end
      end
  end.

(** soil/agents/fsm.py:43-54: [v.delay(...)] and [v.at(...)] of a state [v] give the
    state and the instant; all other attributes of this model have no such method.
    Simplification: values with methods of these names are not modelled. *)
Definition delay_state (a : attr) : option (state F) :=
  match a with ABound st => Some st | AEntry _ => None end.

(** What a state function that returns the attribute gives to [FSM.step].
    Simplification: other values are objects. *)
Definition returned (a : attr) : pyval F :=
  match a with ABound st | AEntry (EState st) => PState st | _ => PObj end.

(** [self.step()], as the scheduler calls it: the function that is called, or None for an
    exception (soil/agents/fsm.py:32-33: states cannot be called). *)
Definition step_fun (d : dict string attr) : option F :=
  match getattr d "step" with Some (AEntry (EFun f)) => Some f | _ => None end.
End Attrs.
Arguments entry : clear implicits.
Arguments attr : clear implicits.
Arguments fcls : clear implicits.
Arguments base : clear implicits.
