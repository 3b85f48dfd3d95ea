(** Model of the parts of soil/agents/__init__.py that create and drive an agent: the
    decorator of generator steps, the merging of class defaults, the constructor and
    [prob]. *)
From Coq Require Import ZArith List Bool Arith String.
From Verif Require Import Num PyDict TimedModel.
Import ListNotations.
Local Open Scope string_scope.

(** * soil/agents/__init__.py:28-46, [decorate_generator_step] *)

(** How one resumption of a generator ends: it yields a value and is suspended in [q],
    it returns, or it raises ([DeadAgent] if [dead]). *)
Inductive gout (Q V : Type) :=
| GYield (v : V) (q : Q)
| GReturn (v : V)
| GRaise (dead : bool).
Arguments GYield {Q V}. Arguments GReturn {Q V}. Arguments GRaise {Q V}.

(** A generator object: suspended, or finished. *)
Inductive gobj (Q : Type) := GSusp (q : Q) | GDone.
Arguments GSusp {Q}. Arguments GDone {Q}.

(** The attribute [_coroutine]: a class attribute (soil/agents/__init__.py:77) and the
    instance attribute of each agent that has one. *)
Record cors (Q : Type) := Cors {
  co_class : option (gobj Q);
  co_inst : dict aid (option (gobj Q)) }.
Arguments Cors {Q}. Arguments co_class {Q}. Arguments co_inst {Q}.

(** [self._coroutine] and [self._coroutine = c]. *)
Definition get_co {Q} (c : cors Q) (a : aid) : option (gobj Q) :=
  match dget a (co_inst c) with Some x => x | None => co_class c end.
Definition set_co {Q} (c : cors Q) (a : aid) (x : option (gobj Q)) : cors Q :=
  Cors (co_class c) (dset a x (co_inst c)).

(** soil/agents/__init__.py:74-78: no coroutine at all when the class is created. *)
Definition no_cors {Q} : cors Q := Cors None [].

Section Generator.
Context {W Q V : Type}.

(** The user's generator function: [g_start a] is the generator object returned by
    calling it, and [g_resume s a q w] runs it from [q] up to the next yield, the return
    or an exception; it gives the new world, the calls made on the scheduler and how it
    ended.  A coroutine that awaits a [Delay] is a generator that yields its length
    (soil/time.py:27-28).  Simplification: the value sent is always None, because
    nothing in the library sets [_last_return] or [_last_except]. *)
Variable g_start : aid -> Q.
Variable g_resume : sched -> aid -> Q -> W -> W * list sop * gout Q V.
(** The value None, and [float(val)]: None when it raises. *)
Variable v_none : V.
Variable is_none : V -> bool.
Variable to_float : V -> option num.

(** What [send] ends in. *)
Inductive sent := SYield (v : V) | SStop (v : V) | SRaise (dead : bool).

(** Python's [generator.send(None)]. *)
Definition send (s : sched) (a : aid) (g : gobj Q) (w : W) : W * list sop * gobj Q * sent :=
  match g with
  | GDone => (w, [], GDone, SStop v_none)
  | GSusp q =>
      match g_resume s a q w with
      | (w', ops, GYield v q') => (w', ops, GSusp q', SYield v)
      | (w', ops, GReturn v) => (w', ops, GDone, SStop v)
      | (w', ops, GRaise d) => (w', ops, GDone, SRaise d)
      end
  end.

(** soil/agents/__init__.py:45: [float(val) if val is not None else val]. *)
Definition as_delay (v : V) : outcome :=
  if is_none v then Ret None
  else match to_float v with Some x => Ret (Some x) | None => Exc end.

(** soil/agents/__init__.py:30-45: the decorated step.  The loop is left in its first
    turn in all cases. *)
Definition decorated (s : sched) (a : aid) (w : W) (c : cors Q)
  : W * cors Q * list sop * outcome :=
  let g := match get_co c a with None => GSusp (g_start a) | Some g => g end in
  let c1 := set_co c a (Some g) in
  let '(w', ops, g', r) := send s a g w in
  let c2 := set_co c1 a (Some g') in
  match r with
  | SYield v => (w', c2, ops, as_delay v)
  | SStop v => (w', set_co c2 a None, ops, as_delay v)
  | SRaise true => (w', c2, ops, Dead)
  | SRaise false => (w', c2, ops, Exc)
  end.

(** Any sequence of activations of any agents, with arbitrary changes of the world in
    between; what is recorded of each is the agent, the scheduler, the worlds before and
    after, the calls made on the scheduler and the outcome. *)
Definition record : Type := sched * W * W * list sop * outcome.
Fixpoint activations (l : list (sched * aid * (W -> W))) (w : W) (c : cors Q)
  : list (aid * record) :=
  match l with
  | [] => []
  | (s, a, f) :: l' =>
      let w1 := f w in
      let '(w2, c2, ops, o) := decorated s a w1 c in
      (a, (s, w1, w2, ops, o)) :: activations l' w2 c2
  end.
End Generator.
Arguments SYield {V}. Arguments SStop {V}. Arguments SRaise {V}.

(** * soil/agents/__init__.py:57-102, [MetaAgent.__new__]: class defaults *)

(** A class: its identity, its bases and the part of its namespace that matters, in the
    order of the class body. *)
Inductive cls (I : Type) := Cls (id : nat) (bases : list (cls I)) (own : list I).
Arguments Cls {I}.
Definition c_id {I} (c : cls I) : nat := match c with Cls i _ _ => i end.
Definition c_bases {I} (c : cls I) : list (cls I) := match c with Cls _ b _ => b end.
Definition c_own {I} (c : cls I) : list I := match c with Cls _ _ o => o end.

(** Entries of a class body that set defaults: an attribute that is neither a function,
    a property, a class method nor private, or the attribute [defaults]. *)
Inductive item (V : Type) := IAttr (k : string) (v : V) | IDefaults (d : dict string V).
Arguments IAttr {V}. Arguments IDefaults {V}.

(** soil/agents/__init__.py:70-98: the loop over the namespace. *)
Definition own_defaults {V} (own : list (item V)) (d : dict string V) : dict string V :=
  fold_left (fun d i => match i with
                        | IAttr k v => dset k v d
                        | IDefaults e => dupdate d e
                        end) own d.

(** soil/agents/__init__.py:58-68 and 70-98: [cls._defaults].  Bases that are not made
    by [MetaAgent] are left out of [bases]. *)
Fixpoint defaults {V} (c : cls (item V)) : dict string V :=
  match c with
  | Cls _ bases own =>
      own_defaults own (fold_left (fun d b => dupdate d (defaults b)) bases [])
  end.

(** * soil/agents/__init__.py:117-146, [BaseAgent.__init__] *)

(** Values: None, objects that are not copied by [deepcopy] (numbers, strings, ...), and
    references to a heap of mutable objects with contents [C].  Simplification: the
    contents of an object are opaque, so [deepcopy] is a new object with the same
    contents. *)
Inductive val := VNone | VAtom (z : Z) | VRef (l : nat).
Definition is_VNone (v : val) : bool := match v with VNone => true | _ => false end.

Definition deepcopy {C} (h : list C) (v : val) : list C * val :=
  match v with
  | VRef l => match nth_error h l with
              | Some c => ((h ++ [c])%list, VRef (List.length h))
              | None => (h, v)
              end
  | _ => (h, v)
  end.

Section Init.
Context {C : Type}.
(** Attributes found in the class (methods, properties, ...). *)
Variable class_attr : string -> option val.
(** [getattr(model, k, None)], with None for a missing attribute. *)
Variable model_attr : string -> val.
(** Properties without a setter: [setattr] raises AttributeError. *)
Variable read_only : string -> bool.

Definition setattr (d : dict string val) (k : string) (v : val) : option (dict string val) :=
  if read_only k then None else Some (dset k v d).
Definition lookup (d : dict string val) (k : string) : option val :=
  match dget k d with Some v => Some v | None => class_attr k end.

(** soil/agents/__init__.py:133-136. *)
Fixpoint from_model (ks : list string) (d : dict string val) : option (dict string val) :=
  match ks with
  | [] => Some d
  | k :: ks' =>
      let v := model_attr k in
      if is_VNone v then from_model ks' d
      else match setattr d k v with Some d' => from_model ks' d' | None => None end
  end.

(** soil/agents/__init__.py:138-140. *)
Fixpoint from_defaults (ds : dict string val) (d : dict string val) (h : list C)
  : option (dict string val * list C) :=
  match ds with
  | [] => Some (d, h)
  | (k, v) :: ds' =>
      let missing := match lookup d k with None => true | Some v0 => is_VNone v0 end in
      if missing then
        let '(h', v') := deepcopy h v in
        match setattr d k v' with Some d' => from_defaults ds' d' h' | None => None end
      else from_defaults ds' d h
  end.

(** soil/agents/__init__.py:142-143. *)
Fixpoint from_kwargs (kw : dict string val) (d : dict string val) : option (dict string val) :=
  match kw with
  | [] => Some d
  | (k, v) :: kw' =>
      match setattr d k v with Some d' => from_kwargs kw' d' | None => None end
  end.

(** soil/agents/__init__.py:117-143, before [init()].  [unique_id], [model], [name] and
    [logger] are the values that mesa's constructor and lines 121-128 compute for these
    attributes; mesa sets [pos] to None and line 125 sets [alive] to True (here 1).  The
    result is the instance dictionary and the heap, or None if an exception is raised.
    Lines 130-131 only set a log level. *)
Definition base_init (ds : dict string val) (unique_id model name logger : val)
    (kw : dict string val) (h : list C) : option (dict string val * list C) :=
  let d0 := [("unique_id", unique_id); ("model", model); ("pos", VNone); ("name", name);
             ("alive", VAtom 1); ("logger", logger)] in
  match from_model (dkeys ds) d0 with
  | None => None
  | Some d1 =>
      match from_defaults ds d1 h with
      | None => None
      | Some (d2, h2) =>
          match from_kwargs kw d2 with
          | None => None
          | Some d3 => Some (d3, h2)
          end
      end
  end.
End Init.

(** * soil/agents/__init__.py:303-315, [prob]: [draw] is what [random.random()] gives. *)
Definition prob (draw p : num) : bool := n_ltb draw p.
