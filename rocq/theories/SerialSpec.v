(** What is expected of the names of classes. *)
From Coq Require Import List Ascii String.
From Verif Require Import PyDict SerialModel.
Import ListNotations.
Local Open Scope string_scope.

(** Texts without a dot. *)
Fixpoint no_dot (s : string) : Prop :=
  match s with "" => True | String c s' => c <> "."%char /\ no_dot s' end.

Section Spec.
Context {O : Type} (import : string -> option (dict string O)).
Notation registry := (dict string (option (dict string O))).
(** What a module has: as it is registered, or else as Python imports it. *)
Definition contents (r : registry) (modname : string) : option (dict string O) :=
  match dget modname r with Some (Some m) => Some m | _ => import modname end.
(** The module has an object under a name. *)
Definition has (r : registry) (modname n : string) (o : O) : Prop :=
  exists m, contents r modname = Some m /\ dget n m = Some o.
Definition has_not (r : registry) (modname n : string) : Prop := forall o, ~ has r modname n o.
(** The object is that of the first of the registered modules that has the name. *)
Definition first_with (r : registry) (n : string) (o : O) : Prop :=
  exists before k later, dkeys r = (before ++ k :: later)%list /\ (forall j, In j before -> has_not r j n) /\ has r k n o.
(** What is used for an object: its attribute [deserialize], or the object itself when it has none. *)
Definition usable (hook : O -> option O) (o f : O) : Prop := hook o = Some f \/ (hook o = None /\ f = o).
(** Names that are neither special nor builtin, are not qualified and do not look like the text of a class. *)
Definition ordinary (builtins : dict string O) (n : string) : Prop :=
  n <> "str" /\ n <> "None" /\ dget n builtins = None /\ no_dot n /\ (forall s, n <> String "<" s).
(** Attributes of modules and builtins have names without dots. *)
Definition plain_names (builtins : dict string O) (r : registry) : Prop :=
  (forall n, In n (dkeys builtins) -> no_dot n) /\
  (forall k m n, contents r k = Some m -> In n (dkeys m) -> no_dot n).
End Spec.

(** * Dictionaries *)
Section Values.
Context {A C : Type}.
Notation val := (value A C).
(** Fields that can be written as they are: no class, and lists of texts that are not empty or of dictionaries of
    such fields. *)
Fixpoint writable (v : val) : Prop :=
  match v with
  | VStr _ | VAtom _ | VTuple _ => True
  | VClass _ => False
  | VDict d => fold_right (fun kv P => writable (snd kv) /\ P) True d
  | VList l => fold_right (fun x P => match x with VStr s => s <> "" | VDict _ => writable x | _ => False end /\ P) True l
  end.
(** Values all of whose lists are such lists. *)
Fixpoint plain_lists (v : val) : Prop :=
  match v with
  | VDict d => fold_right (fun kv P => plain_lists (snd kv) /\ P) True d
  | VList _ => writable v
  | _ => True
  end.
End Values.
