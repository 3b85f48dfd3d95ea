(** Model of [Simulation.__post_init__], soil/simulation.py:109-128, and of the copies that
    [dataclasses.replace] makes (soil/simulation.py:48, 133 and 355). *)
From Coq Require Import List Bool Arith String Ascii ZArith.
From Verif Require Import PyDict PathModel.
Import ListNotations.
Local Open Scope string_scope.

Section Init.
(** Classes, with their [__name__], and what the name of a class refers to while a source file is registered
    (SerialModel.v and SourceModel.v; None: an exception). *)
Context {C : Type}.
Variable class_name : C -> string.
Variable deserialize : option string -> string -> option C.

(** The attribute [model]: a text or a class. *)
Inductive model := MText (s : string) | MClass (c : C).

(** The arguments of [Simulation] that matter here. *)
Record fields := Fields { f_name : option string; f_model : model; f_source : option string; f_dir : string }.
(** A simulation: all fields are set, and it has an identifier made of its name and the time. *)
Record sim := Sim { s_name : string; s_model : C; s_source : option string; s_dir : string; s_id : string * Z }.

(** soil/simulation.py:109-128, in the directory [cwd], at the instant [now]. *)
Definition post_init (cwd : string) (now : Z) (f : fields) : option sim :=
  let name := match f_name f with
              | Some n => n
              | None => match f_model f with MText s => s | MClass c => class_name c end
              end in
  let source := match f_source f with
                | None => None
                | Some "" => Some ""
                | Some p => if isabs p then Some p else Some (abspath cwd (join (f_dir f) p))
                end in
  let found := match f_model f with
               | MText s => deserialize source s
               | MClass c => Some c
               end in
  match found with
  | None => None
  | Some c => Some (Sim name c source (f_dir f) (name, now))
  end.

(** [dataclasses.replace]: a new simulation from the fields, with changes. *)
Record changes := Changes {
  c_name : option (option string); c_model : option model; c_source : option (option string); c_dir : option string }.
Definition or {X} (o : option X) (x : X) : X := match o with Some y => y | None => x end.
Definition replace (cwd : string) (now : Z) (ch : changes) (s : sim) : option sim :=
  post_init cwd now (Fields (or (c_name ch) (Some (s_name s))) (or (c_model ch) (MClass (s_model s)))
                            (or (c_source ch) (s_source s)) (or (c_dir ch) (s_dir s))).
End Init.
Arguments model : clear implicits.
Arguments fields : clear implicits.
Arguments sim : clear implicits.
Arguments changes : clear implicits.
