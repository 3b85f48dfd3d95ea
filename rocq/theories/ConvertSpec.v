(** Small specification for simulations that are written and made again. *)
From Coq Require Import List Bool String.
From Verif Require Import PyDict SimModel SerialModel SerialSpec ConvertModel.
Import ListNotations.

(** A value as a text: numbers (and other atoms) become their [repr], the rest is the same. *)
Definition as_text {A C} (repr : value A C -> string) (v : value A C) : value A C :=
  match v with VAtom a => VStr (repr (VAtom a)) | _ => v end.
Definition texts {A C} (repr : value A C -> string) (d : list (dkey A * value A C)) : list (dkey A * value A C) :=
  map (fun kv => (fst kv, as_text repr (snd kv))) d.

(** Matrices of lists of numbers (or other atoms) and of texts that are not empty. *)
Definition simple {A C} (v : value A C) : Prop :=
  match v with VAtom _ => True | VStr s => s <> ""%string | _ => False end.
Definition simple_matrix {A C} (m : list (dkey A * value A C)) : Prop :=
  Forall (fun kv => exists l, snd kv = VList l /\ Forall simple l) m.
