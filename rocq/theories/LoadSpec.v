(** What is expected of the loading of simulation files. *)
From Coq Require Import List Bool String.
From Verif Require Import PyDict SimModel LoadModel.
Import ListNotations.
Local Open Scope string_scope.
Local Open Scope list_scope.

Section Spec.
Context {V R C : Type}.

(** The simulations whose [run] is called by a file, in order. *)
Definition calls (f : list (stmt V R C)) : list (sim V R) :=
  flat_map (fun st => match st with SRun s => [s] | _ => [] end) f.

(** The value that a name has at the end of a file. *)
Definition binding (f : list (stmt V R C)) (n : string) : option (value V R C) :=
  fold_left (fun o st =>
    match st with
    | SSim n' s => if String.eqb n n' then Some (VSim s) else o
    | SClass n' c => if String.eqb n n' then Some (VClass c) else o
    | _ => o
    end) f None.

Definition raises (f : list (stmt V R C)) : Prop := In SRaise f.

(** Names in alphabetical order, none repeated. *)
Fixpoint alphabetical (l : list string) : Prop :=
  match l with
  | [] => True
  | n :: l' => Forall (fun n' => String.leb n n' = true /\ n <> n') l' /\ alphabetical l'
  end.

(** [named] lists the names that are bound to a simulation, in order. *)
Definition named_sims (f : list (stmt V R C)) (named : list (string * sim V R)) : Prop :=
  alphabetical (map fst named) /\
  forall n s, In (n, s) named <-> binding f n = Some (VSim s).

(** [named] lists the names that are bound to a class of environments, in order. *)
Definition named_classes (f : list (stmt V R C)) (named : list (string * C)) : Prop :=
  alphabetical (map fst named) /\
  forall n c, In (n, c) named <-> binding f n = Some (VClass c).
End Spec.

(** [l'] is [l] and then, in the order of [new], the elements of [new] that are not in
    [l], each of them once. *)
Inductive extended (l : list string) : list string -> list string -> Prop :=
| ext_nil : extended l [] l
| ext_old new e l' : extended l new l' -> In e l' -> extended l (new ++ [e]) l'
| ext_new new e l' : extended l new l' -> ~ In e l' -> extended l (new ++ [e]) (l' ++ [e]).
