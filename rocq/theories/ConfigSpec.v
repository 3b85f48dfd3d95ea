(** What loading should do. *)
From Coq Require Import List Bool Arith String Ascii.
From Verif Require Import PyDict PathModel ConfigModel.
Import ListNotations.
Local Open Scope string_scope.
Local Open Scope list_scope.

Section Spec.
Context {V Sim M E : Type}.
Variable cwd : string.
Variable glob : string -> list string.
Variable documents : string -> list (doc V E) + exn E.
Variable text : string -> V.

(** The configurations in these files, each with the name of its file. *)
Inductive reads_files : list string -> list (dict string V * string) -> Prop :=
| rf_nil : reads_files [] []
| rf_cons f fs docs l : documents f = inl (map Map docs) -> reads_files fs l ->
    reads_files (f :: fs) (map (fun d => (d, f)) docs ++ l).
(** The configurations of a source, each with its default directory. *)
Inductive reads : source V -> list (dict string V * string) -> Prop :=
| r_dict d : reads (Dict d) [(d, dirname cwd)]
| r_files p l : reads_files (glob p) l ->
    reads (Pattern p) (map (fun x => (fst x, dirname (abspath cwd (snd x)))) l).

(** The arguments for a simulation: the ones of the call, then the ones of the configuration, then the
    default directory. *)
Definition asks_for (kwargs : dict string V) (c : dict string V * string) (d : dict string V) : Prop :=
  forall k, dget k d =
    match dget k kwargs with
    | Some v => Some v
    | None => match dget k (fst c) with
              | Some v => Some v
              | None => if String.eqb k "dir_path" then Some (text (snd c)) else None
              end
    end.

(** Simulations are made of these arguments, in order, until one cannot be made. *)
Inductive built (simulation : dict string V -> Sim + exn E) :
    list (dict string V) -> list Sim -> option (exn E) -> Prop :=
| b_done : built simulation [] [] None
| b_one d ds s l e : simulation d = inl s -> built simulation ds l e -> built simulation (d :: ds) (s :: l) e
| b_fails d ds e : simulation d = inr e -> built simulation (d :: ds) [] (Some e).
End Spec.
