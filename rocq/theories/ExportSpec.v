(** What should happen to files. *)
From Coq Require Import List Bool Arith ZArith String.
From Verif Require Import PyDict ExportModel.
Import ListNotations.
Local Open Scope string_scope.
Local Open Scope list_scope.

(** The text is at the start of some file. *)
Definition kept (v : string) (d : disk) : Prop := exists q w, contents d q = Some (v ++ w)%string.
(** The text is part of a file. *)
Definition part_of (v : string) (d : disk) (p : path) : Prop :=
  exists a b, contents d p = Some (a ++ v ++ b)%string.

(** Histories of outputs with backup: a file is opened and written with [open_or_reuse], or
    moved away with [try_backup(remove=True)] and written from scratch (as the database is). *)
Inductive step := SOpen (p : path) (m : mode) (text : string) | SMove (p : path) (text : string).
Definition target (s : step) : path := match s with SOpen p _ _ | SMove p _ => p end.
Definition perform (clock : nat -> Z) (stamp : Z -> string) (s : step) (d : disk) : disk :=
  match s with
  | SOpen p m text => fst (open_or_reuse clock stamp p m true (text, None) d)
  | SMove p text => tick (write clock p text (try_backup clock stamp p true d))
  end.
Definition performs clock stamp (l : list step) (d : disk) : disk :=
  fold_left (fun d s => perform clock stamp s d) l d.
Definition empty : disk := Disk [] [] 0.
(** Output files are files, and not in a directory for backups. *)
Definition proper_path (p : path) : Prop := p <> [] /\ basename (dirname p) <> "backup".
(** The same file is never written twice in the same second. *)
Definition apart (clock : nat -> Z) (stamp : Z -> string) (l : list step) : Prop :=
  forall i j a b, nth_error l i = Some a -> nth_error l j = Some b -> target a = target b ->
    stamp (clock i) = stamp (clock j) -> i = j.
