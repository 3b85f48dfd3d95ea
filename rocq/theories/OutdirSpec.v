(** Where the files of a run should be. *)
From Coq Require Import List Bool Arith ZArith String.
From Verif Require Import PyDict ExportModel.
Import ListNotations.
Local Open Scope string_scope.
Local Open Scope list_scope.

(** The directory of a simulation: outdir/group/name, where outdir is "soil_output" in the
    current directory if it is not given, and the group may be missing. *)
Definition directory_of (cwd : path) (s : sim) (dir : path) : Prop :=
  exists base group,
    dir = base ++ group ++ [s_name s] /\
    match s_outdir s with
    | None | Some [] => base = cwd ++ ["soil_output"]
    | Some b => base = b
    end /\
    match s_group s with
    | None | Some EmptyString => group = []
    | Some g => group = [g]
    end.
(** A file in it, or in its directory of backups. *)
Definition output_file (dir p : path) : Prop :=
  exists f, p = dir ++ [f] \/ p = dir ++ ["backup"; f].
(** A directory that is needed for those. *)
Definition needed (dir p : path) : Prop :=
  exists r, dir ++ ["backup"] = p ++ r.
