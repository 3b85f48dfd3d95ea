(** What paths mean. *)
From Coq Require Import List Bool Arith String Ascii.
From Verif Require Import PathModel.
Import ListNotations.
Local Open Scope string_scope.

(** Walking from a directory (the names from the root on): "" and "." stay, ".." goes up (the root is its
    own parent).  There are no symbolic links. *)
Definition walk1 (dir : list string) (name : string) : list string :=
  if String.eqb name "" then dir
  else if String.eqb name "." then dir
  else if String.eqb name ".." then removelast dir
  else (dir ++ [name])%list.
(** The file that the path [p] means in the directory [cwd]. *)
Definition means (cwd : list string) (p : string) : list string :=
  fold_left walk1 (split p) (match p with String "/" _ => [] | _ => cwd end).

(** A name of a file or directory. *)
Definition proper (n : string) : Prop := n <> "" /\ n <> "." /\ n <> ".." /\ ~ exists a b, n = a ++ "/" ++ b.
(** The text of an absolute path without anything superfluous, as [os.getcwd()] gives. *)
Definition text_of (d : list string) : string := "/" ++ concat "/" d.
