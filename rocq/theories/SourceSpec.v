(** What is expected of the registry of source files. *)
From Coq Require Import List Bool Arith String.
From Verif Require Import PyDict SourceModel.
Import ListNotations.

Section SourceSpec.
Context {F : Type} `{EF : Eqb F}.

(** No file is used again inside of a block that uses it. *)
Fixpoint distinct (open : list F) (s : stmt F) : Prop :=
  let all := fix all open l := match l with [] => True | s :: l' => distinct open s /\ all open l' end in
  match s with
  | With None _ body => all open body
  | With (Some f) _ body => ~ In f open /\ all (f :: open) body
  | _ => True
  end.
(** Nothing raises in the program itself. *)
Fixpoint quiet (s : stmt F) : Prop :=
  let all := fix all l := match l with [] => True | s :: l' => quiet s /\ all l' end in
  match s with
  | With _ loads body => loads = true /\ all body
  | Raise => False
  | _ => True
  end.

(** The modules of all the files of [open] are known, under names of their own. *)
Definition own_names (open : list F) (r : reg F) : Prop :=
  exists name : F -> nat,
  (forall f, In f open -> dget f (r_files r) = Some (name f) /\ dget (Imported (name f)) (r_known r) = Some (FromFile f)) /\
  (forall f g, In f open -> In g open -> name f = name g -> f = g).

(** The registry before any block: no files, and no modules of files. *)
Definition fresh (r : reg F) : Prop :=
  r_files r = [] /\ dwf (r_known r) /\ forall n, dget (Imported n) (r_known r) = None.

(** The modules that are known: those of files are the same, and others are the same unless
    they were not yet imported and have been imported since. *)
Definition unchanged (r r' : reg F) : Prop :=
  r_files r' = r_files r /\
  (forall n, dget (Imported n) (r_known r') = dget (Imported n) (r_known r)) /\
  (forall s, dget (Other s) (r_known r') = dget (Other s) (r_known r) \/
     (dget (Other s) (r_known r) = None \/ dget (Other s) (r_known r) = Some NotYet) /\
     dget (Other s) (r_known r') = Some (ByName s)).
End SourceSpec.
