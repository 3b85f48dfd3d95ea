(** Model of the registry of source files: soil/serialization.py:113-165. *)
From Coq Require Import List Bool Arith String.
From Verif Require Import PyDict.
Import ListNotations.

Section Source.
(** Absolute paths of files. *)
Context {F : Type} `{EF : Eqb F}.

(** Names of modules: [imported_module_n], or another one. *)
Inductive mname := Imported (n : nat) | Other (s : string).
#[global, refine] Instance Eqb_mname : Eqb mname := {|
  eqb a b := match a, b with
             | Imported n, Imported m => eqb n m
             | Other s, Other t => eqb s t
             | _, _ => false
             end |}.
Proof.
  intros [n|s] [m|t]; try rewrite eqb_eq; split; intros E; try congruence; try discriminate; now injection E.
Defined.
(** A module: loaded from a file of the registry, or imported by its name; None in
    KNOWN_MODULES is [NotYet]. *)
Inductive module := FromFile (f : F) | ByName (s : string) | NotYet.

(** MODULE_FILES (only the number of the name is kept) and KNOWN_MODULES,
    soil/serialization.py:113-118. *)
Record reg := Reg { r_files : dict F nat; r_known : dict mname module }.

(** ValueError is the one of _remove_source_file, ImportFailed what the code of the file
    raises, UserError what the body of a block raises. *)
Inductive exn := ValueError | ImportFailed | UserError.

(** soil/serialization.py:136-144. *)
Definition remove_source (f : F) (r : reg) : reg * option exn :=
  match dget f (r_files r) with
  | None => (r, Some ValueError)
  | Some n =>
      let files := ddel f (r_files r) in
      if dhas (Imported n) (r_known r) then (Reg files (ddel (Imported n) (r_known r)), None)
      else (Reg files (r_known r), Some ValueError)
  end.

(** soil/serialization.py:120-134; [loads] tells whether the file can be executed.
    Simplification: the code of the file does not touch the registry. *)
Definition add_source (f : F) (loads : bool) (r : reg) : reg * option exn :=
  let '(r1, x) := if dhas f (r_files r) then remove_source f r else (r, None) in
  match x with
  | Some _ => (r1, x)
  | None =>
      let n := List.length (r_files r1) in
      if loads then (Reg (dset f n (r_files r1)) (dset (Imported n) (FromFile f) (r_known r1)), None)
      else (r1, Some ImportFailed)
  end.

(** soil/serialization.py:158-163, for a name that is not [imported_module_n] and that can
    be imported. *)
Definition get_module (s : string) (r : reg) : reg :=
  match dget (Other s) (r_known r) with
  | None | Some NotYet => Reg (r_files r) (dset (Other s) (ByName s) (r_known r))
  | Some _ => r
  end.

(** Programs: [with with_source(file): body] (without file: None), [get_module(s)], an
    exception, and a look at the registry. *)
Inductive stmt := With (file : option F) (loads : bool) (body : list stmt) | Import (s : string) | Raise | Look.

(** The execution of a list of statements inside of the blocks of [open]: the registry, what
    was seen (with the files of the open blocks), and the exception.
    soil/serialization.py:147-156 for a block. *)
Definition look : Type := list F * reg.
Fixpoint run (open : list F) (s : stmt) (r : reg) : reg * list look * option exn :=
  let runs := fix runs open l r :=
    match l with
    | [] => (r, [], None)
    | s :: l' =>
        match run open s r with
        | (r1, t1, Some x) => (r1, t1, Some x)
        | (r1, t1, None) => let '(r2, t2, x) := runs open l' r1 in (r2, t1 ++ t2, x)
        end
    end in
  match s with
  | With None _ body => runs open body r
  | With (Some f) loads body =>
      match add_source f loads r with
      | (r1, Some x) => (r1, [], Some x)
      | (r1, None) =>
          let '(r2, t, x) := runs (f :: open) body r1 in
          match remove_source f r2 with
          | (r3, Some y) => (r3, t, Some y)
          | (r3, None) => (r3, t, x)
          end
      end
  | Import s => (get_module s r, [], None)
  | Raise => (r, [], Some UserError)
  | Look => (r, [(open, r)], None)
  end.
Definition run_block (body : list stmt) (r : reg) : reg * list look * option exn :=
  run [] (With None true body) r.
End Source.
Arguments module : clear implicits.
Arguments reg : clear implicits.
Arguments stmt : clear implicits.
Arguments Import {F}. Arguments Raise {F}. Arguments Look {F}. Arguments NotYet {F}. Arguments ByName {F}.
