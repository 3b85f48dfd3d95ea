(** Paths as texts: the functions of [os.path] (on POSIX systems) that soil uses, in soil/analysis.py:33-41,
    soil/simulation.py:93-119 and 302-310, soil/exporters.py:53-57 and 128, soil/network.py:28-30. *)
From Coq Require Import List Bool Arith String Ascii.
From Verif Require Import PyDict.
Import ListNotations.
Local Open Scope string_scope.

Definition slash : ascii := "/"%char.

(** [s.split("/")]: never empty. *)
Fixpoint split (s : string) : list string :=
  match s with
  | "" => [""]
  | String c s' =>
      if Ascii.eqb c slash then "" :: split s'
      else match split s' with
           | p :: ps => String c p :: ps
           | [] => [String c ""]
           end
  end.

(** [os.path.isabs] (of the standard library, used at soil/simulation.py:118, soil/network.py:28). *)
Definition isabs (p : string) : bool := prefix "/" p.
Fixpoint ends_slash (s : string) : bool :=
  match s with
  | "" => false
  | String c "" => Ascii.eqb c slash
  | String _ s' => ends_slash s'
  end.
(** [os.path.join] with two arguments (of the standard library, used at soil/analysis.py:37). *)
Definition join (a b : string) : string :=
  if isabs b then b
  else match a with
       | "" => b
       | _ => if ends_slash a then a ++ b else a ++ "/" ++ b
       end.
(** [os.path.join(a, *l)]. *)
Definition joins (a : string) (l : list string) : string := fold_left join l a.

(** [os.path.normpath] (of the standard library): one component. *)
Definition norm_step (initial : nat) (acc : list string) (comp : string) : list string :=
  if eqb comp "" || eqb comp "." then acc
  else if negb (eqb comp "..") || (Nat.eqb initial 0 && match acc with [] => true | _ => false end) ||
          match acc with [] => false | _ => eqb (last acc "") ".." end
  then (acc ++ [comp])%list
  else removelast acc.
Definition slashes (p : string) : nat :=
  if prefix "/" p then if prefix "//" p && negb (prefix "///" p) then 2 else 1 else 0.
Definition slash_text (n : nat) : string := match n with 0 => "" | 1 => "/" | _ => "//" end.
Definition normpath (p : string) : string :=
  match p with
  | "" => "."
  | _ =>
      let r := slash_text (slashes p) ++ concat "/" (fold_left (norm_step (slashes p)) (split p) []) in
      match r with "" => "." | _ => r end
  end.
(** [os.path.abspath] (of the standard library, used at soil/analysis.py:38), in the directory [cwd]. *)
Definition abspath (cwd p : string) : string := normpath (if isabs p then p else join cwd p).

(** [s.rstrip("/")]. *)
Fixpoint rstrip (s : string) : string :=
  match s with
  | "" => ""
  | String c s' => match rstrip s' with
                   | "" => if Ascii.eqb c slash then "" else String c ""
                   | r => String c r
                   end
  end.
(** [os.path.dirname] (of the standard library, used at soil/simulation.py:309): what is left of the last
    slash, without the slashes at its end unless there is nothing else. *)
Definition dirname (p : string) : string :=
  let head := match removelast (split p) with
              | [] => ""
              | l => concat "/" l ++ "/"
              end in
  match rstrip head with "" => head | h => h end.

(** [sub in s]. *)
Fixpoint contains (sub s : string) : bool :=
  prefix sub s || match s with "" => false | String _ s' => contains sub s' end.

(** soil/analysis.py:33-41 [read_sql]: the URL that is opened, in the directory [cwd]. *)
Inductive url := Url (u : string) | ValueError | TypeError.
Definition read_url (cwd : string) (fpath name : option string) : url :=
  match fpath, name with
  | None, None | Some _, Some _ => ValueError
  | _, _ =>
      let path := match name with
                  | None | Some "" => fpath
                  | Some n => Some (joins "soil_output" [n; n ++ ".sqlite"])
                  end in
      match path with
      | None => TypeError       (* abspath(None) *)
      | Some p =>
          let p := abspath cwd p in
          Url (if contains "://" p then p else "sqlite:///" ++ p)
      end
  end.

(** soil/exporters.py:53-57 and 128: the database of a simulation, from the arguments [outdir] of the
    exporter, and the group and the name of the simulation. *)
Definition sqlite_path (cwd : string) (outdir group : option string) (name : string) : string :=
  let outdir := match outdir with
                | None | Some "" => join cwd "soil_output"
                | Some d => d
                end in
  join (joins outdir [match group with Some g => g | None => "" end; name]) (name ++ ".sqlite").
