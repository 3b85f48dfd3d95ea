(** Model of the loading of simulations from files and dictionaries: soil/simulation.py:290-317, 320-358 and
    362-365, and soil/serialization.py:24-33 and 91-103. *)
From Coq Require Import List Bool Arith String Ascii.
From Verif Require Import PyDict PathModel.
Import ListNotations.
Local Open Scope string_scope.
Local Open Scope list_scope.

Section Config.
(** Values of configurations, simulations, modules and exceptions other than the ones below. *)
Context {V Sim M E : Type}.

Inductive exn := EValue | EAttribute | EIndex | EOther (e : E).

(** A document of a YAML file: a mapping, or something that [dict(...)] refuses with this exception. *)
Inductive doc := Map (d : dict string V) | NoMap (e : exn).

(** The variables of the interpreter that loading changes: [sys.path] and [sys.modules]. *)
Record interp := Interp { sys_path : list string; sys_modules : dict string M }.

(** The environment: the current directory, the files that match a pattern ([glob.glob], recursive),
    the documents of a file after the expansion of its templates (soil/serialization.py:28-29; TemplateModel.v
    has the expansion), or what reading it raises, and whether the name of a file is one of a Python module
    ([importlib.util.spec_from_file_location] is None otherwise). *)
Variable cwd : string.
Variable glob : string -> list string.
Variable documents : string -> list doc + exn.
Variable is_py : string -> bool.
(** Executing a Python module in an interpreter, which may change it: the simulations that are found
    (soil/simulation.py:337-347; LoadModel.v), or an exception. *)
Variable execute : string -> interp -> interp * (list Sim + exn).
Variable new_module : M.
(** [dataclasses.replace] of a simulation with these arguments, and [Simulation] with these arguments. *)
Variable replace : Sim -> dict string V -> Sim + exn.
Variable simulation : dict string V -> Sim + exn.
(** Texts as values. *)
Variable text : string -> V.

(** What a generator yields, and the exception that ends it, if any. *)
Definition gen (X : Type) : Type := list X * option exn.
(** soil/serialization.py:25-27 in [load_file] and soil/simulation.py:329-332. *)
Definition on_path (folder : string) (i : interp) : bool := existsb (String.eqb folder) (sys_path i).
Definition add_path (folder : string) (i : interp) : interp :=
  if on_path folder i then i else Interp (sys_path i ++ [folder]) (sys_modules i).
(** [list.remove]: the first occurrence; None: ValueError. *)
Fixpoint remove_first (x : string) (l : list string) : option (list string) :=
  match l with
  | [] => None
  | y :: l' => if String.eqb x y then Some l' else option_map (cons y) (remove_first x l')
  end.

(** soil/serialization.py:24-29 [load_file] and 91-96 [load_files] for the files of one pattern; all of it is
    read before anything else happens (soil/simulation.py:304). *)
Fixpoint load_paths (l : list string) (i : interp) : interp * (list (doc * string) + exn) :=
  match l with
  | [] => (i, inl [])
  | f :: l' =>
      let i1 := add_path (dirname f) i in
      match documents f with
      | inr e => (i1, inr e)
      | inl docs =>
          match load_paths l' i1 with
          | (i2, inr e) => (i2, inr e)
          | (i2, inl rest) => (i2, inl (map (fun d => (d, abspath cwd f)) docs ++ rest))
          end
      end
  end.

(** The argument of [from_config]: a dictionary, or a text. *)
Inductive source := Dict (d : dict string V) | Pattern (p : string).
(** soil/serialization.py:99-103 [load_config]. *)
Definition load_config (c : source) (i : interp) : interp * (list (doc * string) + exn) :=
  match c with
  | Dict d => (i, inl [(Map d, cwd)])
  | Pattern p => load_paths (glob p) i
  end.

(** soil/simulation.py:306-310: one configuration. *)
Definition one_config (kwargs : dict string V) (c : doc * string) : Sim + exn :=
  match fst c with
  | NoMap e => inr e
  | Map d =>
      let d := dupdate d kwargs in
      let d := if dhas "dir_path" d then d else dset "dir_path" (text (dirname (snd c))) d in
      simulation d
  end.
Fixpoint each_config (kwargs : dict string V) (l : list (doc * string)) : gen Sim :=
  match l with
  | [] => ([], None)
  | c :: l' =>
      match one_config kwargs c with
      | inr e => ([], Some e)
      | inl s => let '(r, e) := each_config kwargs l' in (s :: r, e)
      end
  end.
(** soil/simulation.py:302-310 [iter_from_config]. *)
Fixpoint iter_from_config (cfgs : list source) (kwargs : dict string V) (i : interp) : interp * gen Sim :=
  match cfgs with
  | [] => (i, ([], None))
  | c :: cfgs' =>
      match load_config c i with
      | (i1, inr e) => (i1, ([], Some e))
      | (i1, inl l) =>
          match each_config kwargs l with
          | (r, Some e) => (i1, (r, Some e))
          | (r, None) => let '(i2, g) := iter_from_config cfgs' kwargs i1 in (i2, (r ++ fst g, snd g))
          end
      end
  end.

(** soil/simulation.py:313-317 [from_config]. *)
Definition from_config (c : source) (i : interp) : interp * (Sim + exn) :=
  match iter_from_config [c] [] i with
  | (i1, (_, Some e)) => (i1, inr e)
  | (i1, ([], None)) => (i1, inr EIndex)
  | (i1, ([s], None)) => (i1, inl s)
  | (i1, (_, None)) => (i1, inr EAttribute)
  end.

Definition module_name : string := "imported_file".

Fixpoint each_replace (kwargs : dict string V) (l : list Sim) : gen Sim :=
  match l with
  | [] => ([], None)
  | s :: l' =>
      match replace s kwargs with
      | inr e => ([], Some e)
      | inl s' => let '(r, e) := each_replace kwargs l' in (s' :: r, e)
      end
  end.
(** soil/simulation.py:320-355 [iter_from_py], without the variables of LoadModel.v.  [del] raises KeyError if
    the code of the file has removed the module: not modelled ([ddel] does nothing then). *)
Definition iter_from_py (f : string) (kwargs : dict string V) (i : interp) : interp * gen Sim :=
  let folder := dirname f in
  let added := negb (on_path folder i) in
  let i1 := add_path folder i in
  if negb (is_py f) then (i1, ([], Some EValue)) else
  let i2 := Interp (sys_path i1) (dset module_name new_module (sys_modules i1)) in
  match execute f i2 with
  | (i3, inr e) => (i3, ([], Some e))
  | (i3, inl sims) =>
      let i4 := Interp (sys_path i3) (ddel module_name (sys_modules i3)) in
      match sims with
      | [] => (i4, ([], Some EAttribute))
      | _ =>
          if added
          then match remove_first folder (sys_path i4) with
               | None => (i4, ([], Some EValue))
               | Some p => (Interp p (sys_modules i4), each_replace kwargs sims)
               end
          else (i4, each_replace kwargs sims)
      end
  end.

(** soil/simulation.py:290-295 [iter_from_file], and 298-299 [from_file]. *)
Fixpoint iter_from_file (files : list string) (kwargs : dict string V) (i : interp) : interp * gen Sim :=
  match files with
  | [] => (i, ([], None))
  | f :: files' =>
      let '(i1, g) := match iter_from_py f kwargs i with
                      | (i1, (r, Some EValue)) =>
                          let '(i2, g2) := iter_from_config [Pattern f] kwargs i1 in (i2, (r ++ fst g2, snd g2))
                      | x => x
                      end in
      match snd g with
      | Some e => (i1, g)
      | None => let '(i2, g2) := iter_from_file files' kwargs i1 in (i2, (fst g ++ fst g2, snd g2))
      end
  end.

(** soil/simulation.py:362-365 [run_from_file]: simulations have no method [run_simulation], whatever the
    arguments; the simulations that are run, and the exception. *)
Definition run_from_file (files : list string) (i : interp) : list Sim * option exn :=
  match snd (iter_from_file files [] i) with
  | ([], e) => ([], e)
  | (_ :: _, _) => ([], Some EAttribute)
  end.

(** soil/network.py:26-29: the file of a topology. *)
Definition topology_path (dir_path : option string) (p : string) : string :=
  match dir_path with
  | None | Some "" => p
  | Some d => if isabs p then p else join d p
  end.
End Config.
Arguments doc : clear implicits.
Arguments interp : clear implicits.
Arguments source : clear implicits.
Arguments exn : clear implicits.
