(** Model of templates of configurations: soil/serialization.py:36-88. *)
From Coq Require Import List Bool Arith String.
From Verif Require Import PyDict.
Import ListNotations.

Section Template.
(** Values of variables, bounds, names of sampling methods, their other options, texts, and
    configurations. *)
Context {V B M O T C : Type}.
(** The default method and options, soil/serialization.py:68-69. *)
Variable morris : M.
Variable n100 : O.
(** The sampling methods: the samples for the names and bounds, or an exception. *)
Variable sample : M -> list string -> list B -> O -> option (list (list V)).
(** jinja2's [Template(t).render] and [yaml.load_all]: the documents of a text. *)
Variable render : T -> dict string V -> string.
Variable load : string -> list C.
(** ["name" in c]; None is the TypeError of a document that is not a container. *)
Variable has_name : C -> option bool.
(** The 0 that is used for the blank configuration. *)
Variable v0 : V.

Inductive exn := ValueError | KeyError | IndexError | TypeError | SamplerError.

(** A configuration that may be a template: the texts and tables under "template", "vars" and
    "sampler" (its "method" and the rest). *)
Record vars := Vars { v_bounds : option (dict string B); v_lists : option (dict string (list V)) }.
Record sampler := Sampler { s_method : option M; s_options : O }.
Record config := Config { c_template : option T; c_vars : option vars; c_sampler : option sampler }.

(** itertools.product of some lists: the last one varies fastest. *)
Fixpoint product (l : list (list V)) : list (list V) :=
  match l with
  | [] => [[]]
  | vs :: l' => flat_map (fun v => map (cons v) (product l')) vs
  end.
(** soil/serialization.py:80-88. *)
Definition all_params (lists : dict string (list V)) (bound_names : list string)
    (samples : list (list V)) : list (dict string V) :=
  map (fun x => dict_of (combine (dkeys lists ++ bound_names) x))
      (flat_map (fun c => map (fun s => c ++ s) samples) (product (map snd lists))).
(** soil/serialization.py:67-88: the parameters or an exception, and the configuration, as
    [pop] changes its "sampler". *)
Definition params_for_template (cfg : config) : (list (dict string V) + exn) * config :=
  let '(m, o, cfg1) :=
    match c_sampler cfg with
    | None => (morris, n100, cfg)
    | Some s => (match s_method s with Some m => m | None => morris end, s_options s,
                 Config (c_template cfg) (c_vars cfg) (Some (Sampler None (s_options s))))
    end in
  match c_vars cfg with
  | None => (inr KeyError, cfg1)
  | Some vs =>
      match v_bounds vs with
      | None => (inr KeyError, cfg1)
      | Some bounds =>
          match sample m (dkeys bounds) (map snd bounds) o with
          | None => (inr SamplerError, cfg1)
          | Some samples =>
              (inl (all_params (match v_lists vs with Some l => l | None => [] end)
                      (dkeys bounds) samples), cfg1)
          end
      end
  end.

(** What expand_template yields: the configuration itself or a document. *)
Inductive yielded := Itself | Doc (c : C).
(** soil/serialization.py:50-64. *)
Definition expand_params (t : T) (params : list (dict string V)) : list yielded * option exn :=
  match params with
  | [] => ([], Some IndexError)
  | p :: _ =>
      match load (render t (map (fun k => (k, v0)) (dkeys p))) with
      | [] => ([], Some IndexError)
      | [c] => match has_name c with
               | None => ([], Some TypeError)
               | Some true => ([], Some ValueError)
               | Some false => (map Doc (flat_map (fun ps => load (render t ps)) params), None)
               end
      | _ => ([], Some ValueError)
      end
  end.
(** soil/serialization.py:36-64: everything that is yielded until the end or the exception.
    (A template that is not a text is dumped to one: [T] stands for both.) *)
Definition expand_template (cfg : config) : list yielded * option exn * config :=
  match c_template cfg with
  | None => ([Itself], None, cfg)
  | Some t =>
      match c_vars cfg with
      | None => ([], Some ValueError, cfg)
      | Some _ =>
          match params_for_template cfg with
          | (inr x, cfg1) => ([], Some x, cfg1)
          | (inl params, cfg1) => (expand_params t params, cfg1)
          end
      end
  end.
End Template.
Arguments config : clear implicits.
Arguments vars : clear implicits.
Arguments sampler : clear implicits.
Arguments yielded : clear implicits.
