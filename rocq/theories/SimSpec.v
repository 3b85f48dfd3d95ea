(** What is expected of the runs of a simulation, in terms of the arguments that the model
    class is called with, the callbacks of the exporters and the result. *)
From Coq Require Import ZArith List Bool Arith String Permutation.
From Verif Require Import PyDict SimModel.
Import ListNotations.
Local Open Scope string_scope.
Local Open Scope list_scope.

Section Matrix.
Context {A : Type}.

(** The number of combinations of a matrix. *)
Definition total (m : dict string (list A)) : nat :=
  fold_right (fun kl n => List.length (snd kl) * n) 1 m.

(** [c] is the combination number [i] of the matrix [m] in row-major order (the last
    parameter changes fastest): the digit of [i] for a parameter is found by dividing by
    the number of combinations of the parameters after it. *)
Definition nth_choice (m : dict string (list A)) (i : nat) (c : dict string A) : Prop :=
  List.length c = List.length m /\
  forall j k l, nth_error m j = Some (k, l) ->
    exists v, nth_error c j = Some (k, v) /\
      nth_error l ((i / total (skipn (S j) m)) mod List.length l) = Some v.

(** [cs] lists all the combinations of [m] in row-major order. *)
Definition choices (m : dict string (list A)) (cs : list (dict string A)) : Prop :=
  List.length cs = total m /\
  forall i, i < total m -> exists c, nth_error cs i = Some c /\ nth_choice m i c.

(** [c] picks one of the listed values for each parameter. *)
Definition picks (m : dict string (list A)) (c : dict string A) : Prop :=
  Forall2 (fun kl kv => fst kl = fst kv /\ In (snd kv) (snd kl)) m c.
End Matrix.

Section Runs.
Context {V R E : Type}.
Notation config := (config V R).
Notation sim := (sim V R).
Notation args := (args V R).
Notation tev := (tev V R E).

(** The configurations of a simulation: the fixed parameters if there are any, then the
    combinations of the matrix if there is one, and one empty configuration if this gives
    none. *)
Definition configurations (s : sim) (cs : list config) : Prop :=
  exists ms,
    (matrix s = [] /\ ms = [] \/ matrix s <> [] /\ choices (matrix s) ms) /\
    let ps := match parameters s with [] => ms | _ => parameters s :: ms end in
    cs = match ps with [] => [[]] | _ => ps end.

(** The parameters that reach the model: all but three names. *)
Definition passed (p : config) : config :=
  filter (fun kv => negb (existsb (String.eqb (fst kv))
     ["agent_reporters"; "model_reporters"; "num_processes"])) p.

(** An iteration: its configuration, its number, the arguments of the model and the
    resulting environment (None: it raised). *)
Record item := Item { i_conf : config; i_nr : nat; i_args : args; i_res : option E }.

(** What is observed of an iteration with [n] exporters: the model is built and run, and
    if it succeeds every exporter gets the environment and the configuration. *)
Definition block (n : nat) (it : item) : list tev :=
  TRun (i_args it) (i_res it) ::
  match i_res it with
  | None => []
  | Some e => map (fun i => TCall (XIter i e (i_conf it))) (seq 0 n)
  end.

Definition results (its : list item) : list E :=
  flat_map (fun it => match i_res it with Some e => [e] | None => [] end) its.

(** The configuration is run by a pool of processes. *)
Definition pooled (int_of : V -> option Z) (soil_debug : bool) (p : config) : Prop :=
  soil_debug = false /\
  exists v n, dget "num_processes" p = Some (PVal v) /\ int_of v = Some n /\ (1 < n)%Z.

(** The model of an iteration was called with what belongs to its configuration and its
    number. *)
Definition well_built (s : sim) (it : item) : Prop :=
  a_id (i_args it) = str_nat (i_nr it) /\
  a_seed (i_args it) = (seed s ++ "_iteration_" ++ str_nat (i_nr it))%string /\
  a_params (i_args it) = passed (i_conf it).

(** The names and values of a configuration are accepted as arguments of the model. *)
Definition acceptable (p : config) : Prop :=
  (forall k, In k ["self"; "iteration_id"; "id"; "seed"; "dir_path"; "logger"; "tables"] ->
     ~ In k (dkeys p)) /\
  (forall k v, In k ["agent_reporters"; "model_reporters"] -> dget k p <> Some (PVal v)).

(** The iterations of one configuration, in the order in which they finish. *)
Definition group (int_of : V -> option Z) (soil_debug : bool) (s : sim)
  (p : config) (its : list item) : Prop :=
  Forall (fun it => i_conf it = p /\ well_built s it) its /\
  if dry_run s then its = []
  else
    (acceptable p -> Permutation (map i_nr its) (seq 0 (iterations s))) /\
    (~ pooled int_of soil_debug p ->
     map i_nr its = seq 0 (iterations s) /\ Forall (fun it => i_res it <> None) its).

(** The model calls of a run. *)
Definition ran (tr : list tev) : list (args * option E) :=
  flat_map (fun ev => match ev with TRun a r => [(a, r)] | TCall _ => [] end) tr.

(** The configurations [ps], in order, bring this reporter of name [n] under [key]: the
    last one counts. *)
Definition brought (key n : string) (ps : list config) : option R :=
  fold_left (fun r p =>
    match dget key p with
    | Some (PReps d) => match dget n d with Some r' => Some r' | None => r end
    | _ => r
    end) ps None.
End Runs.
Arguments item : clear implicits.

(** The dictionary [d] of reporters that an iteration is given has the reporters of the
    simulation, [base], overridden by the ones of all the configurations [ps]. *)
Definition carries {V R} (key : string) (base : dict string R) (ps : list (config V R))
  (d : dict string R) : Prop :=
  forall n, match brought key n ps with
            | Some v => dget n d = Some v
            | None => forall v, dget n base = Some v -> dget n d = Some v
            end.
