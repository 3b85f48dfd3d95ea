(** The reporters of an environment: C52 and C86. *)
From Coq Require Import List Bool Arith String ZArith.
From Verif Require Import PyDict ReportModel ReportSpec ReportProofs.
Import ListNotations.
Local Open Scope string_scope.

(** C52 is false for all reporters, classes and histories: an agent of the class ends in
    RecursionError, however many nested calls are allowed, so no data are recorded at all. *)
Theorem C52_restricted_reporter_loops_refuted : forall (A T V : Type) (none : V) isinstance getattr
    (calls : list (string * given A V * option T)) name g t,
  last_call name calls = Some (g, Some t) ->
  (exists r, dget name (e_reporters (after calls)) = Some r /\ forall limit a, isinstance a t = true ->
     evaluate none isinstance getattr limit (e_cells (after calls)) r a = RecursionError) /\
  forall limit agents a, In a agents -> isinstance a t = true ->
    forall rows, record none isinstance getattr limit (after calls) agents <> Value rows.
Proof.
  intros A T V none isinstance getattr calls name g t L. split.
  - destruct (restricted_loops none isinstance getattr calls name g t L) as (r & D & E). exists r. split; auto.
    intros limit a I. now rewrite E, I.
  - intros limit agents a I J. now apply (no_record none isinstance getattr calls name g t agents a limit).
Qed.
(** The part of C52 that holds: None for agents of other classes, and the reporter for all agents
    if there is no class. *)
Theorem C52_other_classes_partial : forall (A T V : Type) (none : V) isinstance getattr
    (calls : list (string * given A V * option T)) name g t,
  last_call name calls = Some (g, Some t) ->
  exists r, dget name (e_reporters (after calls)) = Some r /\ forall limit a, isinstance a t = false ->
    evaluate none isinstance getattr limit (e_cells (after calls)) r a = Value none.
Proof.
  intros A T V none isinstance getattr calls name g t L.
  destruct (restricted_loops none isinstance getattr calls name g t L) as (r & D & E). exists r. split; auto.
  intros limit a I. now rewrite E, I.
Qed.
Theorem C52_without_class_partial : forall (A T V : Type) (none : V) isinstance getattr
    (calls : list (string * given A V * option T)) name g,
  last_call name calls = Some (g, None) ->
  exists r, dget name (e_reporters (after calls)) = Some r /\ forall limit a,
    evaluate none isinstance getattr limit (e_cells (after calls)) r a = expected none getattr name g a.
Proof. intros A T V none isinstance getattr. exact (unrestricted none isinstance getattr). Qed.
Print Assumptions C52_restricted_reporter_loops_refuted.
Print Assumptions C52_other_classes_partial.
Print Assumptions C52_without_class_partial.

(** Agents are numbers, the class 0 is that of the even ones, and [state] is their only attribute. *)
Definition even_class (a t : nat) : bool := match t with 0 => Nat.even a | _ => true end.
Definition state_only (a : nat) (k : string) : result nat := if String.eqb k "state" then Value (a + 100) else AttributeError.
Definition some_calls : list (string * given nat nat * option nat) :=
  [("state", Nothing, None); ("double", Function (fun a => Value (a + a)), None); ("missing", Attribute "x", None);
   ("even", Function (fun a => Value (a + 7)), Some 0)].
Example C52_not_vacuous :
  last_call "even" some_calls = Some (Function (fun a => Value (a + 7)), Some 0) /\
  record 0 even_class state_only 1000 (after some_calls) [1; 3] = Value [[101; 2; 0; 0]; [103; 6; 0; 0]] /\
  record 0 even_class state_only 1000 (after some_calls) [1; 2; 3] = RecursionError.
Proof. vm_compute. auto. Qed.

(** C86 is false for all methods: a marked method is reported as the bound method, not as what it
    returns. *)
Theorem C86_methods_refuted : forall (M V : Type) (none : V) (c : list (dict string (attr M V))) base k f,
  lookup c k = Some (report (AFunction false f)) ->
  forall m d, row none c (add_marked c base) m = Value d -> dget k d = Some (CMethod k).
Proof.
  intros M V none c base k f L m d R. pose proof (add_marked_get c base k) as G. rewrite L in G. cbn [report marked] in G.
  destruct (row_get none c _ m d R k _ G) as (x & E & D). cbn [value_of] in E. unfold get_cell in E. rewrite L in E.
  injection E as <-. exact D.
Qed.
(** C86 for properties, of the class or inherited: each row has their value.  AttributeError is
    taken as None (the row has no way to tell). *)
Theorem C86_properties_partial : forall (M V : Type) (none : V) (c : list (dict string (attr M V))) base k f,
  lookup c k = Some (report (AProperty false f)) ->
  forall m d, row none c (add_marked c base) m = Value d ->
  (exists v, f m = Value v /\ dget k d = Some (CValue v)) \/ (f m = AttributeError /\ dget k d = Some (CValue none)).
Proof.
  intros M V none c base k f L m d R. pose proof (add_marked_get c base k) as G. rewrite L in G. cbn [report marked] in G.
  destruct (row_get none c _ m d R k _ G) as (x & E & D). cbn [value_of] in E. unfold get_cell in E. rewrite L in E.
  cbn [report] in E. destruct (f m) as [v| | | |]; try discriminate; injection E as <-; [left|right]; eauto.
Qed.
(** Nothing else is added: a name that is not marked in the class (also if an overridden version
    is) has a column only if it is a reporter of the collector. *)
Theorem C86_only_the_marked_partial : forall (M V : Type) (none : V) (c : list (dict string (attr M V))) base k,
  match lookup c k with Some (AProperty b _) | Some (AFunction b _) => b = false | _ => True end ->
  dget k base = None ->
  forall m d, row none c (add_marked c base) m = Value d -> dget k d = None.
Proof.
  intros M V none c base k L B m d R. apply (row_none none c _ m d R). rewrite add_marked_get, B.
  destruct (lookup c k) as [[b f|b f|v]|]; cbn [marked]; try reflexivity; now rewrite L.
Qed.
(** The other reporters are kept. *)
Theorem C86_others_are_kept_partial : forall (M V : Type) (none : V) (c : list (dict string (attr M V))) base k f,
  match lookup c k with Some (AProperty b _) | Some (AFunction b _) => b = false | _ => True end ->
  dget k base = Some (SFun f) ->
  forall m d, row none c (add_marked c base) m = Value d -> exists v, f m = Value v /\ dget k d = Some (CValue v).
Proof.
  intros M V none c base k f L B m d R. assert (dget k (add_marked c base) = Some (SFun f)) as G.
  { rewrite add_marked_get, B. destruct (lookup c k) as [[b g|b g|v]|]; cbn [marked]; try reflexivity; now rewrite L. }
  destruct (row_get none c _ m d R k _ G) as (x & E & D). cbn [value_of] in E.
  destruct (f m) as [v| | | |]; try discriminate. injection E as <-. eauto.
Qed.
Print Assumptions C86_methods_refuted.
Print Assumptions C86_properties_partial.
Print Assumptions C86_only_the_marked_partial.
Print Assumptions C86_others_are_kept_partial.

(** A class with a marked method, that inherits two marked properties and overrides a third. *)
Definition some_class : list (dict string (attr nat nat)) :=
  [ [("doubled", report (AFunction false (fun m => Value (m + m)))); ("three", AProperty false (fun _ => Value 3))];
    [("one", report (AProperty false (fun m => Value (m + 1)))); ("two", report (AProperty false (fun _ => AttributeError)));
     ("three", report (AProperty false (fun _ => Value 4)))] ].
Example C86_not_vacuous :
  row 0 some_class (add_marked some_class [("time", SFun (fun m => Value m))]) 5 =
  Value [("time", CValue 5); ("doubled", CMethod "doubled"); ("one", CValue 6); ("two", CValue 0)].
Proof. vm_compute. reflexivity. Qed.
