(** Templates of configurations: C57 and C75. *)
From Coq Require Import List Bool Arith String.
From Verif Require Import PyDict TemplateModel TemplateSpec TemplateProofs.
Import ListNotations.
Local Open Scope string_scope.

Section Templates.
Context {V B M O T C : Type}.
Variables (morris : M) (n100 : O).
Variable sample : M -> list string -> list B -> O -> option (list (list V)).
Variable render : T -> dict string V -> string.
Variable load : string -> list C.
Variable has_name : C -> option bool.
Variable v0 : V.
Notation expand := (expand_template morris n100 sample render load has_name v0).

(** C57.  If no name is used twice, no list is empty and the template always gives exactly one
    configuration, there is one configuration for each choice of values and each sample, at
    its place in the order, rendered with its own values. *)
Theorem C57_product_partial : forall t bounds lists smp (samples : list (list V)) c0,
  sample (match smp with Some (Sampler (Some m) _) => m | _ => morris end) (dkeys bounds) (map snd bounds)
    (match smp with Some s => s_options s | None => n100 end) = Some samples ->
  separate lists (dkeys bounds) -> complete (dkeys bounds) samples ->
  (forall i vs, In (i, vs) lists -> vs <> []) -> samples <> [] ->
  load (render t (map (fun k => (k, v0)) (dkeys lists ++ dkeys bounds))) = [c0] -> has_name c0 = Some false ->
  (forall p, exists c, load (render t p) = [c]) ->
  exists docs cfg, expand (Config (Some t) (Some (Vars (Some bounds) (Some lists))) smp) = (map Doc docs, None, cfg)
    /\ List.length docs = number (map (fun p => List.length (snd p)) lists) * List.length samples
    /\ forall choice j s, valid (map (fun p => List.length (snd p)) lists) choice -> nth_error samples j = Some s ->
       exists p c, assigns lists (dkeys bounds) choice s p /\ load (render t p) = [c]
         /\ nth_error docs (rank (map (fun p => List.length (snd p)) lists) choice * List.length samples + j) = Some c.
Proof. exact (expand_all morris n100 sample render load has_name v0). Qed.
(** No other configuration: each place is that of a choice and a sample. *)
Theorem C57_every_place_partial : forall (lists : dict string (list V)) (samples : list (list V)) q,
  q < number (map (fun p => List.length (snd p)) lists) * List.length samples ->
  exists choice j s, valid (map (fun p => List.length (snd p)) lists) choice /\ nth_error samples j = Some s
    /\ q = rank (map (fun p => List.length (snd p)) lists) choice * List.length samples + j.
Proof.
  intros lists samples q H. apply (params_all lists [] samples). now rewrite params_shape.
Qed.
(** Without any combination there should be no configuration, but it is an IndexError. *)
Theorem C57_no_combination_refuted : forall t bounds lists smp (samples : list (list V)),
  sample (match smp with Some (Sampler (Some m) _) => m | _ => morris end) (dkeys bounds) (map snd bounds)
    (match smp with Some s => s_options s | None => n100 end) = Some samples ->
  (exists i, In (i, []) lists) \/ samples = [] ->
  exists cfg, expand (Config (Some t) (Some (Vars (Some bounds) (Some lists))) smp) = ([], Some IndexError, cfg).
Proof. exact (expand_nothing morris n100 sample render load has_name v0). Qed.

(** Either nothing is yielded, with an exception, or the blank configuration (each of the names
    of some parameters has the value 0) is one document that has no name of its own. *)
Theorem C57_refused_partial : forall (cfg : config V B M O T) t docs x cfg', c_template cfg = Some t ->
  expand cfg = (docs, x, cfg') ->
  x <> None /\ docs = [] \/
  x = None /\ exists blank c, Forall (fun p => snd p = v0) blank /\ load (render t blank) = [c] /\ has_name c = Some false.
Proof.
  intros cfg t docs x cfg' E. unfold expand_template. rewrite E.
  destruct (c_vars cfg); [|intros [= <- <- <-]; left; split; [discriminate|reflexivity]].
  destruct (params_for_template _ _ _ cfg) as [[params|y] cfg1];
    [|intros [= <- <- <-]; left; split; [discriminate|reflexivity]].
  intros H. assert (expand_params render load has_name v0 t params = (docs, x)) as H' by congruence. clear H.
  unfold expand_params in H'. destruct params as [|p params];
    [injection H' as <- <-; left; split; [discriminate|reflexivity]|].
  destruct (load (render t (map (fun k => (k, v0)) (dkeys p)))) as [|c [|c' l]] eqn:L;
    try (injection H' as <- <-; left; split; [discriminate|reflexivity]).
  destruct (has_name c) as [[|]|] eqn:N; injection H' as <- <-; try (left; split; [discriminate|reflexivity]).
  right. split; [reflexivity|]. eexists _, c. split; [|split; [exact L|exact N]].
  apply Forall_forall. intros q J. apply in_map_iff in J as (k & <- & _). reflexivity.
Qed.
(** Which exception it is.  KeyError: there are no bounds; ValueError: there are no variables, or
    the blank configuration has several documents or a name; TypeError: its document is not a
    container; IndexError: it has no document, or there is no combination; others come from the
    sampler. *)
Theorem C57_why_refused_partial : forall t vs smp x,
  snd (fst (expand (Config (Some t) vs smp))) = Some x ->
  let blank_gives (P : list C -> Prop) :=
    exists blank, Forall (fun p => snd p = v0) blank /\ P (load (render t blank)) in
  match x with
  | KeyError => exists l, vs = Some (Vars None l)
  | ValueError => vs = None \/
      blank_gives (fun docs => 1 < List.length docs \/ exists c, docs = [c] /\ has_name c = Some true)
  | TypeError => blank_gives (fun docs => exists c, docs = [c] /\ has_name c = None)
  | IndexError => blank_gives (fun docs => docs = []) \/
      exists bounds l, vs = Some (Vars (Some bounds) l) /\
        ((exists i ls, l = Some ls /\ In (i, []) ls) \/
         exists m o, sample m (dkeys bounds) (map snd bounds) o = Some [])
  | SamplerError => exists bounds l m o, vs = Some (Vars (Some bounds) l) /\
      sample m (dkeys bounds) (map snd bounds) o = None
  end.
Proof. exact (why_refused morris n100 sample render load has_name v0). Qed.
(** A configuration without template is the only one. *)
Theorem C57_without_template_partial : forall cfg : config V B M O T, c_template cfg = None ->
  expand cfg = ([Itself], None, cfg).
Proof. intros cfg E. unfold expand_template. now rewrite E. Qed.

(** C75.  The expansion of a template leaves the configuration as it was if it has no sampler
    or none with a method. *)
Theorem C75_configuration_unchanged_partial : forall cfg : config V B M O T,
  (forall s, c_sampler cfg = Some s -> s_method s = None) -> snd (expand cfg) = cfg.
Proof.
  intros cfg H. destruct (expand_config morris n100 sample render load has_name v0 cfg) as [E|(s & E1 & E2)]; auto.
  rewrite E2. specialize (H s E1). destruct cfg as [t vs smp]. simpl in *. subst. destruct s. simpl in *. now subst.
Qed.
(** Otherwise the method is removed from it, and a second expansion uses the default one. *)
Theorem C75_method_is_lost_refuted : forall t vs m o (smp := Sampler (Some m) o),
  snd (expand (Config (Some t) (Some vs) (Some smp))) = Config (Some t) (Some vs) (Some (Sampler None o))
  /\ snd (expand (Config (Some t) (Some vs) (Some smp))) <> Config (Some t) (Some vs) (Some smp).
Proof.
  intros t vs m o smp.
  assert (snd (expand (Config (Some t) (Some vs) (Some smp))) = Config (Some t) (Some vs) (Some (Sampler None o))) as E.
  { unfold expand_template, params_for_template. simpl.
    destruct (v_bounds vs) as [b|]; auto. destruct (sample m _ _ o); auto. }
  split; auto. rewrite E. unfold smp. congruence.
Qed.
End Templates.
Print Assumptions C57_product_partial.
Print Assumptions C57_every_place_partial.
Print Assumptions C57_no_combination_refuted.
Print Assumptions C57_refused_partial.
Print Assumptions C57_why_refused_partial.
Print Assumptions C57_without_template_partial.
Print Assumptions C75_configuration_unchanged_partial.
Print Assumptions C75_method_is_lost_refuted.

(** Examples: values are numbers, a text is a list of names, a configuration the values. *)
Definition sample_ex (m : nat) (names : list string) (bounds : list nat) (o : nat) : option (list (list nat)) :=
  Some (map (fun b => repeat (b + m) (List.length names)) bounds).
Fixpoint unary (n : nat) : string := match n with 0 => EmptyString | S n => "1" ++ unary n end.
Definition render_ex (t : list string) (p : dict string nat) : string :=
  fold_right (fun k s => match dget k p with Some v => unary v | None => "" end ++ ";" ++ s) "" t.
Definition load_ex (s : string) : list string := [s].
Example C57_not_vacuous :
  expand_template 0 100 sample_ex render_ex load_ex (fun _ => Some false) 0
    (Config (Some ["x"; "y"; "z"]) (Some (Vars (Some [("z", 5)]) (Some [("x", [1; 2]); ("y", [3; 4])]))) (Some (Sampler (Some 1) 9)))
  = ([Doc "1;111;111111;"; Doc "1;1111;111111;"; Doc "11;111;111111;"; Doc "11;1111;111111;"], None,
     Config (Some ["x"; "y"; "z"]) (Some (Vars (Some [("z", 5)]) (Some [("x", [1; 2]); ("y", [3; 4])]))) (Some (Sampler None 9)))
  /\ separate [("x", [1; 2]); ("y", [3; 4])] ["z"] /\ complete ["z"] [[6]].
Proof.
  split; [reflexivity|]. split.
  - unfold separate. simpl. repeat constructor; simpl; intuition discriminate.
  - intros s [<-|[]]. reflexivity.
Qed.
(** A template with a name of its own, and a configuration without template. *)
Example C57_refused :
  expand_template 0 100 sample_ex render_ex load_ex (fun _ => Some true) 0
    (Config (Some ["x"]) (Some (Vars (Some [("x", 5)]) None)) None)
  = ([], Some ValueError, Config (Some ["x"]) (Some (Vars (Some [("x", 5)]) None)) None) /\
  expand_template 0 100 sample_ex render_ex load_ex (fun _ => Some true) 0 (Config None None None)
  = ([Itself], None, Config None None None).
Proof. split; reflexivity. Qed.
(** The second expansion differs. *)
Example C75_second_expansion :
  let expand := expand_template 0 100 sample_ex render_ex load_ex (fun _ => Some false) 0 in
  let cfg := Config (Some ["z"]) (Some (Vars (Some [("z", 5)]) None)) (Some (Sampler (Some 1) 9)) in
  fst (expand cfg) = ([Doc "111111;"], None) /\ fst (expand (snd (expand cfg))) = ([Doc "11111;"], None).
Proof. split; reflexivity. Qed.
(** A name that is used for a list and for a bound: the values of the list are lost, and the
    configurations are repeated. *)
Theorem C57_name_used_twice_refuted :
  fst (expand_template 0 100 sample_ex render_ex load_ex (fun _ => Some false) 0
    (Config (Some ["x"]) (Some (Vars (Some [("x", 5)]) (Some [("x", [1; 2])]))) None))
  = ([Doc "11111;"; Doc "11111;"], None).
Proof. reflexivity. Qed.
Print Assumptions C57_name_used_twice_refuted.
