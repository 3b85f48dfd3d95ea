(** C225: the specifications of agents made from a configuration (soil/agents/__init__.py:492-568). *)
From Coq Require Import List Bool Arith QArith String Lia Permutation.
From Verif Require Import PyDict DistModel DistSpec DistProofs SpecsModel SpecsSpec SpecsProofs.
Import ListNotations.
Local Open Scope nat_scope.
Local Open Scope string_scope.
Local Open Scope list_scope.

(** C225 is false: soil/config.py has no AgentConfig, so from_config always raises an AttributeError. *)
Theorem C225_undefined_refuted : forall V C (cf : agent_config V C) size more1 more2 shuffled1 shuffled2,
  from_config has_agent_config cf size more1 more2 shuffled1 shuffled2 = AttributeError.
Proof. reflexivity. Qed.
Print Assumptions C225_undefined_refuted.
(** With such a class it would be false too: if there is a distribution, but nothing fills the network and some nodes are free, the
    warning about it uses a variable that is not defined. *)
Theorem C225_free_nodes_refuted : forall V C (cf : agent_config V C) size more1 more2 shuffled1 shuffled2,
  cf_distribution cf <> [] -> complete cf size -> filling (cf_distribution cf) = [] -> linked cf < size ->
  may_choose (totalling (cf_distribution cf)) more2 ->
  (forall k, Permutation (shuffled1 k) k) -> (forall k, Permutation (shuffled2 k) k) ->
  from_config true cf size more1 more2 shuffled1 shuffled2 = NameError.
Proof.
  intros V C cf size more1 more2 shuffled1 shuffled2 D K F L M2 S1 S2. cbn [from_config].
  assert (E : from_fields cf size more1 more2 shuffled1 shuffled2 = from_fields cf size (fun k => repeat 0 k) more2 shuffled1 shuffled2).
  { unfold from_fields. destruct (match cf_fixed cf with Some l => _ | None => _ end) as [[a b] c]. destruct (cf_distribution cf) as [|x l] eqn:Ed; [reflexivity|].
    rewrite <- Ed in *. destruct K as (A & B & T & _).
    destruct (split_some cf size (cf_distribution cf) [] [] false A B T) as (t & -> & _). rewrite F. reflexivity. }
  rewrite E. clear E. revert K.
  destruct (cf_distribution cf) as [|x l] eqn:Ed; [contradiction|]. rewrite <- Ed in *. intros K. unfold from_fields.
  assert (G : match cf_fixed cf with Some l => from_fixed l (df_topology (cf_defaults cf)) (cf_defaults cf) | None => ([], 0, 0) end =
    (map (describe_fixed (cf_defaults cf) (df_topology (cf_defaults cf))) (own cf), seen cf, linked cf)).
  { unfold own, seen, linked, own. destruct (cf_fixed cf) as [k|]; [|reflexivity]. unfold from_fixed. now rewrite from_fixed_loop_spec. }
  rewrite G. clear G. rewrite Ed. rewrite <- Ed. destruct K as (A & B & T & _ & (ws & W)).
  destruct (split_some cf size (cf_distribution cf) [] [] false A B T) as (t & -> & _). rewrite F. cbn [app List.length].
  assert (X : exists l2, match totalling (cf_distribution cf) with [] => Agents [] | _ =>
     from_distro (totalling (cf_distribution cf)) (option_map (fun n => n - (seen cf + 0)) (cf_n cf)) (cf_defaults cf) false more2 shuffled2 end = Agents l2).
  { destruct (totalling (cf_distribution cf)) as [|e k] eqn:En; [exists []; auto|]. destruct T as (n & -> & _); [discriminate|]. cbn [option_map].
    destruct (from_distro_numbers (e :: k) ws (n - (seen cf + 0)) (cf_defaults cf) false more2 shuffled2) as (_ & l2 & E & _); auto; [discriminate|].
    exists l2. auto. }
  destruct X as (l2 & ->). rewrite Nat.add_0_r. apply Nat.ltb_lt in L. now rewrite L.
Qed.
Print Assumptions C225_free_nodes_refuted.

(** What would hold with such a class.  The agents with a specification of their own come first.  Then come as many as there are free
    nodes, all of them in the network, if something fills it, and as many as are missing to the total, if something reaches it. *)
Theorem C225_numbers_partial : forall V C (cf : agent_config V C) size more1 more2 shuffled1 shuffled2,
  cf_distribution cf <> [] -> complete cf size -> (filling (cf_distribution cf) = [] -> size <= linked cf) ->
  may_choose (filling (cf_distribution cf)) more1 -> may_choose (totalling (cf_distribution cf)) more2 ->
  (forall k, Permutation (shuffled1 k) k) -> (forall k, Permutation (shuffled2 k) k) ->
  exists l0 l1 l2, from_config true cf size more1 more2 shuffled1 shuffled2 = Specs (l0 ++ l1 ++ l2) /\
    Forall2 (fun f s => placed s (in_network (fx_topology f) (df_topology (cf_defaults cf)) (cf_defaults cf)) /\
       sp_class s = match fx_class f with Some c => Some c | None => df_class (cf_defaults cf) end) (own cf) l0 /\
    Forall (fun s => placed s true) l1 /\
    (filling (cf_distribution cf) <> [] -> linked cf <= size -> linked cf + List.length l1 = size) /\
    (filling (cf_distribution cf) = [] -> l1 = []) /\
    (forall n, totalling (cf_distribution cf) <> [] -> cf_n cf = Some n -> seen cf + List.length l1 <= n -> seen cf + List.length l1 + List.length l2 = n) /\
    (totalling (cf_distribution cf) = [] -> l2 = []).
Proof.
  intros V C cf size more1 more2 shuffled1 shuffled2 D K F M1 M2 S1 S2. cbn [from_config].
  destruct (fields_complete cf size more1 more2 shuffled1 shuffled2 D K M1 M2 S1 S2) as (l1 & l2 & E & L1 & P & L2).
  exists (map (describe_fixed (cf_defaults cf) (df_topology (cf_defaults cf))) (own cf)), l1, l2.
  split; [|split; [|split; [exact P|split; [|split; [|split]]]]].
  - rewrite E. destruct (Nat.ltb_spec (linked cf + List.length l1) size) as [Z|Z]; [exfalso|reflexivity].
    destruct (filling (cf_distribution cf)) as [|e k]; [specialize (F eq_refl)|]; lia.
  - clear. induction (own cf) as [|f l IH]; cbn [map]; constructor; auto. split; [reflexivity|]. cbn. unfold or_default. now destruct (fx_class f).
  - intros N Z. destruct (filling (cf_distribution cf)); [congruence|]. lia.
  - intros N. rewrite N in L1. now destruct l1.
  - intros n N Z Y. rewrite Z in L2. destruct (totalling (cf_distribution cf)); [congruence|]. lia.
  - intros N. rewrite N in L2. now destruct l2.
Qed.
Print Assumptions C225_numbers_partial.
(** What cannot be done is refused: to fill a network with agents that are not meant to be in it, or one without nodes; to reach a total
    that is not given. *)
Theorem C225_refused_partial : forall V C (cf : agent_config V C) size more1 more2 shuffled1 shuffled2,
  (exists d, In d (filling (cf_distribution cf)) /\ (~ meant (cf_defaults cf) d \/ size = 0)) \/
  (totalling (cf_distribution cf) <> [] /\ (cf_n cf = None \/ cf_n cf = Some 0)) ->
  from_config true cf size more1 more2 shuffled1 shuffled2 = Fails ValueError.
Proof. intros. now apply fields_bad. Qed.
Print Assumptions C225_refused_partial.
(** Without a distribution there are only the agents with a specification of their own. *)
Theorem C225_fixed_partial : forall V C (cf : agent_config V C) size more1 more2 shuffled1 shuffled2,
  cf_distribution cf = [] -> exists l, from_config true cf size more1 more2 shuffled1 shuffled2 = Specs l /\ List.length l = List.length (own cf).
Proof.
  intros V C cf size more1 more2 shuffled1 shuffled2 D. cbn [from_config]. unfold from_fields, own. rewrite D.
  destruct (cf_fixed cf) as [l|]; [|exists []; auto]. unfold from_fixed. rewrite from_fixed_loop_spec. eexists. split; [reflexivity|].
  cbn [app]. now rewrite map_length.
Qed.
Print Assumptions C225_fixed_partial.

(** Two agents of their own, one of them hidden; a network of four nodes; eight agents in all. *)
Definition ex_cfg (fill : bool) : agent_config nat nat :=
  Config (Some [Fixed [("a", 1)] (Some 5) None false; Fixed [] None (Some false) true]) (Some 8)
    (((if fill then Topology else Neither), Entry (Some 1%Q) None [] (Some 6) None) ::
     [(Total, Entry (Some 1%Q) None [] (Some 7) (Some false)); (Total, Entry (Some 3%Q) None [] (Some 8) (Some false))])
    (Defaults [("b", 2)] (Some 4) true).
Definition classes (o : outcome nat nat) : option (list (option nat * option bool)) :=
  match o with Specs l => Some (map (fun s => (sp_class s, sp_topology s)) l) | _ => None end.
Example C225_case :
  classes (from_config true (ex_cfg true) 4 (fun k => repeat 0 k) (fun k => repeat 0 k) (fun l => l) (@rev nat)) =
    Some [(Some 5, Some true); (Some 4, None); (Some 6, Some true); (Some 6, Some true); (Some 6, Some true);
          (Some 8, None); (Some 8, None); (Some 8, None); (Some 7, None)] /\
  from_config true (ex_cfg false) 4 (fun k => repeat 0 k) (fun k => repeat 0 k) (fun l => l) (@rev nat) = NameError /\
  from_config true (ex_cfg true) 0 (fun k => repeat 0 k) (fun k => repeat 0 k) (fun l => l) (@rev nat) = Fails ValueError.
Proof. vm_compute. auto. Qed.
Example C225_complete : complete (ex_cfg true) 4 /\ complete (ex_cfg false) 4 /\ linked (ex_cfg true) = 1 /\ seen (ex_cfg true) = 1.
Proof.
  repeat split; cbn; try discriminate; try contradiction; try (intros; exists 8; split; [reflexivity|discriminate]).
  - intros d [<-|[]]. right. split; reflexivity.
  - exists [1%Q]. repeat constructor.
  - exists [1%Q; 3%Q]. repeat constructor.
  - exists []. constructor.
  - exists [1%Q; 3%Q]. repeat constructor.
Qed.
