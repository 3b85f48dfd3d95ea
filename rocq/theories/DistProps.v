(** Distributions of agents: C55, C56, C71, C72, C73, C74. *)
From Coq Require Import List Bool Arith ZArith QArith Qround String Permutation SpecFloat.
From Verif Require Import PyDict DistModel DistSpec DistProofs.
Import ListNotations.
Open Scope string_scope.

(** C55.  In exact arithmetic, without "ids": the intervals follow each other from 0 to 1 and
    their lengths are the shares of the weights. *)
Theorem C55_exact_partition_partial : forall (l : list (dist Q)) ws,
  l <> [] -> Forall2 (weighs 1) l ws -> Forall (fun w => 0 < w) ws ->
  Forall (fun d => di_ids d = false) l ->
  exists ts, thresholds 0 1 Qplus Qdiv (Some l) false = Some (map Some ts)
    /\ tiles 0 ts 1 /\ Forall2 (fun w i => snd i - fst i == w / sumQ ws) ws ts.
Proof. exact thresholds_partition. Qed.
Print Assumptions C55_exact_partition_partial.
(** So each number drawn from the unit interval belongs to exactly one type. *)
Theorem C55_every_draw_has_one_type_partial : forall (l : list (dist Q)) ws u,
  l <> [] -> Forall2 (weighs 1) l ws -> Forall (fun w => 0 < w) ws ->
  Forall (fun d => di_ids d = false) l -> 0 <= u -> u < 1 ->
  exists ts n i, thresholds 0 1 Qplus Qdiv (Some l) false = Some (map Some ts)
    /\ nth_error ts n = Some i /\ within u i
    /\ forall m j, nth_error ts m = Some j -> within u j -> m = n.
Proof. exact thresholds_draw. Qed.
Print Assumptions C55_every_draw_has_one_type_partial.
(** With an entry that has "ids" the last interval always ends before 1: the weight of that
    entry is part of the total. *)
Theorem C55_ids_refuted : forall (l : list (dist Q)) ws,
  Forall2 (weighs 1) l ws -> Forall (fun w => 0 < w) ws ->
  Exists (fun d => di_ids d = true) l ->
  exists ts b, thresholds 0 1 Qplus Qdiv (Some l) false = Some ts /\ tiles 0 (somes ts) b /\ b < 1.
Proof. exact thresholds_ids. Qed.
Print Assumptions C55_ids_refuted.
(** In double precision it fails without them too: with ten types of weight 1 the last
    interval ends before 1. *)
Definition f64 (z : Z) : spec_float := binary_normalize 53 1024 z 0 false.
Definition f64_thresholds := thresholds (f64 0) (f64 1) (SFadd 53 1024) (SFdiv 53 1024).
Theorem C55_floating_point_refuted :
  exists ts lo hi, f64_thresholds (Some (repeat (Dist (Some (f64 1)) false) 10)) false = Some ts
    /\ last ts None = Some (lo, hi) /\ SFltb hi (f64 1) = true.
Proof.
  eexists. eexists. eexists. split; [vm_compute; reflexivity|]. split; [reflexivity|]. reflexivity.
Qed.
Print Assumptions C55_floating_point_refuted.
Example C55_not_vacuous :
  let l := [Dist (Some (1 # 5)) false; Dist (Some (4 # 5)) false; Dist None false] in
  Forall2 (weighs 1) l [1 # 5; 4 # 5; 1] /\ Forall (fun w => 0 < w) [1 # 5; 4 # 5; 1]
  /\ option_map (map (option_map (fun i => (Qred (fst i), Qred (snd i)))))
       (thresholds 0 1 Qplus Qdiv (Some l) false)
     = Some [Some (0, 1 # 10); Some (1 # 10, 1 # 2); Some (1 # 2, 1)].
Proof.
  split; [|split; [|reflexivity]].
  - constructor; [now left|]. constructor; [now left|]. constructor; [now right|]. constructor.
  - repeat constructor.
Qed.
(** Without a list, or with an empty one, there is one entry for the class, which gets all of the
    interval, and a ValueError if there is no class either. *)
Theorem C55_class_only_partial : forall R (zero one : R) add div agents,
  agents = None \/ agents = Some [] ->
  thresholds zero one add div agents true = Some [Some (zero, add zero (div one (add zero one)))] /\
  thresholds zero one add div agents false = None.
Proof. intros R zero one add div agents [-> | ->]; split; reflexivity. Qed.
Print Assumptions C55_class_only_partial.
Example C55_class_only :
  option_map (map (option_map (fun i => (Qred (fst i), Qred (snd i))))) (thresholds 0 1 Qplus Qdiv None true)
  = Some [Some (0, 1)] /\
  f64_thresholds None true = Some [Some (f64 0, f64 1)].
Proof. split; reflexivity. Qed.

(** C56.  With a positive weight for each type, exactly [n] agents are created, each of one of
    the types, and a type of weight [w] gets at least the whole part of
    [w / smallest * floor (n / total)]. *)
Theorem C56_numbers_partial : forall (V C : Type) (distro : list (entry V C)) ws n df topology more shuffled,
  weighted distro ws -> distro <> [] -> may_choose distro more ->
  (forall l, Permutation (shuffled l) l) ->
  exists idxs l, from_distro distro (Some n) df topology more shuffled = Agents l
    /\ List.length l = n /\ Forall2 (of_type df distro) idxs l
    /\ forall i w m, nth_error ws i = Some w -> smallest m ws ->
       (Qfloor (w / m * inject_Z (Qfloor (inject_Z (Z.of_nat n) * m / sumQ ws)))
         <= Z.of_nat (count_occ Nat.eq_dec idxs i))%Z.
Proof. exact @from_distro_numbers. Qed.
Print Assumptions C56_numbers_partial.
(** For weights that are multiples of the smallest one this is the stated share. *)
Theorem C56_whole_multiples_partial : forall (V C : Type) (distro : list (entry V C)) ws n df topology more shuffled,
  weighted distro ws -> distro <> [] -> may_choose distro more ->
  (forall l, Permutation (shuffled l) l) ->
  exists idxs l, from_distro distro (Some n) df topology more shuffled = Agents l
    /\ List.length l = n /\ Forall2 (of_type df distro) idxs l
    /\ forall i w m z, nth_error ws i = Some w -> smallest m ws -> w / m == inject_Z z ->
       (z * Qfloor (inject_Z (Z.of_nat n) * m / sumQ ws) <= Z.of_nat (count_occ Nat.eq_dec idxs i))%Z.
Proof.
  intros V C distro ws n df topology more shuffled W N M S.
  destruct (from_distro_numbers distro ws n df topology more shuffled W N M S) as (idxs & l & E & L & F & B).
  exists idxs, l. split; auto. split; auto. split; auto.
  intros i w m z Ei Sm Ez. specialize (B i w m Ei Sm). now rewrite (whole_share _ _ _ _ Ez) in B.
Qed.
Print Assumptions C56_whole_multiples_partial.
(** For other weights a type may get less than the stated share: here 1 instead of 3/2. *)
Theorem C56_fractions_refuted :
  let distro := [Entry (V := nat) (Some 1) None [] (Some 0%nat) None; Entry (Some (3 # 2)) None [] (Some 1%nat) None] in
  let df := Defaults [] None false in
  let more := fun k => repeat 0%nat k in
  weighted distro [1; 3 # 2] /\ smallest 1 [1; 3 # 2] /\ may_choose distro more
  /\ exists l, from_distro distro (Some 3%nat) df false more (fun l => l) = Agents l
     /\ inject_Z (Z.of_nat (List.length (filter (fun s => match sp_class s with Some 1%nat => true | _ => false end) l)))
        < (3 # 2) / 1 * inject_Z (Qfloor (inject_Z 3 * 1 / sumQ [1; 3 # 2])).
Proof.
  cbv zeta. split; [|split; [|split]].
  - constructor; [split; reflexivity|]. constructor; [split; reflexivity|]. constructor.
  - split; [now left|]. intros w [<-|[<-|[]]]; discriminate.
  - intros k. split; [apply repeat_length|]. intros i H. apply repeat_spec in H. subst. repeat constructor.
  - eexists. split; [reflexivity|]. reflexivity.
Qed.
Print Assumptions C56_fractions_refuted.
(** Two types without weights (so both of weight 1) and an odd number of agents: TypeError,
    as the weights that are None are used for the draw of the last agent. *)
Theorem C56_no_weights_refuted : forall (V C : Type) (e1 e2 : entry V C) k df topology more shuffled,
  en_weight e1 = None -> en_weight e2 = None ->
  from_distro [e1; e2] (Some (2 * k + 1)%nat) df topology more shuffled = Raises TypeError.
Proof. exact @no_weights. Qed.
Print Assumptions C56_no_weights_refuted.
(** A type of weight 0, none being negative: always a ZeroDivisionError. *)
Theorem C56_zero_weight_refuted : forall (V C : Type) (distro : list (entry V C)) e n df topology more shuffled,
  In e distro -> (exists w, en_weight e = Some w /\ w == 0) ->
  (forall e' w, In e' distro -> en_weight e' = Some w -> 0 <= w) ->
  from_distro distro (Some n) df topology more shuffled = Raises ZeroDivisionError.
Proof. exact @zero_weight. Qed.
Print Assumptions C56_zero_weight_refuted.
Example C56_zero_weight_not_vacuous :
  from_distro [Entry (V := nat) (Some 1) None [] (Some 7%nat) None; Entry (Some 0) None [] (Some 8%nat) None]
    (Some 7%nat) (Defaults [] None false) false (fun k => repeat 1%nat k) (@rev nat) = Raises ZeroDivisionError
  /\ exists l, from_distro [Entry (V := nat) (Some 1) None [] (Some 7%nat) None; Entry (Some (1 # 100)) None [] (Some 8%nat) None]
    (Some 7%nat) (Defaults [] None false) false (fun k => repeat 0%nat k) (@rev nat) = Agents l.
Proof. split; [reflexivity|]. eexists. reflexivity. Qed.
Example C56_not_vacuous :
  let distro := [Entry (V := nat) (Some 1) None [] (Some 7%nat) None; Entry (Some 2) None [] (Some 8%nat) None] in
  weighted distro [1; 2]
  /\ from_distro distro (Some 7%nat) (Defaults [] None false) false (fun k => repeat 1%nat k) (@rev nat)
     = Agents [Spec [] (Some 8%nat) None; Spec [] (Some 8%nat) None; Spec [] (Some 8%nat) None;
               Spec [] (Some 8%nat) None; Spec [] (Some 8%nat) None; Spec [] (Some 7%nat) None; Spec [] (Some 7%nat) None].
Proof.
  split; [|reflexivity].
  constructor; [split; reflexivity|]. constructor; [split; reflexivity|]. constructor.
Qed.

(** C71.  For agents with a specification of their own, what it says about the state wins over
    the defaults. *)
Theorem C71_fixed_partial : forall (V C : Type) (lst : list (fixed V C)) topology df,
  (forall f, In f lst -> dwf (fx_state f)) ->
  let '(l, _, _) := from_fixed lst topology df in
  Forall2 (fun f s => forall k, dget k (sp_state s) = overrides k (fx_state f) (df_state df)) lst l.
Proof.
  intros V C lst topology df W. unfold from_fixed. rewrite from_fixed_loop_spec. simpl.
  induction lst as [|f lst IH]; simpl; constructor.
  - intros k. unfold describe_fixed; cbn [sp_state]. rewrite dget_update_wf; [reflexivity|]. apply W. now left.
  - apply IH. intros g Hg. apply W. now right.
Qed.
Print Assumptions C71_fixed_partial.
(** For distributions it holds for the names that only one of the two has. *)
Theorem C71_distribution_partial : forall (V C : Type) distro n (df : defaults V C) topology more shuffled l,
  dwf (df_state df) -> from_distro distro n df topology more shuffled = Agents l ->
  forall s, In s l -> exists e, In e distro
  /\ forall k, (dget k (en_state e) = None \/ dget k (df_state df) = None) ->
     dget k (sp_state s) = overrides k (en_state e) (df_state df).
Proof.
  intros V C distro n df topology more shuffled l D E s H. unfold from_distro in E.
  destruct n as [n|]; [|discriminate]. destruct distro as [|e distro]; [discriminate|].
  destruct (_ && _); [discriminate|]. destruct (completed n (e :: distro) more) as [idxs|]; [|discriminate].
  injection E as <-. exact (describe_all_states_own df (e :: distro) _ D topology s H).
Qed.
Print Assumptions C71_distribution_partial.
(** For the others the default always wins. *)
Theorem C71_distribution_refuted : forall (V C : Type) distro n (df : defaults V C) topology more shuffled l,
  dwf (df_state df) -> from_distro distro n df topology more shuffled = Agents l ->
  forall s k v, In s l -> dget k (df_state df) = Some v -> dget k (sp_state s) = Some v.
Proof.
  intros V C distro n df topology more shuffled l D E s k v H K. unfold from_distro in E.
  destruct n as [n|]; [|discriminate]. destruct distro as [|e distro]; [discriminate|].
  destruct (_ && _); [discriminate|]. destruct (completed n (e :: distro) more) as [idxs|]; [|discriminate].
  injection E as <-. exact (describe_all_states df (e :: distro) _ D topology s H k v K).
Qed.
Print Assumptions C71_distribution_refuted.
Example C71_not_vacuous :
  from_distro [Entry (C := nat) (Some 1) None [("mood", 1%nat); ("age", 5%nat)] None None] (Some 1%nat)
    (Defaults [("mood", 0%nat); ("rich", 2%nat)] None false) false (fun k => repeat 0%nat k) (fun l => l)
  = Agents [Spec [("mood", 0%nat); ("age", 5%nat); ("rich", 2%nat)] None None]
  /\ from_fixed [Fixed (C := nat) [("mood", 1%nat); ("age", 5%nat)] None None true] true
       (Defaults [("mood", 0%nat); ("rich", 2%nat)] None false)
     = ([Spec [("mood", 1%nat); ("rich", 2%nat); ("age", 5%nat)] None (Some true)], 0%nat, 1%nat).
Proof. split; reflexivity. Qed.

(** C72.  Whether an agent is part of the network depends on its own entry and the defaults. *)
Theorem C72_fixed_partial : forall (V C : Type) (lst : list (fixed V C)) topology df,
  let '(l, _, _) := from_fixed lst topology df in
  Forall2 (fun f s => placed s (in_network (fx_topology f) topology df)) lst l.
Proof.
  intros V C lst topology df. unfold from_fixed. rewrite from_fixed_loop_spec. simpl.
  induction lst as [|f lst IH]; simpl; constructor; auto. reflexivity.
Qed.
Print Assumptions C72_fixed_partial.
(** For distributions: if the default is to be part of it, or all entries say, or none. *)
Theorem C72_distribution_partial : forall (V C : Type) (distro : list (entry V C)) ws n df topology more shuffled,
  weighted distro ws -> distro <> [] -> may_choose distro more ->
  (forall l, Permutation (shuffled l) l) ->
  df_topology df = true \/ (forall e, In e distro -> en_topology e <> None)
    \/ (forall e, In e distro -> en_topology e = None) ->
  exists idxs l, from_distro distro (Some n) df topology more shuffled = Agents l
    /\ Forall2 (fun i s => exists e, nth_error distro i = Some e
         /\ placed s (in_network (en_topology e) topology df)) idxs l.
Proof.
  intros V C distro ws n df topology more shuffled W N M S H.
  destruct (completed_spec n distro ws more W N M) as (l & E & L & I & Co).
  exists (shuffled l), (describe_all df distro topology (shuffled l)). split.
  - unfold from_distro. rewrite (weighted_no_zero _ _ W), E. simpl. destruct distro; congruence.
  - apply describe_all_topology; auto. intros i Hi. apply I. eapply Permutation_in; [apply S|exact Hi].
Qed.
Print Assumptions C72_distribution_partial.
(** Otherwise it depends on the agents that come before: of two agents of the same type (2),
    which should not be in the network, one is. *)
Theorem C72_order_refuted :
  let distro := [Entry (V := nat) (Some 1) None [] (Some 1%nat) (Some true); Entry (Some 2) None [] (Some 2%nat) None] in
  let df := Defaults [] None false in
  in_network None false df = false
  /\ from_distro distro (Some 3%nat) df false (fun k => repeat 0%nat k) (fun l => [1; 0; 1]%nat)
     = Agents [Spec [] (Some 2%nat) None; Spec [] (Some 1%nat) (Some true); Spec [] (Some 2%nat) (Some true)]
  /\ Permutation [1; 0; 1]%nat [0; 1; 1]%nat.
Proof. cbv zeta. split; [reflexivity|]. split; [reflexivity|]. apply perm_swap. Qed.
Print Assumptions C72_order_refuted.

(** C73.  Without a total the numbers of the types should be used; it always raises. *)
Theorem C73_numbers_of_types_refuted : forall (V C : Type) (distro : list (entry V C)) df topology more shuffled,
  from_distro distro None df topology more shuffled = Raises TypeError.
Proof. reflexivity. Qed.
Print Assumptions C73_numbers_of_types_refuted.

(** C74.  One agent for each entry, in order, of its class or the default one; the numbers
    count those not hidden and those in the network. *)
Theorem C74_fixed_agents : forall (V C : Type) (lst : list (fixed V C)) topology df,
  let '(l, total, network) := from_fixed lst topology df in
  Forall2 (fun f s => sp_class s = match fx_class f with Some c => Some c | None => df_class df end) lst l
  /\ total = List.length (filter (fun f => negb (fx_hidden f)) lst)
  /\ network = List.length (filter (fun s => match sp_topology s with Some true => true | _ => false end) l).
Proof.
  intros V C lst topology df. unfold from_fixed. rewrite from_fixed_loop_spec. simpl.
  split; [|split; [reflexivity|]].
  - induction lst as [|f lst IH]; simpl; constructor; auto. simpl. unfold or_default. destruct (fx_class f); auto.
  - induction lst as [|f lst IH]; simpl; auto. fold (in_network (fx_topology f) topology df).
    destruct (in_network (fx_topology f) topology df); simpl; auto.
Qed.
Print Assumptions C74_fixed_agents.
Example C74_not_vacuous :
  from_fixed [Fixed (V := nat) [] (Some 3%nat) (Some false) false; Fixed [] None None true; Fixed [] None None false]
    true (Defaults [] (Some 9%nat) false)
  = ([Spec [] (Some 3%nat) None; Spec [] (Some 9%nat) (Some true); Spec [] (Some 9%nat) (Some true)], 2%nat, 2%nat).
Proof. reflexivity. Qed.
