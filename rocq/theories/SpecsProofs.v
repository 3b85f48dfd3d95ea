(** Proofs for SpecsProps.v. *)
From Coq Require Import List Bool Arith String Lia Permutation.
From Verif Require Import PyDict DistModel DistSpec DistProofs SpecsModel SpecsSpec.
Import ListNotations.

Section Proofs.
Context {V C : Type}.
Implicit Types cf : agent_config V C.

Lemma split_some cf size (l : list (strategy * entry V C)) : forall N T t,
  (forall d, In d (filling l) -> meant (cf_defaults cf) d) -> (filling l <> [] -> size <> 0) ->
  (totalling l <> [] -> exists n, cf_n cf = Some n /\ n <> 0) ->
  exists t', split cf size l N T t = Some (N ++ filling l, T ++ totalling l, t') /\ (filling l = [] -> t' = t) /\ (filling l <> [] -> t' = true).
Proof.
  induction l as [|[[] d] l IH]; intros N T t A B D; cbn [split filling totalling] in *.
  - exists t. rewrite !app_nil_r. repeat split; auto; congruence.
  - assert (M := A d (or_introl eq_refl)).
    assert (E : match en_topology d with Some t0 => t0 | None => df_topology (cf_defaults cf) end = true) by (destruct M as [->|[-> ->]]; reflexivity).
    rewrite E. cbn [negb]. destruct (Nat.eqb_spec size 0) as [Z|Z]; [exfalso; apply B; [discriminate|exact Z]|].
    destruct (IH (N ++ [d]) T true) as (t' & E' & F & G); auto.
    { intros e I. apply A. now right. }
    exists t'. rewrite E', <- app_assoc. repeat split; try discriminate. intros _. destruct (filling l) as [|e k]; [now apply F|apply G; discriminate].
  - destruct D as (n & E & Z); [discriminate|]. rewrite E. destruct n as [|n]; [congruence|].
    destruct (IH N (T ++ [d]) t) as (t' & E' & F & G); auto.
    { intros _. exists (S n). auto. }
    exists t'. rewrite E', <- app_assoc. auto.
  - apply IH; auto.
Qed.
Lemma split_bad cf size l d : In d (filling l) -> (~ meant (cf_defaults cf) d \/ size = 0) -> forall N T t, split cf size l N T t = None.
Proof.
  intros I B. induction l as [|[[] e] l IH]; intros N T t; cbn [split filling] in *; [contradiction| | |auto].
  - destruct I as [->|I].
    + destruct (match en_topology d with Some t0 => t0 | None => df_topology (cf_defaults cf) end) eqn:E; cbn [negb]; [|reflexivity].
      destruct B as [B| ->]; [|reflexivity]. exfalso. apply B. unfold meant. destruct (en_topology d) as [x|]; subst; auto.
    + destruct (negb _); [reflexivity|]. destruct (size =? 0); [reflexivity|]. now apply IH.
  - destruct (cf_n cf) as [[|n]|]; auto.
Qed.
Lemma split_no_total cf size l : totalling l <> [] -> (cf_n cf = None \/ cf_n cf = Some 0) -> forall N T t, split cf size l N T t = None.
Proof.
  intros I B. induction l as [|[[] e] l IH]; intros N T t; cbn [split totalling] in *; [contradiction| | |auto].
  - destruct (negb _); [reflexivity|]. destruct (size =? 0); [reflexivity|]. now apply IH.
  - destruct B as [-> | ->]; reflexivity.
Qed.

Lemma describe_all_meant df (distro : list (entry V C)) (l : list nat) : (forall d, In d distro -> meant df d) ->
  Forall (fun s => sp_topology s = Some true) (describe_all df distro true l).
Proof.
  intros A. assert (G : forall t, t = true -> Forall (fun s => sp_topology s = Some true) (describe_all df distro t l)); [|now apply G].
  induction l as [|i l IH]; intros t T; cbn [describe_all]; [constructor|]. destruct (nth_error distro i) as [e|] eqn:E; [|constructor].
  cbn [describe]. assert (M := A e (nth_error_In _ _ E)). subst t. cbn [orb].
  assert (X : match en_topology e with Some t => t | None => true end = true) by (destruct M as [->|[-> _]]; reflexivity). rewrite X.
  constructor; [reflexivity|]. now apply IH.
Qed.
Lemma from_distro_networked distro n df more shuffled (l : list (spec V C)) : (forall d, In d distro -> meant df d) ->
  from_distro distro n df true more shuffled = Agents l -> Forall (fun s : spec V C => sp_topology s = Some true) l.
Proof.
  intros A E. unfold from_distro in E. destruct n as [n|]; [|discriminate]. destruct distro as [|d distro]; [discriminate|].
  destruct (_ && _); [discriminate|]. destruct (completed _ _ _) as [k|]; [|discriminate]. injection E as <-. now apply describe_all_meant.
Qed.

Section Result.
Context (cf : agent_config V C) (size : nat) (more1 more2 : nat -> list nat) (shuffled1 shuffled2 : list nat -> list nat).
Notation N := (filling (cf_distribution cf)).
Notation T := (totalling (cf_distribution cf)).
Lemma fields_complete :
  cf_distribution cf <> [] -> complete cf size -> may_choose N more1 -> may_choose T more2 ->
  (forall k, Permutation (shuffled1 k) k) -> (forall k, Permutation (shuffled2 k) k) ->
  exists l1 l2,
    from_fields cf size more1 more2 shuffled1 shuffled2 =
      (if linked cf + List.length l1 <? size then NameError
       else Specs (map (describe_fixed (cf_defaults cf) (df_topology (cf_defaults cf))) (own cf) ++ l1 ++ l2)) /\
    List.length l1 = match N with [] => 0 | _ => size - linked cf end /\ Forall (fun s => sp_topology s = Some true) l1 /\
    List.length l2 = match T, cf_n cf with _ :: _, Some n => n - (seen cf + List.length l1) | _, _ => 0 end.
Proof.
  intros ND (A & B & D & (ws1 & W1) & (ws2 & W2)) M1 M2 S1 S2. unfold from_fields.
  assert (F : match cf_fixed cf with Some l => from_fixed l (df_topology (cf_defaults cf)) (cf_defaults cf) | None => ([], 0, 0) end =
    (map (describe_fixed (cf_defaults cf) (df_topology (cf_defaults cf))) (own cf), seen cf, linked cf)).
  { unfold own, seen, linked, own. destruct (cf_fixed cf) as [l|]; [|reflexivity]. unfold from_fixed. now rewrite from_fixed_loop_spec. }
  rewrite F. clear F. destruct (cf_distribution cf) as [|x l] eqn:Ed; [contradiction|]. rewrite <- Ed in *.
  destruct (split_some cf size (cf_distribution cf) [] [] false A B D) as (t & Es & F & G). rewrite Es. cbn [app].
  assert (X : exists l1, match N with [] => Agents [] | _ => from_distro N (Some (size - linked cf)) (cf_defaults cf) t more1 shuffled1 end = Agents l1 /\
    List.length l1 = match N with [] => 0 | _ => size - linked cf end /\ Forall (fun s => sp_topology s = Some true) l1).
  { destruct N as [|e k] eqn:En; [exists []; auto|].
    rewrite (G ltac:(discriminate)). destruct (from_distro_numbers (e :: k) ws1 (size - linked cf) (cf_defaults cf) true more1 shuffled1) as (_ & l1 & E & L & _); auto; [discriminate|].
    exists l1. split; [exact E|]. split; [exact L|]. eapply from_distro_networked; eauto. }
  destruct X as (l1 & E1 & L1 & P1). rewrite E1.
  assert (X : exists l2, match T with [] => Agents [] | _ => from_distro T (option_map (fun n => n - (seen cf + List.length l1)) (cf_n cf)) (cf_defaults cf) false more2 shuffled2 end = Agents l2 /\
    List.length l2 = match T, cf_n cf with _ :: _, Some n => n - (seen cf + List.length l1) | _, _ => 0 end).
  { destruct T as [|e k] eqn:En; [exists []; auto|]. destruct D as (n & -> & _); [discriminate|]. cbn [option_map].
    destruct (from_distro_numbers (e :: k) ws2 (n - (seen cf + List.length l1)) (cf_defaults cf) false more2 shuffled2) as (_ & l2 & E & L & _); auto; [discriminate|].
    exists l2. auto. }
  destruct X as (l2 & E2 & L2). rewrite E2. exists l1, l2. auto.
Qed.
Lemma fields_bad : (exists d, In d N /\ (~ meant (cf_defaults cf) d \/ size = 0)) \/ (T <> [] /\ (cf_n cf = None \/ cf_n cf = Some 0)) ->
  from_fields cf size more1 more2 shuffled1 shuffled2 = Fails ValueError.
Proof.
  intros H. unfold from_fields. destruct (match cf_fixed cf with Some l => _ | None => _ end) as [[a b] c].
  assert (E : split cf size (cf_distribution cf) [] [] false = None).
  { destruct H as [(d & I & B)|[I B]]; [eapply split_bad; eauto|now apply split_no_total]. }
  rewrite E. destruct (cf_distribution cf); [|reflexivity]. destruct H as [(d & [] & _)|[I _]]. now elim I.
Qed.
End Result.
End Proofs.
