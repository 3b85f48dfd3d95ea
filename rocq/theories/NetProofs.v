(** Proofs about agents in networks. *)
From Coq Require Import List Bool Arith ZArith String Lia Sorted.
From Verif Require Import PyDict QueryModel QuerySpec QueryProofs NetModel NetSpec.
Import ListNotations.

Section P.
Context {N : Type} `{EN : Eqb N}.
Variable int_node : nat -> N.
Notation choose_node := (choose_node int_node).
Notation construct := (construct int_node).
Notation base_add_agent := (base_add_agent int_node).
Notation add_agent := (add_agent int_node).
Notation add_all := (add_all int_node).
Notation populate := (populate int_node).

Lemma node_dec (x y : N) : {x = y} + {x <> y}.
Proof. destruct (eqb x y) eqn:E; [left; now apply eqb_eq|right; now apply eqb_neq]. Defined.

Lemma dset_dset {V} k (v v' : V) (d : dict N V) : dset k v (dset k v' d) = dset k v d.
Proof.
  induction d as [|[k' w] d IH]; simpl; [now rewrite eqb_refl|].
  destruct (eqb k k') eqn:E; simpl; rewrite E; auto. now rewrite IH.
Qed.

Lemma set_slot_twice (g : graph N) n s s' : set_slot (set_slot g n s) n s' = set_slot g n s'.
Proof. unfold set_slot. simpl. now rewrite dset_dset. Qed.

Lemma has_node_in (g : graph N) n : has_node g n = true <-> In n (dkeys (g_nodes g)).
Proof. apply dhas_in. Qed.

Lemma has_node_set (g : graph N) n s m : has_node (set_slot g n s) m = eqb m n || has_node g m.
Proof. apply dhas_set. Qed.

Lemma put_in (g : graph N) n o : has_node g n = true -> put g n o = Some (set_slot g n (Some (Some o))).
Proof. unfold put. now intros ->. Qed.

Lemma keys_set_in (g : graph N) n s : has_node g n = true ->
  dkeys (g_nodes (set_slot g n s)) = dkeys (g_nodes g).
Proof. intros E. unfold set_slot. simpl. rewrite dkeys_set. unfold has_node in E. now rewrite E. Qed.

Lemma get_set (g : graph N) n s m :
  dget m (g_nodes (set_slot g n s)) = if eqb m n then Some s else dget m (g_nodes g).
Proof. apply dget_set. Qed.

Lemma edges_set (g : graph N) n s : g_edges (set_slot g n s) = g_edges g.
Proof. reflexivity. Qed.
Lemma directed_set (g : graph N) n s : g_directed (set_slot g n s) = g_directed g.
Proof. reflexivity. Qed.
Lemma set_wf (g : graph N) n s : dwf (g_nodes g) -> dwf (g_nodes (set_slot g n s)).
Proof. apply dset_wf. Qed.
Lemma nx_add_wf (g : graph N) n : dwf (g_nodes g) -> dwf (g_nodes (nx_add_node g n)).
Proof. unfold nx_add_node. destruct (has_node g n); auto. apply set_wf. Qed.
Local Opaque set_slot.

Lemma get_slot_some (g : graph N) n s : dget n (g_nodes g) = Some s -> get_slot g n = s.
Proof. unfold get_slot. now intros ->. Qed.

Lemma has_node_get (g : graph N) n : has_node g n = match dget n (g_nodes g) with Some _ => true | None => false end.
Proof. apply dhas_get. Qed.

(** An agent that is added on a node of the graph. *)
Definition made (k : kind) (u : Z) (n : N) : agent N :=
  Agent u k (match k with KStrict => None | _ => Some n end) true.

Lemma add_agent_at e k uid n p1 p2 t : has_node (ne_graph e) n = true -> k <> KRaise ->
  exists u last,
  add_agent e k uid (Some n) t p1 p2 =
    (NEnv (set_slot (ne_graph e) n (Some (Some (List.length (ne_objs e))))) last
       (ne_objs e ++ [made k u n]) (ne_reg e ++ [List.length (ne_objs e)]),
     Val (List.length (ne_objs e))) /\
  match uid with
  | Some i => u = i /\ last = ne_last e
  | None => u = last /\ (ne_last e < last)%Z
  end.
Proof.
  intros Hn Hk. unfold NetModel.add_agent, NetModel.base_add_agent.
  destruct uid as [i|]; simpl.
  - exists i, (ne_last e). split; [|auto].
    destruct k; simpl; try congruence.
    + rewrite put_in by auto. simpl. rewrite put_in by (rewrite has_node_set, Hn; apply orb_true_r).
      now rewrite set_slot_twice.
    + rewrite put_in by auto. reflexivity.
    + rewrite put_in by auto. reflexivity.
  - destruct k; simpl; try congruence.
    + exists (ne_last e + 1)%Z, (ne_last e + 1)%Z. rewrite put_in by auto. simpl.
      rewrite put_in by (rewrite has_node_set, Hn; apply orb_true_r).
      rewrite set_slot_twice. split; auto. split; auto. lia.
    + exists (ne_last e + 1)%Z, (ne_last e + 1)%Z. rewrite put_in by auto. split; auto. split; auto. lia.
    + exists (ne_last e + 1 + 1)%Z, (ne_last e + 1 + 1)%Z. rewrite put_in by auto. split; auto.
      split; auto. lia.
Qed.

(** C47: the free nodes are reserved, in order. *)
Fixpoint free_with (classes : list kind) (nodes : dict N slot) : list (kind * N) :=
  match classes, nodes with
  | k :: classes', (n, s) :: nodes' =>
      if has_key s then free_with classes' nodes' else (k, n) :: free_with classes' nodes'
  | _, _ => []
  end.

Lemma reserve_list classes : forall (nodes : dict N slot) g, snd (reserve classes nodes g) = free_with classes nodes.
Proof.
  induction classes as [|k classes IH]; intros [|[n s] nodes] g; simpl; auto.
  destruct (has_key s); auto. specialize (IH nodes (set_slot g n (Some None))).
  destruct (reserve classes nodes _) as [g' l]. simpl in *. now rewrite IH.
Qed.

Lemma reserve_graph classes : forall nodes (g : graph N),
  (forall n, In n (dkeys nodes) -> In n (dkeys (g_nodes g))) ->
  let g' := fst (reserve classes nodes g) in
  dkeys (g_nodes g') = dkeys (g_nodes g) /\ g_edges g' = g_edges g /\ g_directed g' = g_directed g /\
  (forall m, In m (map snd (free_with classes nodes)) -> dget m (g_nodes g') = Some (Some None)) /\
  (forall m, ~ In m (map snd (free_with classes nodes)) -> dget m (g_nodes g') = dget m (g_nodes g)).
Proof.
  induction classes as [|k classes IH]; intros [|[n s] nodes] g I; simpl; auto 10; try (repeat split; auto; contradiction).
  destruct (has_key s) eqn:E.
  - apply IH. intros m M. apply I. simpl. auto.
  - assert (has_node g n = true) as Hn by (apply has_node_in, I; simpl; auto).
    specialize (IH nodes (set_slot g n (Some None))).
    destruct (reserve classes nodes (set_slot g n (Some None))) as [g' l]. simpl in *.
    rewrite keys_set_in, edges_set, directed_set in IH by auto. destruct IH as (K & Ed & Di & S1 & S2); [auto|].
    split; [auto|]. split; [auto|]. split; [auto|]. split.
    + intros m [<-|M]; auto. destruct (in_dec node_dec n (map snd (free_with classes nodes))) as [M|M]; auto.
      rewrite S2 by auto. rewrite get_set, eqb_refl. reflexivity.
    + intros m M. rewrite S2 by auto. rewrite get_set. destruct (eqb m n) eqn:X; auto.
      apply eqb_eq in X. subst. exfalso. auto.
Qed.

Lemma free_with_nodes classes : forall nodes : dict N slot, List.length classes = List.length nodes ->
  map snd (free_with classes nodes) = map fst (filter (fun p => negb (has_key (snd p))) nodes).
Proof.
  induction classes as [|k classes IH]; intros [|[n s] nodes] L; simpl in *; try discriminate; auto.
  destruct (has_key s); simpl; [|f_equal]; apply IH; lia.
Qed.

Lemma free_with_kinds classes : forall (nodes : dict N slot) k n, In (k, n) (free_with classes nodes) -> In k classes.
Proof.
  induction classes as [|k classes IH]; intros [|[n s] nodes] k' n' I; simpl in *; try contradiction.
  destruct (has_key s).
  - right. eapply IH; eauto.
  - destruct I as [[= -> ->]|I]; auto. right. eapply IH; eauto.
Qed.

Lemma free_with_keys classes : forall (nodes : dict N slot) k n, In (k, n) (free_with classes nodes) ->
  In n (dkeys nodes).
Proof.
  induction classes as [|k classes IH]; intros [|[n s] nodes] k' n' I; simpl in *; try contradiction.
  destruct (has_key s).
  - right. eapply IH; eauto.
  - destruct I as [[= -> ->]|I]; auto. right. eapply IH; eauto.
Qed.

Lemma map_fst_filter_nodup {V} (f : N * V -> bool) (d : dict N V) : dwf d -> NoDup (map fst (filter f d)).
Proof.
  unfold dwf. induction d as [|[k v] d IH]; simpl; intros D; [constructor|].
  inversion D as [|x l D1 D2]; subst. destruct (f (k, v)); simpl; auto. constructor; auto.
  intros I. apply D1. apply in_map_iff in I. destruct I as ((k2 & v2) & E & I). simpl in E. subst.
  apply filter_In in I. exact (in_map fst _ _ (proj1 I)).
Qed.

(** Adding agents to a list of nodes. *)
Lemma add_all_spec l : forall e,
  (forall k n, In (k, n) l -> has_node (ne_graph e) n = true /\ k <> KRaise) -> NoDup (map snd l) ->
  exists g last more,
  add_all l e = (NEnv g last (ne_objs e ++ more) (ne_reg e ++ seq (List.length (ne_objs e)) (List.length l)), None) /\
  List.length more = List.length l /\
  dkeys (g_nodes g) = dkeys (g_nodes (ne_graph e)) /\ g_edges g = g_edges (ne_graph e) /\
  g_directed g = g_directed (ne_graph e) /\
  (forall i k n, nth_error l i = Some (k, n) ->
     dget n (g_nodes g) = Some (Some (Some (List.length (ne_objs e) + i))) /\
     exists u, nth_error more i = Some (made k u n)) /\
  (forall n, ~ In n (map snd l) -> dget n (g_nodes g) = dget n (g_nodes (ne_graph e))).
Proof.
  induction l as [|[k n] l IH]; intros e I D.
  - exists (ne_graph e), (ne_last e), []. simpl. rewrite !app_nil_r. destruct e; simpl.
    do 5 (split; [reflexivity|]). split; auto. intros [|i]; discriminate.
  - destruct (I k n (or_introl eq_refl)) as [Hn Hk].
    destruct (add_agent_at e k None n [] [] true Hn Hk) as (u & last & E & _).
    cbn [NetModel.add_all]. rewrite E. simpl ne_graph.
    assert (has_node (set_slot (ne_graph e) n (Some (Some (List.length (ne_objs e))))) n = true) as Hn'
      by (rewrite has_node_set, eqb_refl; reflexivity).
    rewrite put_in by auto. rewrite set_slot_twice. unfold with_graph. simpl.
    simpl in D. inversion D as [|x l' D1 D2]; subst.
    edestruct IH as (g & last' & more & E2 & L & K & Ed & Di & S1 & S2);
      [..|rewrite E2]; clear IH.
    + intros k' n' I'. simpl. destruct (I k' n' (or_intror I')) as [A B]. split; auto.
      rewrite has_node_set, A. apply orb_true_r.
    + auto.
    + exists g, last', (made k u n :: more). simpl in *. rewrite keys_set_in in K by auto. rewrite edges_set in Ed. rewrite directed_set in Di.
      rewrite app_length, <- !app_assoc. simpl. rewrite Nat.add_1_r. split; auto. split; [lia|].
      repeat (split; [auto; fail|]). split.
      * intros [|i] k' n' Ei; simpl in Ei.
        -- injection Ei as <- <-. rewrite S2 by auto. rewrite get_set, eqb_refl, Nat.add_0_r.
           split; auto. exists u. reflexivity.
        -- destruct (S1 i k' n' Ei) as [A B]. rewrite app_length in A. simpl in A. split; auto.
           rewrite A. do 3 f_equal. lia.
      * intros m M. rewrite S2 by tauto. rewrite get_set. destruct (eqb m n) eqn:X; auto.
        apply eqb_eq in X. subst. tauto.
Qed.
Lemma free_with_combine classes : forall (nodes : dict N slot) k n,
  In (k, n) (free_with classes nodes) -> In (k, n) (combine classes (dkeys nodes)).
Proof.
  induction classes as [|k classes IH]; intros [|[n s] nodes] k' n' I; simpl in *; try contradiction.
  destruct (has_key s); [right; now apply IH|]. destruct I as [I|I]; auto.
Qed.

Lemma vacant_free (e : nenv N) classes n : dwf (g_nodes (ne_graph e)) ->
  List.length classes = List.length (g_nodes (ne_graph e)) ->
  In n (map snd (free_with classes (g_nodes (ne_graph e)))) <-> vacant e n.
Proof.
  intros D L. rewrite free_with_nodes by auto. rewrite in_map_iff. unfold vacant. split.
  - intros ([n' s] & <- & I). apply filter_In in I. destruct I as [I S]. simpl in *.
    apply dget_in_wf in I; auto. rewrite I. destruct s; [discriminate|auto].
  - intros V. exists (n, None). split; auto. apply filter_In. split; auto. now apply dget_in.
Qed.

Lemma vacancies_eq (e : nenv N) classes : List.length classes = List.length (g_nodes (ne_graph e)) ->
  List.length (free_with classes (g_nodes (ne_graph e))) = vacancies e.
Proof.
  intros L. rewrite <- (map_length snd), free_with_nodes, map_length by auto. unfold vacancies.
  f_equal. apply filter_ext. intros [n [s|]]; reflexivity.
Qed.

(** What [populate] has done when it comes to its assertions. *)
Lemma populate_core (e : nenv N) classes : dwf (g_nodes (ne_graph e)) ->
  List.length classes = List.length (g_nodes (ne_graph e)) -> ~ In KRaise classes ->
  exists g l g1 last more,
  reserve classes (g_nodes (ne_graph e)) (ne_graph e) = (g, l) /\
  add_all l (with_graph e g) =
    (NEnv g1 last (ne_objs e ++ more) (ne_reg e ++ seq (List.length (ne_objs e)) (vacancies e)), None) /\
  List.length more = vacancies e /\ List.length l = vacancies e /\
  dkeys (g_nodes g1) = dkeys (g_nodes (ne_graph e)) /\ g_edges g1 = g_edges (ne_graph e) /\
  g_directed g1 = g_directed (ne_graph e) /\
  (forall n, vacant e n <-> exists i k, nth_error l i = Some (k, n)) /\
  (forall i k n, nth_error l i = Some (k, n) -> In (k, n) (combine classes (dkeys (g_nodes (ne_graph e)))) /\
     dget n (g_nodes g1) = Some (Some (Some (List.length (ne_objs e) + i))) /\
     exists u, nth_error more i = Some (made k u n)) /\
  (forall n, ~ vacant e n -> dget n (g_nodes g1) = dget n (g_nodes (ne_graph e))).
Proof.
  intros D L R.
  pose proof (reserve_graph classes (g_nodes (ne_graph e)) (ne_graph e) (fun n I => I)) as G.
  pose proof (reserve_list classes (g_nodes (ne_graph e)) (ne_graph e)) as G2.
  destruct (reserve classes (g_nodes (ne_graph e)) (ne_graph e)) as [g l]. simpl in G, G2. subst l.
  set (l := free_with classes (g_nodes (ne_graph e))) in *.
  destruct G as (K & Ed & Di & S1 & S2).
  destruct (add_all_spec l (with_graph e g)) as (g1 & last & more & E & Lm & K1 & Ed1 & Di1 & T1 & T2).
  { intros k n I. split.
    - apply has_node_in. simpl. rewrite K. eapply free_with_keys; eauto.
    - intros ->. apply R. eapply free_with_kinds; eauto. }
  { unfold l. rewrite free_with_nodes by auto. now apply map_fst_filter_nodup. }
  simpl in *. pose proof (vacancies_eq e classes L) as LV. fold l in LV.
  exists g, l, g1, last, more. rewrite LV in *. rewrite K1, Ed1, Di1.
  split; [auto|]. split; [auto|]. do 5 (split; [auto; fail|]). split; [|split].
  - intros n. rewrite <- (vacant_free e classes n D L). fold l. rewrite in_map_iff. split.
    + intros ([k n'] & <- & I). apply In_nth_error in I. destruct I as [i I]. exists i, k. auto.
    + intros (i & k & I). exists (k, n). split; auto. eapply nth_error_In; eauto.
  - intros i k n I. destruct (T1 i k n I) as [A B]. split; [|auto].
    apply free_with_combine. fold l. eapply nth_error_In; eauto.
  - intros n V. rewrite <- (vacant_free e classes n D L) in V. fold l in V. rewrite T2, S2; auto.
Qed.

Lemma populate_ends (e e' : nenv N) classes : populate e classes = (e', None) ->
  exists g l, reserve classes (g_nodes (ne_graph e)) (ne_graph e) = (g, l) /\
              add_all l (with_graph e g) = (e', None).
Proof.
  unfold NetModel.populate. destruct (g_nodes (ne_graph e)) as [|p d] eqn:X; [discriminate|].
  destruct (reserve _ _ _) as [g l]. intros H. exists g, l. split; auto.
  destruct (add_all l (with_graph e g)) as [e1 [x|]]; [discriminate|].
  destruct (_ && _); [|discriminate]. now injection H as <-.
Qed.

Lemma placed_graph (g : graph N) last objs reg o n :
  placed (NEnv g last objs reg) o n <-> dget n (g_nodes g) = Some (Some (Some o)).
Proof. reflexivity. Qed.

Lemma populate_spec (e e' : nenv N) classes : dwf (g_nodes (ne_graph e)) -> known e ->
  List.length classes = List.length (g_nodes (ne_graph e)) -> ~ In KRaise classes ->
  populate e classes = (e', None) ->
  let first := List.length (ne_objs e) in
  (exists more, ne_objs e' = ne_objs e ++ more /\ List.length more = vacancies e) /\
  ne_reg e' = ne_reg e ++ seq first (vacancies e) /\
  dkeys (g_nodes (ne_graph e')) = dkeys (g_nodes (ne_graph e)) /\
  g_edges (ne_graph e') = g_edges (ne_graph e) /\
  (forall n, vacant e n -> exists o a, first <= o /\ placed e' o n /\ the_agent e' o a /\
     In (ag_kind a, n) (combine classes (dkeys (g_nodes (ne_graph e)))) /\ ag_alive a = true /\
     (ag_kind a <> KStrict -> ag_node a = Some n)) /\
  (forall n, ~ vacant e n -> same_at e e' n) /\
  (forall o, first <= o < first + vacancies e ->
     exists n, vacant e n /\ placed e' o n /\ forall m, placed e' o m -> m = n).
Proof.
  intros D Kn L R H first.
  destruct (populate_ends _ _ _ H) as (g' & l' & E1 & E2).
  destruct (populate_core e classes D L R) as (g & l & g1 & last & more & F1 & F2 & Lm & Ll & K & Ed & Di & V & T & U).
  rewrite E1 in F1. injection F1 as <- <-. rewrite E2 in F2. injection F2 as ->. simpl.
  split; [eauto|]. do 3 (split; [auto; fail|]). split; [|split].
  - intros n Vn. apply V in Vn. destruct Vn as (i & k & I). destruct (T i k n I) as (A & B & u & C).
    exists (first + i), (made k u n). split; [lia|]. split; [exact B|]. split; [|simpl; auto].
    + unfold the_agent. simpl. rewrite nth_error_app2 by (unfold first; lia).
      replace (first + i - List.length (ne_objs e)) with i by (unfold first; lia). exact C.
    + split; auto. split; auto. destruct k; auto; congruence.
  - intros n Vn. unfold same_at. simpl. auto.
  - intros o O. destruct (nth_error l' (o - first)) as [[k n]|] eqn:I.
    + exists n. destruct (T _ _ _ I) as (A & B & C). replace (List.length (ne_objs e) + (o - first)) with o in B by (unfold first in *; lia).
      split; [apply V; eauto|]. split; [exact B|]. intros m M. unfold placed in M. simpl in M.
      destruct (dget m (g_nodes (ne_graph e))) as [[s|]|] eqn:G.
      * rewrite U in M by (unfold vacant; congruence). apply Kn in M. unfold first in O. lia.
      * assert (vacant e m) as Vm by exact G. apply V in Vm. destruct Vm as (j & k' & J).
        destruct (T _ _ _ J) as (_ & B' & _). rewrite M in B'. injection B' as B'.
        assert (j = o - first) as -> by (unfold first; lia). rewrite J in I. now injection I as -> ->.
      * rewrite U in M by (unfold vacant; congruence). apply Kn in M. unfold first in O. lia.
    + apply nth_error_None in I. lia.
Qed.

Lemma populate_succeeds (e : nenv N) classes n : dwf (g_nodes (ne_graph e)) ->
  List.length classes = List.length (g_nodes (ne_graph e)) -> ~ In KRaise classes ->
  vacant e n \/ reserved e n \/ (exists o a, placed e o n /\ the_agent e o a /\ ag_alive a = true) ->
  exists e', populate e classes = (e', None).
Proof.
  intros D L R S.
  destruct (populate_core e classes D L R) as (g & l & g1 & last & more & F1 & F2 & Lm & Ll & K & Ed & Di & V & T & U).
  assert (In n (dkeys (g_nodes (ne_graph e)))) as Hn.
  { apply dhas_in. rewrite dhas_get. destruct S as [S|[S|(o & a & S & _)]]; rewrite S; auto. }
  unfold NetModel.populate. destruct (g_nodes (ne_graph e)) as [|p d] eqn:X; [destruct Hn|].
  rewrite <- X in *. rewrite F1, F2. simpl.
  assert (dwf (g_nodes g1)) as D1 by (unfold dwf; rewrite K; exact D).
  match goal with |- context [if ?b then _ else _] => assert (b = true) as -> end; [|eauto].
  apply andb_true_iff. split.
  - apply forallb_forall. intros [m s] I. simpl. apply dget_in_wf in I; auto.
    destruct s; auto. exfalso.
    destruct (dget m (g_nodes (ne_graph e))) as [[s|]|] eqn:G.
    + rewrite U in I by (unfold vacant; congruence). congruence.
    + assert (vacant e m) as Vm by exact G. apply V in Vm. destruct Vm as (j & k' & J).
      destruct (T _ _ _ J) as (_ & B' & _). congruence.
    + rewrite U in I by (unfold vacant; congruence). congruence.
  - unfold some_network_agent. simpl. apply existsb_exists.
    destruct S as [S|[S|(o & a & S & A & Al)]].
    + apply V in S. destruct S as (i & k & I). destruct (T _ _ _ I) as (_ & B & u & C).
      exists (n, Some (Some (List.length (ne_objs e) + i))). split; [now apply dget_in|]. simpl.
      unfold alive. simpl. rewrite nth_error_app2 by lia.
      replace (List.length (ne_objs e) + i - List.length (ne_objs e)) with i by lia. rewrite C. reflexivity.
    + exists (n, Some None). split; auto. apply dget_in. rewrite U; auto.
      unfold vacant, reserved in *. congruence.
    + exists (n, Some (Some o)). split.
      * apply dget_in. rewrite U; auto. unfold vacant, placed in *. congruence.
      * simpl. unfold alive. simpl. unfold the_agent in A. rewrite nth_error_app1.
        -- now rewrite A.
        -- apply nth_error_Some. congruence.
Qed.

(** C48: a network agent without a node. *)
Lemma is_free_get (e : nenv N) n : in_graph e n ->
  is_free (get_slot (ne_graph e) n) = true <-> vacant e n \/ reserved e n.
Proof.
  unfold in_graph, vacant, reserved, get_slot. intros I. apply dhas_in in I. rewrite dhas_get in I.
  destruct (dget n (g_nodes (ne_graph e))) as [[[o|]|]|]; [| | |discriminate]; simpl; split; auto;
    try discriminate; intros [X|X]; discriminate.
Qed.

Lemma nx_add_get (g : graph N) n m :
  dget m (g_nodes (nx_add_node g n)) =
  if eqb m n then Some (match dget n (g_nodes g) with Some s => s | None => None end)
  else dget m (g_nodes g).
Proof.
  unfold nx_add_node. rewrite has_node_get. destruct (dget n (g_nodes g)) eqn:E.
  - destruct (eqb m n) eqn:X; auto. apply eqb_eq in X. now subst.
  - rewrite get_set. reflexivity.
Qed.

Lemma nx_add_has (g : graph N) n : has_node (nx_add_node g n) n = true.
Proof. rewrite has_node_get, nx_add_get, eqb_refl. reflexivity. Qed.

Lemma add_lonely (e : nenv N) uid picks p2 : (forall p, In p picks -> in_graph e p) ->
  let o := List.length (ne_objs e) in
  exists e' n a, add_agent e KNet uid None false picks p2 = (e', Val o) /\
  ne_objs e' = ne_objs e ++ [a] /\ ne_reg e' = ne_reg e ++ [o] /\
  ag_node a = Some n /\ ag_alive a = true /\ ag_kind a = KNet /\ placed e' o n /\
  (dwf (g_nodes (ne_graph e)) -> dwf (g_nodes (ne_graph e'))) /\
  (forall m, m <> n -> same_at e e' m) /\
  ((In n picks /\ (vacant e n \/ reserved e n)) \/
   (n = int_node (List.length (g_nodes (ne_graph e))) /\
    forall p, In p picks -> ~ vacant e p /\ ~ reserved e p)).
Proof.
  intros Pi o. unfold NetModel.add_agent, NetModel.base_add_agent.
  assert (exists i e1, take_id e uid = (i, e1) /\ ne_graph e1 = ne_graph e /\ ne_objs e1 = ne_objs e /\
            ne_reg e1 = ne_reg e) as (i & e1 & -> & G & Ob & Re).
  { destruct uid; do 2 eexists; repeat split. }
  unfold NetModel.construct, NetModel.choose_node. rewrite G, Ob. fold o.
  destruct (find _ picks) as [n|] eqn:F.
  - apply find_some in F. destruct F as [F1 F2]. pose proof (Pi n F1) as I.
    rewrite put_in by now apply has_node_in. simpl. rewrite Ob, Re.
    eexists _, n, _. split; [reflexivity|]. simpl. do 5 (split; [reflexivity|]). split.
    + unfold placed. simpl. rewrite get_set, eqb_refl. reflexivity.
    + split; [apply set_wf|]. split.
      * intros m M. unfold same_at. simpl. rewrite get_set. apply eqb_neq in M. now rewrite M.
      * left. split; auto. now apply is_free_get.
  - rewrite put_in by apply nx_add_has. simpl. rewrite Ob, Re.
    eexists _, (int_node (List.length (g_nodes (ne_graph e)))), _. split; [reflexivity|]. simpl.
    do 5 (split; [reflexivity|]). split.
    + unfold placed. simpl. rewrite get_set, eqb_refl. reflexivity.
    + split; [intros D; apply set_wf, nx_add_wf, D|]. split.
      * intros m M. unfold same_at. simpl. rewrite get_set, nx_add_get. apply eqb_neq in M. now rewrite M.
      * right. split; auto. intros p Ip. pose proof (find_none _ _ F p Ip) as X.
        split; intros Y; assert (is_free (get_slot (ne_graph e) p) = true) as Z by
          (apply is_free_get; auto); simpl in X; congruence.
Qed.

(** C49. *)
Variable name_node : Z -> N.
Notation add_node := (add_node int_node name_node).
Lemma not_key (e : nenv N) n : in_graph e n ->
  negb (has_key (get_slot (ne_graph e) n)) = true <-> vacant e n.
Proof.
  unfold in_graph, vacant, get_slot. intros I. apply dhas_in in I. rewrite dhas_get in I.
  destruct (dget n (g_nodes (ne_graph e))) as [[s|]|]; [| |discriminate]; simpl; split; auto; discriminate.
Qed.

Lemma add_node_spec (e e' : nenv N) k uid node order p1 p2 r :
  (forall n, In n order <-> in_graph e n) -> k <> KRaise ->
  add_node e k uid node order p1 p2 = (e', r) ->
  exists n,
  match node with
  | Some n' => n = n'
  | None => vacant e n \/
            (n = name_node (match uid with Some i => i | None => ne_last e + 1 end) /\ forall m, ~ vacant e m)
  end /\
  match r with
  | Val o => (vacant e n \/ ~ in_graph e n) /\ o = List.length (ne_objs e) /\ placed e' o n /\
             (exists a, ne_objs e' = ne_objs e ++ [a] /\ ag_kind a = k /\ ag_alive a = true /\
                        (k <> KStrict -> ag_node a = Some n)) /\
             ne_reg e' = ne_reg e ++ [o] /\ (forall m, m <> n -> same_at e e' m) /\
             (dwf (g_nodes (ne_graph e)) -> dwf (g_nodes (ne_graph e')))
  | Err x => x = AssertionError /\ in_graph e n /\ ~ vacant e n /\
             ne_objs e' = ne_objs e /\ ne_reg e' = ne_reg e /\ ne_graph e' = ne_graph e
  end.
Proof.
  intros O Hk. unfold NetModel.add_node.
  assert (exists i e1, take_id e uid = (i, e1) /\ ne_graph e1 = ne_graph e /\ ne_objs e1 = ne_objs e /\
            ne_reg e1 = ne_reg e /\ i = match uid with Some i => i | None => (ne_last e + 1)%Z end)
    as (i & e1 & -> & G & Ob & Re & Ei).
  { destruct uid; do 2 eexists; repeat split. }
  rewrite G. set (n := match node with Some n => n | None => _ end). intros H. exists n. split.
  - subst n. destruct node as [n'|]; auto. unfold find_unassigned.
    destruct (find _ order) as [n|] eqn:F.
    + left. apply find_some in F. destruct F as [F1 F2]. apply O in F1. now apply not_key.
    + right. rewrite Ei. split; auto. intros m V. assert (in_graph e m) as I.
      { unfold in_graph. apply dhas_in. rewrite dhas_get. now rewrite V. }
      pose proof (find_none _ _ F m (proj2 (O m) I)) as X. cbv beta in X.
      apply (not_key e m I) in V. congruence.
  - change (ne_graph (with_graph e1 (nx_add_node (ne_graph e) n))) with (nx_add_node (ne_graph e) n) in H.
    assert (get_slot (nx_add_node (ne_graph e) n) n =
              match dget n (g_nodes (ne_graph e)) with Some s => s | None => None end) as S.
    { unfold get_slot at 1. now rewrite nx_add_get, eqb_refl. }
    rewrite S in H.
    destruct (has_key _) eqn:Kk.
    + injection H as <- <-. simpl. rewrite Ob, Re. split; auto.
      assert (in_graph e n /\ ~ vacant e n) as [A B].
      { unfold in_graph, vacant. rewrite <- dhas_in, dhas_get.
        destruct (dget n (g_nodes (ne_graph e))) as [[s|]|]; try discriminate. split; congruence. }
      split; auto. split; auto. split; auto. split; auto. unfold nx_add_node.
      apply has_node_in in A. now rewrite A.
    + destruct (add_agent_at (with_graph e1 (nx_add_node (ne_graph e) n)) k (Some i) n p1 p2 true)
        as (u & last & E & _); auto.
      { simpl. apply nx_add_has. }
      rewrite E in H. injection H as <- <-. simpl. rewrite Ob, Re. split.
      * unfold vacant, in_graph. rewrite <- dhas_in, dhas_get.
        destruct (dget n (g_nodes (ne_graph e))) as [[s|]|]; [discriminate|auto|right; congruence].
      * split; auto. split.
        { unfold placed. simpl. rewrite get_set, eqb_refl. reflexivity. }
        split; [|split; [|split]].
        { eexists. split; [reflexivity|]. unfold made. simpl. split; auto. split; auto. destruct k; auto; congruence. }
        { reflexivity. }
        { intros m M. unfold same_at. simpl. rewrite get_set, nx_add_get. apply eqb_neq in M. now rewrite M. }
        { intros D. apply set_wf, nx_add_wf, D. }
Qed.

(** C50. *)
Lemma nth_set_nth {X} (l : list X) o x p : o < List.length l ->
  nth_error (set_nth l o x) p = if Nat.eqb p o then Some x else nth_error l p.
Proof.
  revert o p. induction l as [|y l IH]; simpl; intros o p L; [lia|].
  destruct o, p; simpl; auto. apply IH. lia.
Qed.

Lemma set_nth_length {X} (l : list X) o x : List.length (set_nth l o x) = List.length l.
Proof. revert o. induction l; simpl; intros [|o]; simpl; auto. Qed.

Lemma nth_lt {X} (l : list X) o x : nth_error l o = Some x -> o < List.length l.
Proof. intros E. apply nth_error_Some. congruence. Qed.

Lemma die_net (e : nenv N) o a n : the_agent e o a -> ag_kind a = KNet -> ag_alive a = true ->
  ag_node a = Some n -> in_graph e n -> dwf (g_nodes (ne_graph e)) ->
  exists e', die e o true = (e', None) /\
  ~ in_graph e' n /\
  (forall m, m <> n -> same_at e e' m) /\
  (forall p, In p (g_edges (ne_graph e')) <-> In p (g_edges (ne_graph e)) /\ fst p <> n /\ snd p <> n) /\
  g_directed (ne_graph e') = g_directed (ne_graph e) /\
  (forall p, In p (ne_reg e') <-> In p (ne_reg e) /\ p <> o) /\
  (exists a', the_agent e' o a' /\ ag_alive a' = false /\ ag_uid a' = ag_uid a) /\
  (forall p, p <> o -> nth_error (ne_objs e') p = nth_error (ne_objs e) p) /\
  forall r, die e' o r = (e', None).
Proof.
  intros A K Al Nd I D. unfold die. unfold the_agent in A. rewrite A, K, Al, Nd. simpl.
  unfold nx_remove_node. apply has_node_in in I. rewrite I.
  pose proof (nth_lt _ _ _ A) as L.
  eexists. split; [reflexivity|]. simpl. split.
  - unfold in_graph. simpl. rewrite ddel_keys by auto. intuition.
  - split.
    + intros m M. unfold same_at. simpl. rewrite dget_del by auto. apply eqb_neq in M. now rewrite M.
    + split.
      { intros [x y]. rewrite filter_In, andb_true_iff, !negb_true_iff, !eqb_neq. simpl. intuition. }
      split; [reflexivity|]. split.
      { intros p. rewrite filter_In, negb_true_iff, Nat.eqb_neq. reflexivity. }
      split.
      { eexists. unfold the_agent. simpl. rewrite nth_set_nth by now rewrite set_nth_length.
        rewrite Nat.eqb_refl. split; [reflexivity|]. auto. }
      split.
      { intros p P. apply Nat.eqb_neq in P. rewrite nth_set_nth by now rewrite set_nth_length. rewrite P.
        rewrite nth_set_nth by auto. now rewrite P. }
      intros r. unfold die. simpl. rewrite nth_set_nth by now rewrite set_nth_length.
      rewrite Nat.eqb_refl. simpl. reflexivity.
Qed.

(** The node is not there: nothing happens, and the agent lives on. *)
Lemma die_net_fails (e : nenv N) o a n : the_agent e o a -> ag_kind a = KNet -> ag_alive a = true ->
  ag_node a = Some n -> ~ in_graph e n -> die e o true = (e, Some NetworkXError).
Proof.
  intros A K Al Nd I. unfold die. unfold the_agent in A. rewrite A, K, Al, Nd. simpl.
  unfold nx_remove_node. destruct (has_node (ne_graph e) n) eqn:E; auto.
  apply has_node_in in E. contradiction.
Qed.
End P.
