(** More proofs about agents in networks: ids, histories and neighbours. *)
From Coq Require Import List Bool Arith ZArith String Lia Sorted.
From Verif Require Import PyDict QueryModel QuerySpec QueryProofs NetModel NetSpec NetProofs.
Import ListNotations.

Section P.
Context {N : Type} `{EN : Eqb N}.
Variable int_node : nat -> N.
Variable name_node : Z -> N.
Notation construct := (construct int_node).
Notation base_add_agent := (base_add_agent int_node).
Notation add_agent := (add_agent int_node).
Notation add_node := (add_node int_node name_node).
Notation add_all := (add_all int_node).
Notation populate := (populate int_node).
Notation nstep := (nstep int_node name_node).
Notation nrun := (nrun int_node name_node).
Notation chosen_ids := (chosen_ids int_node name_node).

Local Opaque set_slot.

(** Old agents keep their ids; those of new agents are increasing and greater. *)
Definition ids_step (e e' : nenv N) (auto : bool) : Prop :=
  (ne_last e <= ne_last e')%Z /\
  exists old more, ne_objs e' = old ++ more /\ map ag_uid old = map ag_uid (ne_objs e) /\
  (auto = true -> StronglySorted Z.lt (map ag_uid more) /\
                  Forall (fun a => ne_last e < ag_uid a <= ne_last e')%Z more).

Lemma ids_refl e e' b : (ne_last e <= ne_last e')%Z -> map ag_uid (ne_objs e') = map ag_uid (ne_objs e) ->
  ids_step e e' b.
Proof.
  intros L E. split; auto. exists (ne_objs e'), []. rewrite app_nil_r. split; auto. split; auto.
  intros _. split; constructor.
Qed.

Lemma sorted_app l m x : StronglySorted Z.lt l -> StronglySorted Z.lt m ->
  Forall (fun i => i <= x)%Z l -> Forall (fun i => x < i)%Z m -> StronglySorted Z.lt (l ++ m).
Proof.
  intros L M F G. induction L as [|i l L IH J]; simpl; auto. inversion F; subst. constructor; auto.
  apply Forall_app. split; auto. eapply Forall_impl; [|exact G]. simpl. intros. lia.
Qed.

Lemma ids_trans e1 e2 e3 b : ids_step e1 e2 b -> ids_step e2 e3 b -> ids_step e1 e3 b.
Proof.
  intros (L1 & o1 & m1 & E1 & U1 & S1) (L2 & o2 & m2 & E2 & U2 & S2). split; [lia|].
  rewrite E1 in U2. rewrite map_app in U2.
  assert (exists oa ob, o2 = oa ++ ob /\ map ag_uid oa = map ag_uid o1 /\ map ag_uid ob = map ag_uid m1)
    as (oa & ob & -> & Ua & Ub).
  { exists (firstn (List.length o1) o2), (skipn (List.length o1) o2). rewrite firstn_skipn. split; auto.
    rewrite <- firstn_map, <- skipn_map, U2.
    rewrite <- (map_length ag_uid o1) at 1 2.
    rewrite firstn_app, skipn_app, Nat.sub_diag, firstn_all, skipn_all. simpl. rewrite app_nil_r.
    split; reflexivity. }
  exists oa, (ob ++ m2). rewrite E2, app_assoc. split; auto. split; [congruence|].
  intros ->. destruct (S1 eq_refl) as [T1 F1], (S2 eq_refl) as [T2 F2]. rewrite map_app, Ub. split.
  - eapply sorted_app with (x := ne_last e2); auto.
    + rewrite Forall_map. eapply Forall_impl; [|exact F1]. simpl. intros. lia.
    + rewrite Forall_map. eapply Forall_impl; [|exact F2]. simpl. intros. lia.
  - apply Forall_app. split.
    + assert (Forall (fun i => ne_last e1 < i <= ne_last e2)%Z (map ag_uid ob)) as X
        by (rewrite Ub, Forall_map; exact F1).
      rewrite Forall_map in X. eapply Forall_impl; [|exact X]. simpl. intros. lia.
    + eapply Forall_impl; [|exact F2]. simpl. intros. lia.
Qed.

Lemma construct_ids e k i arg picks e' r : construct e k i arg picks = (e', r) ->
  ne_last e' = ne_last e /\
  match r with
  | Val _ => exists a, ne_objs e' = ne_objs e ++ [a] /\ ag_uid a = i
  | Err _ => ne_objs e' = ne_objs e
  end.
Proof.
  unfold NetModel.construct. intros H.
  destruct k.
  - destruct (match arg with Some (Some n) => (ne_graph e, n) | _ => choose_node int_node (ne_graph e) picks end)
      as [g' n].
    destruct (put g' n _).
    + injection H as <- <-. simpl. eauto.
    + injection H as <- <-. simpl. auto.
  - injection H as <- <-. simpl. eauto.
  - destruct arg; injection H as <- <-; simpl; eauto.
  - injection H as <- <-. auto.
Qed.

Lemma base_add_ids e k uid arg picks e' r : base_add_agent e k uid arg picks = (e', r) ->
  (match uid with Some _ => ne_last e' = ne_last e | None => ne_last e' = ne_last e + 1 end)%Z /\
  match r with
  | Val _ => exists a, ne_objs e' = ne_objs e ++ [a] /\ ag_uid a = match uid with Some i => i | None => ne_last e' end
  | Err _ => ne_objs e' = ne_objs e
  end.
Proof.
  unfold NetModel.base_add_agent. destruct uid as [i|]; simpl.
  - destruct (construct e k i arg picks) as [e2 [o|x]] eqn:C; intros [= <- <-];
      apply construct_ids in C; simpl; exact C.
  - destruct (construct _ k _ arg picks) as [e2 [o|x]] eqn:C; intros [= <- <-];
      apply construct_ids in C; simpl in *; destruct C as [L C]; split; auto.
    destruct C as (a & E & U). exists a. split; auto. congruence.
Qed.

Lemma add_agent_ids e k uid node t p1 p2 e' r : add_agent e k uid node t p1 p2 = (e', r) ->
  (match uid with Some _ => ne_last e' = ne_last e | None => ne_last e < ne_last e' end)%Z /\
  (ne_objs e' = ne_objs e \/
   exists a, ne_objs e' = ne_objs e ++ [a] /\ ag_uid a = match uid with Some i => i | None => ne_last e' end).
Proof.
  unfold NetModel.add_agent.
  assert (forall arg picks e1 r1, base_add_agent e k uid arg picks = (e1, r1) ->
    (match uid with Some _ => ne_last e1 = ne_last e | None => ne_last e < ne_last e1 end)%Z /\
    (ne_objs e1 = ne_objs e \/
     exists a, ne_objs e1 = ne_objs e ++ [a] /\ ag_uid a = match uid with Some i => i | None => ne_last e1 end)) as B.
  { intros arg picks e1 r1 H. apply base_add_ids in H. destruct H as [L H]. split.
    - destruct uid; lia.
    - destruct r1; auto. }
  assert (forall e1 r1, (match base_add_agent e k uid (Some node) p1 with
      | (e1, Err TypeError) => base_add_agent e1 k uid None p2 | x => x end) = (e1, r1) ->
    (match uid with Some _ => ne_last e1 = ne_last e | None => ne_last e < ne_last e1 end)%Z /\
    (ne_objs e1 = ne_objs e \/
     exists a, ne_objs e1 = ne_objs e ++ [a] /\ ag_uid a = match uid with Some i => i | None => ne_last e1 end)) as B2.
  { intros e1 r1 H. destruct (base_add_agent e k uid (Some node) p1) as [e0 [o|x]] eqn:E.
    - injection H as <- <-. eapply B; eauto.
    - destruct x; try (injection H as <- <-; eapply B; eauto; fail).
      apply base_add_ids in E. destruct E as [L E]. apply base_add_ids in H. destruct H as [L' H].
      rewrite E in H. split; [destruct uid; lia|]. destruct r1; auto. }
  intros H.
  destruct node as [n|], t.
  1,2: (destruct (match base_add_agent e k uid (Some (Some n)) p1 with
      | (e1, Err TypeError) => base_add_agent e1 k uid None p2 | x => x end) as [e1 [o|x]] eqn:E;
    [destruct (put (ne_graph e1) n o); injection H as <- <-|injection H as <- <-]; exact (B2 _ _ eq_refl)).
  - destruct (match base_add_agent e k uid (Some None) p1 with
      | (e1, Err TypeError) => base_add_agent e1 k uid None p2 | x => x end) as [e1 [o|x]] eqn:E;
    injection H as <- <-; exact (B2 _ _ eq_refl).
  - eapply B; eauto.
Qed.

Lemma add_agent_step e k uid node t p1 p2 e' r : add_agent e k uid node t p1 p2 = (e', r) ->
  ids_step e e' (match uid with None => true | _ => false end).
Proof.
  intros H. apply add_agent_ids in H. destruct H as [L [E|(a & E & U)]].
  - apply ids_refl; [destruct uid; lia|now rewrite E].
  - split; [destruct uid; lia|]. exists (ne_objs e), [a]. split; auto. split; auto.
    destruct uid; [discriminate|]. intros _. simpl. split; repeat constructor; lia.
Qed.

Lemma add_all_step l : forall e e' r, add_all l e = (e', r) -> ids_step e e' true.
Proof.
  induction l as [|[k n] l IH]; intros e e' r H.
  - injection H as <- <-. apply ids_refl; auto. lia.
  - cbn [NetModel.add_all] in H. destruct (add_agent e k None (Some n) true [] []) as [e1 [o|x]] eqn:E.
    + apply add_agent_step in E. destruct (put (ne_graph e1) n o) as [g|].
      * apply IH in H. eapply ids_trans; [exact E|]. exact H.
      * now injection H as <- <-.
    + injection H as <- <-. now apply add_agent_step in E.
Qed.

Lemma add_node_step e k uid node ord p1 p2 e' r : add_node e k uid node ord p1 p2 = (e', r) ->
  ids_step e e' (match uid with None => true | _ => false end).
Proof.
  unfold NetModel.add_node. destruct uid as [i|]; cbn [take_id next_id].
  - set (n := match node with Some n => n | None => _ end).
    destruct (has_key _); intros H.
    + injection H as <- <-. apply ids_refl; simpl; auto; lia.
    + apply add_agent_step in H. exact H.
  - set (n := match node with Some n => n | None => _ end).
    destruct (has_key _); intros H.
    + injection H as <- <-. apply ids_refl; simpl; auto; lia.
    + apply add_agent_ids in H. simpl in *. destruct H as [L [E|(a & E & U)]].
      * apply ids_refl; [lia|now rewrite E].
      * split; [lia|]. exists (ne_objs e), [a]. split; auto. split; auto. intros _. simpl.
        split; repeat constructor; lia.
Qed.

Lemma set_nth_uids (l : list (agent N)) a : forall o,
  option_map ag_uid (nth_error l o) = Some (ag_uid a) -> map ag_uid (set_nth l o a) = map ag_uid l.
Proof.
  induction l as [|y l IH]; intros [|o] A; simpl in *; auto; try discriminate; f_equal; auto.
  congruence.
Qed.

Lemma nstep_ids e op : ids_step e (nstep e op) (automatic op).
Proof.
  destruct op as [k uid node t p1 p2|k uid node ord p1 p2|cs|o r|o p]; cbn [NetModel.nstep automatic].
  - destruct (add_agent e k uid node t p1 p2) as [e' r] eqn:E. apply add_agent_step in E. simpl.
    destruct uid; exact E.
  - destruct (add_node e k uid node ord p1 p2) as [e' r] eqn:E. apply add_node_step in E. simpl.
    destruct uid; exact E.
  - unfold NetModel.populate. destruct (g_nodes (ne_graph e)) as [|p d] eqn:X.
    + apply ids_refl; simpl; auto; lia.
    + destruct (reserve cs (p :: d) (ne_graph e)) as [g l].
      destruct (add_all l (with_graph e g)) as [e1 [x|]] eqn:E; apply add_all_step in E.
      * exact E.
      * destruct (_ && _); exact E.
  - assert (forall e1 a, ne_last e1 = ne_last e -> map ag_uid (ne_objs e1) = map ag_uid (ne_objs e) ->
              option_map ag_uid (nth_error (ne_objs e1) o) = Some (ag_uid a) ->
              ids_step e (base_die e1 o a) true) as B.
    { intros e1 a L U A. apply ids_refl; simpl; [lia|]. rewrite <- U.
      now apply set_nth_uids. }
    unfold die. destruct (nth_error (ne_objs e) o) as [a|] eqn:A; [|apply ids_refl; simpl; auto; lia].
    assert (ids_step e (base_die e o a) true) as Bd by (apply B; auto; now rewrite A).
    destruct (ag_kind a) eqn:K; auto.
    destruct (negb (ag_alive a)); [apply ids_refl; simpl; auto; lia|].
    destruct r; auto.
    destruct (ag_node a) as [n|]; [|apply ids_refl; simpl; auto; lia].
    destruct (nx_remove_node (ne_graph e) n) as [g|]; [|apply ids_refl; simpl; auto; lia].
    apply B; auto.
    + simpl. apply set_nth_uids. now rewrite A.
    + simpl. rewrite nth_set_nth by (eapply nth_lt; eauto). now rewrite Nat.eqb_refl.
  - unfold add_edge. destruct (node_of e o), (node_of e p); try (apply ids_refl; simpl; auto; lia).
    destruct (_ && _); apply ids_refl; simpl; auto; lia.
Qed.

Lemma ids_new e e' : ids_step e e' true ->
  StronglySorted Z.lt (map ag_uid (skipn (List.length (ne_objs e)) (ne_objs e'))) /\
  Forall (fun i => ne_last e < i <= ne_last e')%Z (map ag_uid (skipn (List.length (ne_objs e)) (ne_objs e'))).
Proof.
  intros (_ & old & more & E & U & S). destruct (S eq_refl) as [S1 S2].
  assert (List.length (ne_objs e) = List.length old) as L
    by now rewrite <- (map_length ag_uid old), U, map_length.
  rewrite E, L, skipn_app, Nat.sub_diag, skipn_all. simpl. split; auto. now rewrite Forall_map.
Qed.

Lemma chosen_sorted ops : forall e, StronglySorted Z.lt (chosen_ids ops e) /\
  Forall (fun i => ne_last e < i)%Z (chosen_ids ops e).
Proof.
  induction ops as [|op ops IH]; intros e; cbn [NetSpec.chosen_ids]; [split; constructor|].
  pose proof (nstep_ids e op) as S. destruct (IH (nstep e op)) as [I1 I2].
  destruct (automatic op).
  - destruct (ids_new _ _ S) as [S1 S2]. split.
    + eapply sorted_app with (x := ne_last (nstep e op)); auto.
      eapply Forall_impl; [|exact S2]. simpl. intros. lia.
    + apply Forall_app. split.
      * eapply Forall_impl; [|exact S2]. simpl. intros. lia.
      * destruct S as [L _]. eapply Forall_impl; [|exact I2]. simpl. intros. lia.
  - simpl. split; auto. destruct S as [L _]. eapply Forall_impl; [|exact I2]. simpl. intros. lia.
Qed.

Lemma sorted_nodup l : StronglySorted Z.lt l -> NoDup l.
Proof.
  induction 1 as [|i l S IH F]; constructor; auto. intros I. rewrite Forall_forall in F.
  apply F in I. lia.
Qed.

Lemma chosen_nodup ops e : NoDup (chosen_ids ops e).
Proof. apply sorted_nodup, chosen_sorted. Qed.

(** Ids never change. *)
Lemma ids_kept ops : forall e o a, the_agent e o a ->
  exists a', the_agent (nrun ops e) o a' /\ ag_uid a' = ag_uid a.
Proof.
  unfold NetModel.nrun, the_agent. induction ops as [|op ops IH]; intros e o a A; simpl; eauto.
  destruct (nstep_ids e op) as (_ & old & more & E & U & _).
  assert (nth_error (map ag_uid (ne_objs e)) o = Some (ag_uid a)) as X by now apply map_nth_error.
  rewrite <- U in X. rewrite nth_error_map in X. destruct (nth_error old o) as [a1|] eqn:O; [|discriminate].
  simpl in X. injection X as X. destruct (IH (nstep e op) o a1) as (a' & A' & U').
  - rewrite E, nth_error_app1; auto. eapply nth_lt; eauto.
  - exists a'. split; auto. congruence.
Qed.

Lemma all_chosen ops : forall e, forallb automatic ops = true ->
  map ag_uid (ne_objs (nrun ops e)) = map ag_uid (ne_objs e) ++ chosen_ids ops e.
Proof.
  unfold NetModel.nrun. induction ops as [|op ops IH]; intros e A; cbn [NetSpec.chosen_ids fold_left].
  - now rewrite app_nil_r.
  - simpl in A. apply andb_true_iff in A. destruct A as [A1 A2]. rewrite IH, A1, app_assoc by auto.
    f_equal. destruct (nstep_ids e op) as (_ & old & more & E & U & _). rewrite E, map_app, U.
    f_equal. assert (List.length (ne_objs e) = List.length old) as L
      by now rewrite <- (map_length ag_uid old), U, map_length.
    rewrite L, skipn_app, Nat.sub_diag, skipn_all. reflexivity.
Qed.

(** Environments in which agents and nodes know each other. *)
Definition sound (e : nenv N) : Prop :=
  dwf (g_nodes (ne_graph e)) /\ known e /\
  (forall o a, the_agent e o a -> ag_alive a = true -> In o (ne_reg e)) /\
  (forall o, In o (ne_reg e) -> o < List.length (ne_objs e)) /\
  consistent e.

Lemma sound_fresh e : fresh_env e -> sound e.
Proof.
  intros (D & Ob & Re & Pl). split; auto. split; [|split; [|split]].
  - intros o n P. now apply Pl in P.
  - intros o a A. unfold the_agent in A. rewrite Ob in A. destruct o; discriminate.
  - intros o I. rewrite Re in I. destruct I.
  - intros o n I. rewrite Re in I. destruct I.
Qed.

Lemma sound_slots e e' : sound e -> dwf (g_nodes (ne_graph e')) -> ne_objs e' = ne_objs e ->
  ne_reg e' = ne_reg e -> (forall o n, placed e' o n <-> placed e o n) -> sound e'.
Proof.
  intros (D & Kn & Al & Re & Co) D' Ob Rg Pl. split; auto. unfold the_agent, known, consistent, node_of in *.
  rewrite Ob, Rg. split; [|split; [|split]]; auto.
  - intros o n P. apply (Kn o n). now apply Pl.
  - intros o n I. rewrite Pl. auto.
Qed.

Lemma sound_place e e' a n : sound e -> dwf (g_nodes (ne_graph e')) ->
  ne_objs e' = ne_objs e ++ [a] -> ne_reg e' = ne_reg e ++ [List.length (ne_objs e)] ->
  ag_node a = Some n -> placed e' (List.length (ne_objs e)) n ->
  (forall m, m <> n -> same_at e e' m) -> (forall o, ~ placed e o n) -> sound e'.
Proof.
  intros (D & Kn & Al & Re & Co) D' Ob Rg Nd P S Fr. split; auto.
  assert (forall o m, placed e' o m <-> (m = n /\ o = List.length (ne_objs e)) \/ placed e o m) as Pl.
  { intros o m. destruct (node_dec m n) as [->|M].
    - split.
      + unfold placed in *. rewrite P. intros [= <-]. auto.
      + intros [[_ ->]|Q]; auto. now apply Fr in Q.
    - unfold placed. rewrite (S m M). split; auto. intros [[X _]|Q]; auto. contradiction. }
  split; [|split; [|split]].
  - intros o m Q. rewrite Ob, app_length. simpl. apply Pl in Q. destruct Q as [[_ ->]|Q]; [lia|].
    apply Kn in Q. lia.
  - intros o b A Ab. rewrite Rg, in_app_iff. simpl. unfold the_agent in A. rewrite Ob in A.
    destruct (Nat.lt_ge_cases o (List.length (ne_objs e))) as [L|L].
    + rewrite nth_error_app1 in A by auto. left. eapply Al; eauto.
    + apply nth_lt in A. rewrite app_length in A. simpl in A. right. left. lia.
  - intros o I. rewrite Rg in I. rewrite Ob, app_length. simpl. apply in_app_iff in I.
    destruct I as [I|[<-|[]]]; [apply Re in I|]; lia.
  - intros o m I. rewrite Rg in I. apply in_app_iff in I. rewrite Pl. unfold node_of. rewrite Ob.
    destruct I as [I|[<-|[]]].
    + pose proof (Re o I) as L. rewrite nth_error_app1 by auto. fold (node_of e o). rewrite (Co o m I).
      split; auto. intros [[_ ->]|Q]; auto. lia.
    + rewrite nth_error_app2, Nat.sub_diag by auto. simpl. rewrite Nd. split.
      * intros [= <-]. auto.
      * intros [[-> _]|Q]; auto. apply Kn in Q. lia.
Qed.

Lemma sound_nodeless e e' a : sound e -> ne_graph e' = ne_graph e ->
  ne_objs e' = ne_objs e ++ [a] -> ne_reg e' = ne_reg e ++ [List.length (ne_objs e)] ->
  ag_node a = None -> sound e'.
Proof.
  intros (D & Kn & Al & Re & Co) G Ob Rg Nd. unfold sound, consistent, known, placed, the_agent, node_of in *.
  rewrite G, Ob, Rg. split; auto. split; [|split; [|split]].
  - intros o n P. rewrite app_length. apply Kn in P. lia.
  - intros o b A Ab. rewrite in_app_iff. simpl.
    destruct (Nat.lt_ge_cases o (List.length (ne_objs e))) as [L|L].
    + rewrite nth_error_app1 in A by auto. left. eapply Al; eauto.
    + apply nth_lt in A. rewrite app_length in A. simpl in A. right. left. lia.
  - intros o I. rewrite app_length. simpl. apply in_app_iff in I.
    destruct I as [I|[<-|[]]]; [apply Re in I|]; lia.
  - intros o m I. apply in_app_iff in I. destruct I as [I|[<-|[]]].
    + pose proof (Re o I) as L. rewrite nth_error_app1 by auto. auto.
    + rewrite nth_error_app2, Nat.sub_diag by auto. simpl. rewrite Nd. split; [discriminate|].
      intros Q. apply Kn in Q. lia.
Qed.

Lemma sound_base_die e o a a' : sound e -> the_agent e o a -> ag_uid a' = ag_uid a ->
  sound (base_die e o a').
Proof.
  intros (D & Kn & Al & Re & Co) A U. pose proof (nth_lt _ _ _ A) as L.
  unfold sound, consistent, known, placed, the_agent, node_of in *. simpl.
  split; auto. split; [|split; [|split]].
  - intros p n P. rewrite set_nth_length. eauto.
  - intros p b B Ab. rewrite nth_set_nth in B by auto. rewrite filter_In, negb_true_iff.
    destruct (Nat.eqb p o) eqn:E.
    + injection B as <-. discriminate.
    + split; auto. eapply Al; eauto.
  - intros p I. apply filter_In in I. rewrite set_nth_length. now apply Re.
  - intros p m I. apply filter_In in I. destruct I as [I E]. apply negb_true_iff in E.
    rewrite nth_set_nth by auto. rewrite E. auto.
Qed.

Lemma sound_die e o r : sound e -> sound (fst (die e o r)).
Proof.
  intros S. unfold die. destruct (nth_error (ne_objs e) o) as [a|] eqn:A; auto.
  assert (sound (base_die e o a)) as B by (eapply sound_base_die; eauto).
  destruct (ag_kind a) eqn:K; auto. destruct (ag_alive a) eqn:Ab; auto. simpl. destruct r; auto.
  destruct (ag_node a) as [n|] eqn:Nd; auto.
  unfold nx_remove_node. destruct (has_node (ne_graph e) n) eqn:Hn; auto. simpl.
  destruct S as (D & Kn & Al & Re & Co). pose proof (nth_lt _ _ _ A) as L.
  pose proof (Al o a A Ab) as I.
  assert (placed e o n) as P by (apply Co; auto; unfold node_of; now rewrite A).
  unfold sound, consistent, known, placed, the_agent, node_of in *. simpl.
  assert (forall x p, dget x (ddel n (g_nodes (ne_graph e))) = Some (Some (Some p)) <->
                      x <> n /\ dget x (g_nodes (ne_graph e)) = Some (Some (Some p))) as G.
  { intros x p. rewrite dget_del by auto. destruct (eqb x n) eqn:E.
    - apply eqb_eq in E. subst. split; [discriminate|]. intros [X _]. congruence.
    - apply eqb_neq in E. tauto. }
  split; [now apply ddel_wf|]. split; [|split; [|split]].
  - intros p x Q. rewrite !set_nth_length. apply G in Q. eapply Kn. apply Q.
  - intros p b Bp Abp. rewrite nth_set_nth in Bp by now rewrite set_nth_length.
    rewrite filter_In, negb_true_iff. destruct (Nat.eqb p o) eqn:E.
    + injection Bp as <-. discriminate.
    + split; auto. rewrite nth_set_nth in Bp by auto. rewrite E in Bp. eapply Al; eauto.
  - intros p Ip. apply filter_In in Ip. rewrite !set_nth_length. now apply Re.
  - intros p m Ip. apply filter_In in Ip. destruct Ip as [Ip E]. apply negb_true_iff in E.
    rewrite nth_set_nth by now rewrite set_nth_length. rewrite E. rewrite nth_set_nth by auto.
    rewrite E, G, (Co p m Ip). split; [|tauto]. intros Q. split; auto. intros ->.
    rewrite P in Q. injection Q as Q. apply Nat.eqb_neq in E. congruence.
Qed.

Lemma sound_add_at e k uid n t p1 p2 : sound e -> knows_nodes k = true -> vacant e n \/ reserved e n ->
  sound (fst (add_agent e k uid (Some n) t p1 p2)) /\
  exists o, snd (add_agent e k uid (Some n) t p1 p2) = Val o /\
  forall m, m <> n -> same_at e (fst (add_agent e k uid (Some n) t p1 p2)) m.
Proof.
  intros S Kk V. assert (has_node (ne_graph e) n = true) as Hn.
  { rewrite has_node_get. destruct V as [V|V]; rewrite V; auto. }
  destruct (add_agent_at int_node e k uid n p1 p2 t Hn) as (u & last & E & _); [destruct k; discriminate|].
  rewrite E. simpl. assert (forall m, m <> n -> dget m (g_nodes (set_slot (ne_graph e) n (Some (Some (List.length (ne_objs e)))))) = dget m (g_nodes (ne_graph e))) as O.
  { intros m M. rewrite get_set. apply eqb_neq in M. now rewrite M. }
  split; [|eauto].
  eapply (sound_place e _ (made k u n) n); simpl; auto.
  - apply set_wf. apply S.
  - destruct k; try discriminate; auto.
  - unfold placed. simpl. rewrite get_set, eqb_refl. reflexivity.
  - intros o P. unfold vacant, reserved, placed in *. destruct V; congruence.
Qed.

Lemma sound_add_all l : forall e, sound e -> (forall k n, In (k, n) l -> knows_nodes k = true /\ reserved e n) ->
  NoDup (map snd l) -> sound (fst (add_all l e)).
Proof.
  induction l as [|[k n] l IH]; intros e S I D; auto. cbn [NetModel.add_all].
  destruct (I k n (or_introl eq_refl)) as [Kk V].
  destruct (sound_add_at e k None n true [] [] S Kk (or_intror V)) as (S1 & o & E & O).
  destruct (add_agent e k None (Some n) true [] []) as [e1 r] eqn:F. simpl in S1, E, O. subst r.
  assert (has_node (ne_graph e) n = true) as Hn by (rewrite has_node_get, V; auto).
  destruct (add_agent_at int_node e k None n [] [] true Hn) as (u & last & X & _); [destruct k; discriminate|].
  rewrite F in X. injection X as -> ->. simpl in *.
  rewrite put_in by (rewrite has_node_set, eqb_refl; reflexivity). rewrite set_slot_twice.
  simpl in D. inversion D as [|x l' D1 D2]; subst. apply IH; auto.
  intros k' n' I'. destruct (I k' n' (or_intror I')) as [A B]. split; auto.
  unfold reserved. simpl. rewrite get_set. destruct (eqb n' n) eqn:X; auto. apply eqb_eq in X. subst.
  exfalso. apply D1. apply (in_map snd) in I'. exact I'.
Qed.

Lemma free_with_nodup classes : forall nodes : dict N slot, dwf nodes -> NoDup (map snd (free_with classes nodes)).
Proof.
  unfold dwf. induction classes as [|k classes IH]; intros [|[n s] nodes] D; simpl in *; try constructor.
  inversion D as [|x l D1 D2]; subst. destruct (has_key s); auto. simpl. constructor; auto.
  intros I. apply D1. apply in_map_iff in I. destruct I as ([k' n'] & E & I). simpl in E. subst.
  eapply free_with_keys; eauto.
Qed.

Lemma sound_populate e cs : sound e -> forallb knows_nodes cs = true -> sound (fst (populate e cs)).
Proof.
  intros S Kk. unfold NetModel.populate. destruct (g_nodes (ne_graph e)) as [|p d] eqn:X; auto.
  rewrite <- X in *. pose proof (reserve_graph cs (g_nodes (ne_graph e)) (ne_graph e) (fun n I => I)) as G.
  pose proof (reserve_list cs (g_nodes (ne_graph e)) (ne_graph e)) as G2.
  destruct (reserve cs (g_nodes (ne_graph e)) (ne_graph e)) as [g l]. simpl in G, G2. subst l.
  destruct G as (K & Ed & Di & S1 & S2). set (l := free_with cs (g_nodes (ne_graph e))) in *.
  assert (dwf (g_nodes (ne_graph e))) as D by apply S.
  assert (forall m, In m (map snd l) -> vacant e m) as V.
  { intros m I. unfold l in I. apply in_map_iff in I. destruct I as ([k' n'] & E & I). simpl in E. subst n'.
    revert I. unfold vacant. generalize cs at 1. clear - D. revert D. generalize (g_nodes (ne_graph e)) at 1 2 3.
    intros nodes. unfold dwf. induction nodes as [|[n s] nodes IH]; intros D [|k cs] I; simpl in *; try contradiction.
    inversion D as [|x l D1 D2]; subst. destruct (has_key s) eqn:Ks.
    - destruct (eqb m n) eqn:E; [|eapply IH; eauto]. apply eqb_eq in E. subst. exfalso. apply D1.
      eapply free_with_keys; eauto.
    - destruct I as [[= -> ->]|I].
      + rewrite eqb_refl. destruct s; auto; discriminate.
      + destruct (eqb m n) eqn:E; [|eapply IH; eauto]. apply eqb_eq in E. subst. exfalso. apply D1.
        eapply free_with_keys; eauto. }
  assert (sound (fst (add_all l (with_graph e g)))) as Q.
  { apply sound_add_all.
    - eapply sound_slots; [exact S|..]; auto.
      + simpl. unfold dwf. rewrite K. exact D.
      + intros o n. unfold placed. simpl. destruct (in_dec node_dec n (map snd l)) as [I|I].
        * rewrite S1 by auto. apply V in I. unfold vacant in I. rewrite I. split; discriminate.
        * now rewrite S2.
    - intros k n I. split.
      + rewrite forallb_forall in Kk. apply Kk. eapply free_with_kinds; eauto.
      + unfold reserved. simpl. apply S1. apply (in_map snd) in I. exact I.
    - now apply free_with_nodup. }
  destruct (add_all l (with_graph e g)) as [e1 [x|]]; simpl in *; auto.
  destruct (_ && _); auto.
Qed.

Lemma sound_step e op : sound e -> orderly int_node e op -> sound (nstep e op).
Proof.
  intros S O. destruct op as [k uid node t p1 p2|k uid node ord p1 p2|cs|o r|o p].
  - cbn [NetModel.nstep]. destruct node as [n|].
    + assert (knows_nodes k = true /\ (vacant e n \/ reserved e n)) as [A B]
        by (destruct k, t; exact O).
      now apply sound_add_at.
    + destruct k, t; try (simpl in O; contradiction).
      * simpl in O. destruct O as [Pi Fr].
        destruct (add_lonely int_node e uid p1 p2 Pi) as (e' & n & a & E & Ob & Re & Nd & Al & Kd & P & W & Sa & Ch).
        rewrite E. simpl. eapply (sound_place e e' a n); eauto.
        -- apply W, S.
        -- intros q Q. unfold vacant, reserved, placed, in_graph in *. destruct Ch as [[_ [V|V]]|[-> _]]; try congruence.
           apply Fr. apply dhas_in. rewrite dhas_get, Q. reflexivity.
      * unfold NetModel.add_agent, NetModel.base_add_agent. destruct uid; simpl.
        -- eapply (sound_nodeless e _ _ S); simpl; eauto.
        -- eapply (sound_nodeless e _ _ S); simpl; eauto.
  - cbn [NetModel.nstep]. simpl in O. destruct O as [Kk O].
    destruct (add_node e k uid node ord p1 p2) as [e' r] eqn:E. simpl.
    destruct (add_node_spec int_node name_node e e' k uid node ord p1 p2 r O) as (n & _ & H); auto;
      [destruct k; discriminate|].
    destruct r as [o|x].
    + destruct H as (V & -> & P & (a & Ob & Kd & Al & Nd) & Re & Sa & W).
      eapply (sound_place e e' a n); eauto.
      * apply W, S.
      * apply Nd. destruct k; discriminate.
      * intros q Q. unfold vacant, placed, in_graph in *. destruct V as [V|V]; [congruence|].
        apply V. apply dhas_in. rewrite dhas_get, Q. reflexivity.
    + destruct H as (_ & _ & _ & Ob & Re & G). eapply sound_slots; [exact S|..]; auto.
      * rewrite G. apply S.
      * intros q m. unfold placed. now rewrite G.
  - now apply sound_populate.
  - now apply sound_die.
  - simpl. unfold add_edge. destruct (node_of e o), (node_of e p); auto. destruct (_ && _); auto.
Qed.

Lemma sound_run ops : forall e, sound e -> all_orderly int_node name_node ops e -> sound (nrun ops e).
Proof.
  unfold NetModel.nrun. induction ops as [|op ops IH]; intros e S O; simpl; auto.
  destruct O as [O1 O2]. apply IH; auto. now apply sound_step.
Qed.

Lemma history_consistent ops e : fresh_env e -> all_orderly int_node name_node ops e ->
  consistent (nrun ops e).
Proof. intros F O. apply sound_run; auto. now apply sound_fresh. Qed.

(** Neighbours. *)
Lemma adjacent_linked (e : nenv N) n m : nx_adjacent (ne_graph e) n m = true <-> linked e n m.
Proof.
  unfold nx_adjacent, linked. rewrite existsb_exists. split.
  - intros ([x y] & I & E). simpl in E. apply orb_true_iff in E. destruct E as [E|E].
    + apply andb_true_iff in E. destruct E as [E1 E2]. apply eqb_eq in E1, E2. subst. auto.
    + rewrite !andb_true_iff, negb_true_iff in E. destruct E as [[E0 E1] E2]. apply eqb_eq in E1, E2. subst. auto.
  - intros [I|[D I]].
    + exists (n, m). simpl. now rewrite !eqb_refl.
    + exists (m, n). simpl. rewrite D, !eqb_refl. split; auto. apply orb_true_r.
Qed.

Section Nb.
Context {V C : Type}.
Variable veq : V -> V -> bool.
Variable id_val : Z -> V.
Variable state_of : nat -> V.
Variable attr : nat -> string -> V.
Variable isinstance : nat -> C -> bool.
Hypothesis veq_ids : forall i j, veq (id_val i) (id_val j) = true <-> i = j.
Notation get_neighbors := (get_neighbors veq id_val state_of attr isinstance).
Notation matches e := (matches veq (uid_of id_val e) state_of attr isinstance).

Lemma neighbour_ids (e : nenv N) n v :
  In v (flat_map (fun m => match get_slot (ne_graph e) m with
                           | Some (Some b) => [uid_of id_val e b] | _ => [] end)
          (nx_neighbors (ne_graph e) n)) <->
  exists m b, linked e n m /\ placed e b m /\ v = uid_of id_val e b.
Proof.
  rewrite in_flat_map. unfold nx_neighbors. split.
  - intros (m & I & J). apply filter_In in I. destruct I as [I A]. apply adjacent_linked in A.
    unfold get_slot in J. destruct (dget m (g_nodes (ne_graph e))) as [[[b|]|]|] eqn:G; try contradiction.
    destruct J as [<-|[]]. exists m, b. auto.
  - intros (m & b & Li & P & ->). exists m. rewrite filter_In. unfold placed in P. split; [split|].
    + apply dhas_in. rewrite dhas_get, P. reflexivity.
    + now apply adjacent_linked.
    + unfold get_slot. rewrite P. simpl. auto.
Qed.

Lemma uid_inj (e : nenv N) b b' : NoDup (map ag_uid (ne_objs e)) -> b < List.length (ne_objs e) ->
  b' < List.length (ne_objs e) -> veq (uid_of id_val e b) (uid_of id_val e b') = true -> b = b'.
Proof.
  intros D L L' E. unfold uid_of in E. apply veq_ids in E.
  destruct (nth_error (ne_objs e) b) as [a|] eqn:A; [|apply nth_error_None in A; lia].
  destruct (nth_error (ne_objs e) b') as [a'|] eqn:A'; [|apply nth_error_None in A'; lia].
  rewrite NoDup_nth_error in D. apply D; [now rewrite map_length|].
  rewrite !nth_error_map, A, A'. simpl. now f_equal.
Qed.

Lemma selects_ext {X} (P Q : X -> Prop) n l l' : (forall x, In x l -> (P x <-> Q x)) ->
  selects P n l l' -> selects Q n l l'.
Proof.
  intros E S. induction S; [apply Sel_nil|apply Sel_stop|apply Sel_skip|apply Sel_all|apply Sel_some];
    try (apply IHS; intros; apply E; simpl; auto).
  - intros Y. apply H. apply E; simpl; auto.
  - apply E; simpl; auto.
  - apply E; simpl; auto.
Qed.

Lemma selects_nobody {X} (P : X -> Prop) n l : (forall x, In x l -> ~ P x) -> selects P n l [].
Proof.
  intros E. induction l as [|x l IH]; [constructor|]. apply Sel_skip.
  - apply E. simpl. auto.
  - apply IH. intros y I. apply E. simpl. auto.
Qed.

Lemma neighbors_spec (e : nenv N) o n (q : criteria V C) :
  NoDup (map ag_uid (ne_objs e)) -> known e -> (forall b, In b (ne_reg e) -> b < List.length (ne_objs e)) ->
  node_of e o = Some n -> in_graph e n ->
  proper q -> q_unique_id q = None -> q_id_args q = [] ->
  (forall k k', wanted q k <> None -> wanted q k' <> None -> k = k') ->
  exists l, get_neighbors e o q = Some l /\
  selects (fun b => (exists m, linked e n m /\ placed e b m) /\ matches e q b) (q_limit q) (ne_reg e) l.
Proof.
  intros D Kn Re Nd I Pr Qu Qi Qa. unfold NetModel.get_neighbors. rewrite Nd.
  apply has_node_in in I. rewrite I.
  set (ids := flat_map _ _). assert (forall v, In v ids <-> exists m b, linked e n m /\ placed e b m /\ v = uid_of id_val e b) as J
    by (intros; apply neighbour_ids).
  assert (forall b, In b (ne_reg e) -> (exists x, In x ids /\ veq (uid_of id_val e b) x = true) <-> exists m, linked e n m /\ placed e b m) as W.
  { intros b Ib. split.
    - intros (x & Ix & E). apply J in Ix. destruct Ix as (m & b' & Li & P & ->).
      apply uid_inj in E; auto; [|now apply (Kn _ m)]. subst. eauto.
    - intros (m & Li & P). exists (uid_of id_val e b). split; [apply J; eauto|].
      unfold uid_of. now apply veq_ids. }
  destruct ids as [|v ids'] eqn:Eids.
  - exists []. split; auto. apply selects_nobody. intros b Ib [X _]. apply W in X; auto.
    destruct X as (x & [] & _).
  - exists (filter_agents veq (uid_of id_val e) state_of attr isinstance (ne_reg e)
              (Criteria [] (Some (Many (v :: ids'))) (q_state_id q) (q_class q) (q_state q)
                 (q_limit q) (q_kwargs q))).
    split; [reflexivity|]. rewrite <- Eids in *.
    set (q' := Criteria [] (Some (Many ids)) (q_state_id q) (q_class q) (q_state q)
                 (q_limit q) (q_kwargs q)).
    eapply selects_ext; [|apply (filter_one_attr veq (uid_of id_val e) state_of attr isinstance q')].
    + intros b Ib. unfold QuerySpec.matches.
      assert (meets veq (uid_of id_val e b) (wanted_ids q') <->
              exists m, linked e n m /\ placed e b m) as X.
      { rewrite <- W by auto. unfold meets, wanted_ids. simpl. rewrite app_nil_r. split; auto.
        intros M l [= <-]. exact M. }
      assert (meets veq (uid_of id_val e b) (wanted_ids q)) as Y.
      { unfold meets, wanted_ids. rewrite Qu, Qi. discriminate. }
      rewrite X. split; intros; tauto.
    + exact Pr.
    + unfold wanted_ids. simpl. rewrite app_nil_r, Eids. discriminate.
    + exact Qa.
Qed.

Lemma sound_neighbors (e : nenv N) o n (q : criteria V C) :
  sound e -> NoDup (map ag_uid (ne_objs e)) -> In o (ne_reg e) -> node_of e o = Some n ->
  proper q -> q_unique_id q = None -> q_id_args q = [] ->
  (forall k k', wanted q k <> None -> wanted q k' <> None -> k = k') ->
  exists l, get_neighbors e o q = Some l /\
  selects (fun b => (exists m, node_of e b = Some m /\ linked e n m) /\ matches e q b) (q_limit q) (ne_reg e) l.
Proof.
  intros (D & Kn & Al & Re & Co) U Io Nd Pr Qu Qi Qa.
  assert (in_graph e n) as I.
  { apply Co in Nd; auto. unfold in_graph, placed in *. apply dhas_in. rewrite dhas_get, Nd. reflexivity. }
  destruct (neighbors_spec e o n q) as (l & E & S); auto. exists l. split; auto.
  eapply selects_ext; [|exact S]. intros b Ib. simpl. split.
  - intros [(m & Li & P) M]. split; auto. exists m. split; auto. now apply Co.
  - intros [(m & P & Li) M]. split; auto. exists m. split; auto. now apply Co.
Qed.

Lemma history_neighbors ops (e0 : nenv N) o n (q : criteria V C) :
  fresh_env e0 -> all_orderly int_node name_node ops e0 -> forallb automatic ops = true ->
  let e := nrun ops e0 in
  In o (ne_reg e) -> node_of e o = Some n ->
  proper q -> q_unique_id q = None -> q_id_args q = [] ->
  (forall k k', wanted q k <> None -> wanted q k' <> None -> k = k') ->
  exists l, get_neighbors e o q = Some l /\
  selects (fun b => (exists m, node_of e b = Some m /\ linked e n m) /\ matches e q b) (q_limit q) (ne_reg e) l.
Proof.
  intros F O A e. apply sound_neighbors.
  - apply sound_run; auto. now apply sound_fresh.
  - unfold e. rewrite all_chosen by auto. destruct F as (_ & -> & _). simpl. apply chosen_nodup.
Qed.
End Nb.

(** No operation but [add_node] with a constructor that fails makes a node vacant. *)
Definition occupied (e : nenv N) : Prop := dwf (g_nodes (ne_graph e)) /\ forall n, ~ vacant e n.

Lemma put_occupied (e : nenv N) g n o : put (ne_graph e) n o = Some g -> occupied e ->
  dwf (g_nodes g) /\ forall m, dget m (g_nodes g) <> Some None.
Proof.
  unfold put. destruct (has_node (ne_graph e) n); [|discriminate]. intros [= <-] [D Oc]. split.
  - now apply set_wf.
  - intros m. rewrite get_set. destruct (eqb m n); [discriminate|apply Oc].
Qed.

Lemma construct_occupied e k i arg picks e' r : construct e k i arg picks = (e', r) ->
  occupied e -> occupied e'.
Proof.
  unfold NetModel.construct. intros H Oc. destruct k.
  - destruct (match arg with Some (Some n) => (ne_graph e, n) | _ => choose_node int_node (ne_graph e) picks end)
      as [g' n] eqn:X.
    assert (g' = ne_graph e \/ g' = nx_add_node (ne_graph e) n) as [->| ->].
    { unfold NetModel.choose_node in X. destruct arg as [[m|]|]; [injection X as <- <-; auto| |];
        (destruct (find _ picks); injection X as <- <-; auto). }
    + destruct (put (ne_graph e) n _) as [g|] eqn:P.
      * injection H as <- <-. exact (put_occupied _ _ _ _ P Oc).
      * injection H as <- <-. destruct e. exact Oc.
    + rewrite put_in in H by apply nx_add_has. injection H as <- <-. destruct Oc as [D Oc]. split.
      * simpl. now apply set_wf, nx_add_wf.
      * intros m. unfold vacant. simpl. rewrite get_set, nx_add_get. destruct (eqb m n); [discriminate|apply Oc].
  - injection H as <- <-. exact Oc.
  - destruct arg; injection H as <- <-; exact Oc.
  - injection H as <- <-. exact Oc.
Qed.

Lemma base_add_occupied e k uid arg picks e' r : base_add_agent e k uid arg picks = (e', r) ->
  occupied e -> occupied e'.
Proof.
  unfold NetModel.base_add_agent. intros H Oc. destruct (take_id e uid) as [i e1] eqn:T.
  assert (occupied e1) as Oc1 by (destruct uid; injection T as <- <-; exact Oc).
  destruct (construct e1 k i arg picks) as [e2 [o|x]] eqn:E; injection H as <- <-;
    apply construct_occupied in E; auto.
Qed.

Lemma add_agent_occupied e k uid node t p1 p2 : occupied e -> occupied (fst (add_agent e k uid node t p1 p2)).
Proof.
  intros Oc. unfold NetModel.add_agent.
  assert (forall a p e1 r1, base_add_agent e k uid a p = (e1, r1) -> occupied e1) as B
    by (intros; eapply base_add_occupied; eauto).
  assert (forall e1 r1, (match base_add_agent e k uid (Some node) p1 with
      | (e1, Err TypeError) => base_add_agent e1 k uid None p2 | x => x end) = (e1, r1) -> occupied e1) as B2.
  { intros e1 r1 H. destruct (base_add_agent e k uid (Some node) p1) as [e0 [o|x]] eqn:E.
    - injection H as <- <-. eapply B; eauto.
    - destruct x; try (injection H as <- <-; eapply B; eauto; fail).
      eapply base_add_occupied; [exact H|]. eapply B; eauto. }
  destruct node as [n|], t.
  1,2: (destruct (match base_add_agent e k uid (Some (Some n)) p1 with
      | (e1, Err TypeError) => base_add_agent e1 k uid None p2 | x => x end) as [e1 [o|x]];
    [destruct (put (ne_graph e1) n o) eqn:P; simpl;
     [exact (put_occupied _ _ _ _ P (B2 _ _ eq_refl))|exact (B2 _ _ eq_refl)]|exact (B2 _ _ eq_refl)]).
  - destruct (match base_add_agent e k uid (Some None) p1 with
      | (e1, Err TypeError) => base_add_agent e1 k uid None p2 | x => x end) as [e1 [o|x]];
      exact (B2 _ _ eq_refl).
  - destruct (base_add_agent e k uid None p1) as [e1 r] eqn:E. eapply B; eauto.
Qed.

Lemma add_all_occupied l : forall e, occupied e -> occupied (fst (add_all l e)).
Proof.
  induction l as [|[k n] l IH]; intros e Oc; auto. cbn [NetModel.add_all].
  pose proof (add_agent_occupied e k None (Some n) true [] [] Oc) as A.
  destruct (add_agent e k None (Some n) true [] []) as [e1 [o|x]]; auto. simpl in A.
  destruct (put (ne_graph e1) n o) eqn:P; auto. apply IH. exact (put_occupied _ _ _ _ P A).
Qed.

(** Nothing to reserve in an occupied graph. *)
Lemma reserve_occupied classes : forall (nodes : dict N slot) g,
  (forall n s, In (n, s) nodes -> s <> None) -> reserve classes nodes g = (g, []).
Proof.
  induction classes as [|k classes IH]; intros [|[n s] nodes] g I; simpl; auto.
  destruct s as [s|]; [|exfalso; now apply (I n None (or_introl eq_refl))].
  simpl. apply IH. intros m s' J. apply (I m). simpl. auto.
Qed.

Lemma populate_occupied e cs : occupied e -> populate e cs = (e, snd (populate e cs)).
Proof.
  intros [D Oc]. unfold NetModel.populate. destruct (g_nodes (ne_graph e)) as [|p d] eqn:X; auto.
  rewrite reserve_occupied.
  - simpl. assert (with_graph e (ne_graph e) = e) as -> by (destruct e; reflexivity).
    destruct (_ && _); reflexivity.
  - rewrite <- X. intros n s I ->. apply (Oc n). unfold vacant. rewrite <- X in D. now apply dget_in_wf.
Qed.

(** The operations of C28. *)
Definition no_failed_add (op : nop N) : Prop := match op with NAddNode KRaise _ _ _ _ _ => False | _ => True end.

Lemma step_occupied e op : no_failed_add op -> occupied e -> occupied (nstep e op).
Proof.
  intros F Oc. destruct op as [k uid node t p1 p2|k uid node ord p1 p2|cs|o r|o p]; cbn [NetModel.nstep].
  - now apply add_agent_occupied.
  - unfold NetModel.add_node. destruct (take_id e uid) as [i e1] eqn:T.
    assert (ne_graph e1 = ne_graph e) as G by (destruct uid; injection T as <- <-; reflexivity).
    set (n := match node with Some n => n | None => _ end).
    change (ne_graph (with_graph e1 (nx_add_node (ne_graph e1) n))) with (nx_add_node (ne_graph e1) n).
    destruct Oc as [D Oc]. rewrite G.
    destruct (has_key _) eqn:Kk.
    + split; simpl.
      * now apply nx_add_wf.
      * intros m. unfold vacant. simpl. rewrite nx_add_get. destruct (eqb m n) eqn:X; [|apply Oc].
        unfold get_slot in Kk. rewrite nx_add_get, eqb_refl in Kk.
        destruct (dget n (g_nodes (ne_graph e))) as [[s|]|]; discriminate.
    + destruct (add_agent_at int_node (with_graph e1 (nx_add_node (ne_graph e) n)) k (Some i) n p1 p2 true)
        as (u & last & E & _).
      * apply nx_add_has.
      * intros ->. exact F.
      * rewrite E. split; simpl.
        -- now apply set_wf, nx_add_wf.
        -- intros m. unfold vacant. simpl. rewrite get_set, nx_add_get. destruct (eqb m n); [discriminate|apply Oc].
  - rewrite populate_occupied; auto.
  - assert (forall e1 a, occupied e1 -> occupied (base_die e1 o a)) as B by (intros; assumption).
    unfold die. destruct (nth_error (ne_objs e) o) as [a|]; auto.
    destruct (ag_kind a); try (apply B; assumption).
    destruct (negb (ag_alive a)); auto. destruct r; [|apply B; assumption].
    destruct (ag_node a) as [n|]; auto. unfold nx_remove_node. destruct (has_node (ne_graph e) n); auto.
    apply B. destruct Oc as [D Oc]. split; simpl.
    + now apply ddel_wf.
    + intros m. unfold vacant. simpl. rewrite dget_del by auto. destruct (eqb m n); [discriminate|apply Oc].
  - unfold add_edge. destruct (node_of e o), (node_of e p); auto. destruct (_ && _); exact Oc.
Qed.

Lemma run_occupied ops : forall e, Forall no_failed_add ops -> occupied e -> occupied (nrun ops e).
Proof.
  unfold NetModel.nrun. induction ops as [|op ops IH]; intros e F Oc; simpl; auto.
  inversion F; subst. apply IH; auto. now apply step_occupied.
Qed.

Lemma populate_occupies e e' cs : dwf (g_nodes (ne_graph e)) -> known e ->
  List.length cs = List.length (g_nodes (ne_graph e)) -> ~ In KRaise cs ->
  populate e cs = (e', None) -> occupied e'.
Proof.
  intros D Kn L R H.
  destruct (populate_spec int_node e e' cs D Kn L R H) as (_ & _ & K & _ & P & S & _). split.
  - unfold dwf. now rewrite K.
  - intros n V. destruct (dget n (g_nodes (ne_graph e))) as [[s|]|] eqn:G.
    + rewrite <- (S n) in G by (unfold vacant; congruence). unfold vacant in V. congruence.
    + destruct (P n G) as (o & a & _ & Q & _). unfold placed, vacant in *. congruence.
    + rewrite <- (S n) in G by (unfold vacant; congruence). unfold vacant in V. congruence.
Qed.

(** C28: the second iteration on a shared graph has no agents. *)
Lemma shared_graph g classes e1 ops classes2 e2 r2 :
  dwf (g_nodes g) -> (forall n s, In (n, s) (g_nodes g) -> s = None) ->
  List.length classes = List.length (g_nodes g) -> ~ In KRaise classes ->
  new_env int_node TGraph (g, []) classes = (e1, None) ->
  Forall no_failed_add ops ->
  new_env int_node TGraph (left_over (nrun ops e1)) classes2 = (e2, r2) ->
  List.length (ne_reg e1) = List.length (g_nodes g) /\ g_nodes g <> [] /\ ne_reg e2 = [].
Proof.
  intros D Fr L R H F H2. unfold new_env in *. simpl in *.
  assert (known (NEnv g (-1) [] [])) as Kn.
  { intros o n P. unfold placed in P. simpl in P. apply dget_in in P. apply Fr in P. discriminate. }
  destruct (populate_spec int_node (NEnv g (-1) [] []) e1 classes D Kn L R H) as (_ & Re & _).
  pose proof (populate_occupies (NEnv g (-1) [] []) e1 classes D Kn L R H) as Oc.
  apply (run_occupied ops) in Oc; auto.
  assert (occupied (NEnv (ne_graph (nrun ops e1)) (-1) (ne_objs (nrun ops e1)) [])) as Oc2 by exact Oc.
  apply (populate_occupied _ classes2) in Oc2. rewrite H2 in Oc2. injection Oc2 as ->.
  split; [|split; auto].
  - rewrite Re. simpl. rewrite seq_length. unfold vacancies. simpl.
    f_equal. clear - Fr. induction (g_nodes g) as [|[n s] d IH]; auto.
    rewrite (Fr n s (or_introl eq_refl)) in *. simpl. f_equal. apply IH. intros m s' I. apply (Fr m). simpl. auto.
  - intros X. unfold NetModel.populate in H. simpl in H. rewrite X in H. discriminate.
Qed.

Lemma new_graphs g classes :
  dwf (g_nodes g) -> (forall n s, In (n, s) (g_nodes g) -> s = None) -> g_nodes g <> [] ->
  List.length classes = List.length (g_nodes g) -> ~ In KRaise classes ->
  exists e, (forall prev, new_env int_node (TNew g) prev classes = (e, None)) /\
  ne_reg e = seq 0 (List.length (g_nodes g)) /\ List.length (ne_objs e) = List.length (g_nodes g) /\
  dkeys (g_nodes (ne_graph e)) = dkeys (g_nodes g) /\ g_edges (ne_graph e) = g_edges g /\
  forall n, In n (dkeys (g_nodes g)) -> exists o, placed e o n.
Proof.
  intros D Fr Ne L R.
  assert (forall n, In n (dkeys (g_nodes g)) -> vacant (NEnv g (-1) [] []) n) as V.
  { intros n I. unfold vacant. simpl. apply in_map_iff in I as [[m s] [<- I]]. rewrite (Fr m s I) in I.
    now apply dget_in_wf. }
  assert (vacancies (NEnv g (-1) [] []) = List.length (g_nodes g)) as Va.
  { unfold vacancies. simpl. f_equal. clear - Fr. induction (g_nodes g) as [|[n s] d IH]; auto.
    rewrite (Fr n s (or_introl eq_refl)) in *. simpl. f_equal. apply IH. intros m s' I. apply (Fr m). simpl. auto. }
  assert (known (NEnv g (-1) [] [])) as Kn.
  { intros o n P. unfold placed in P. simpl in P. apply dget_in in P. apply Fr in P. discriminate. }
  assert (exists e, populate (NEnv g (-1) [] []) classes = (e, None)) as [e E].
  { destruct (g_nodes g) as [|[n s] d] eqn:X; [congruence|]. rewrite <- X in *.
    apply (populate_succeeds int_node (NEnv g (-1) [] []) classes n); auto. left. apply V. rewrite X. simpl. auto. }
  exists e. split; auto.
  destruct (populate_spec int_node (NEnv g (-1) [] []) e classes D Kn L R E) as ((more & O & Lm) & Re & K & Ed & P & _).
  rewrite Va in *. simpl in *. rewrite O. repeat split; auto.
  intros n I. destruct (P n (V n I)) as (o & a & _ & Q & _). eauto.
Qed.
End P.
