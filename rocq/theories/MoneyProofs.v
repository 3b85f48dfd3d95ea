(** Proofs for MoneyProps.v. *)
From Coq Require Import List Bool Arith ZArith QArith Lia.
From Verif Require Import PyDict NetModel MoneyModel MoneySpec.
Import ListNotations.
Local Close Scope Q_scope.
Local Open Scope nat_scope.

(** ** Slots *)
Lemma get_set (g : graph nat) m s x : get_slot (set_slot g m s) x = if Nat.eqb x m then s else get_slot g x.
Proof. unfold get_slot, set_slot. cbn [g_nodes]. rewrite dget_set. change (eqb x m) with (Nat.eqb x m). destruct (Nat.eqb x m); reflexivity. Qed.
Lemma keys_set (g : graph nat) m s : has_node g m = true -> dkeys (g_nodes (set_slot g m s)) = dkeys (g_nodes g).
Proof. unfold has_node, set_slot. cbn [g_nodes]. intros H. rewrite dkeys_set, H. reflexivity. Qed.
Lemma has_keys (g : graph nat) m : has_node g m = true <-> In m (dkeys (g_nodes g)).
Proof. apply dhas_in. Qed.

Lemma reserve_all (nodes : dict nat slot) : forall g,
  (forall p, In p nodes -> snd p = None) -> (forall m, In m (dkeys nodes) -> has_node g m = true) ->
  let '(g', l) := reserve (map (fun _ => KNet) nodes) nodes g in
  map snd l = dkeys nodes /\ dkeys (g_nodes g') = dkeys (g_nodes g) /\ g_edges g' = g_edges g /\ g_directed g' = g_directed g /\
  (forall m, In m (dkeys nodes) -> get_slot g' m = Some None) /\ (forall m, ~ In m (dkeys nodes) -> get_slot g' m = get_slot g m).
Proof.
  induction nodes as [|[n s] nodes IH]; intros g F H; cbn [map reserve]; [repeat split; auto; contradiction|].
  pose proof (F _ (or_introl eq_refl)) as E. cbn in E. subst s. cbn [has_key].
  specialize (IH (set_slot g n (Some None))).
  destruct (reserve (map (fun _ => KNet) nodes) nodes (set_slot g n (Some None))) as [g' l].
  assert (HN : has_node g n = true) by (apply H; left; reflexivity).
  destruct IH as (A & B & C & D & G1 & G2).
  - intros p I. apply F. right. exact I.
  - intros m I. apply has_keys. rewrite keys_set by exact HN. apply has_keys, H. right. exact I.
  - rewrite keys_set in B by exact HN. repeat split; auto.
    + cbn. f_equal. exact A.
    + intros m [<-|I]; [|auto]. cbn. destruct (in_dec Nat.eq_dec n (dkeys nodes)) as [I|I]; [auto|].
      rewrite G2 by exact I. rewrite get_set, Nat.eqb_refl. reflexivity.
    + intros m NI. cbn in NI. rewrite G2 by tauto. rewrite get_set. destruct (Nat.eqb_spec m n); [subst; tauto|reflexivity].
Qed.

Section M.
Variable r : luck.
Variable social : bool.
Hypothesis Hr : fair r.
Variable n : nat.
Variable g0 : graph nat.

Record minv (i : nat) (e : nenv nat) : Prop := {
  i_keys : exists k, dkeys (g_nodes (ne_graph e)) = seq 0 (n + k) /\ (social = false -> k = 0) /\
    forall m, n <= m < n + k -> exists o, o < i /\ agent_on e m o /\ node_of e o = Some m;
  i_edges : g_edges (ne_graph e) = g_edges g0 /\ g_directed (ne_graph e) = g_directed g0;
  i_objs : List.length (ne_objs e) = i /\ forall o a, nth_error (ne_objs e) o = Some a ->
    ag_uid a = Z.of_nat o /\ ag_alive a = true /\
    (if social then exists m, ag_node a = Some m /\ In m (dkeys (g_nodes (ne_graph e))) /\ is_free (get_slot (ne_graph e) m) = false
     else ag_node a = None);
  i_last : ne_last e = (Z.of_nat i - 1)%Z;
  i_reg : ne_reg e = seq 0 i;
  i_done : forall m, m < i -> agent_on e m m;
  i_rest : forall m, i <= m < n -> get_slot (ne_graph e) m = Some None \/ exists o, o < i /\ agent_on e m o /\ node_of e o = Some m;
  i_inj : forall o p m, node_of e o = Some m -> node_of e p = Some m -> o = p }.

Lemma node_of_app (e : nenv nat) (g : graph nat) a l rg o : node_of (NEnv g l (ne_objs e ++ [a]) rg) o =
  if Nat.eqb o (List.length (ne_objs e)) then ag_node a else node_of e o.
Proof.
  unfold node_of. cbn [ne_objs]. destruct (Nat.eqb_spec o (List.length (ne_objs e))) as [->|N].
  - rewrite nth_error_app2, Nat.sub_diag by lia. reflexivity.
  - destruct (Nat.lt_ge_cases o (List.length (ne_objs e))).
    + rewrite nth_error_app1 by lia. reflexivity.
    + rewrite !(proj2 (nth_error_None _ _)); auto; rewrite ?app_length; cbn; lia.
Qed.

(** The agent is constructed with the node [c], which was free or is new, and put on node [i]. *)
Lemma minv_social i e c g1 : social = true -> minv i e -> i < n ->
  (g1 = ne_graph e /\ has_node g1 c = true /\ is_free (get_slot g1 c) = true \/
   g1 = nx_add_node (ne_graph e) c /\ c = List.length (g_nodes (ne_graph e))) ->
  has_node g1 c = true /\ has_node (set_slot g1 c (Some (Some i))) i = true /\
  minv (S i) (NEnv (set_slot (set_slot g1 c (Some (Some i))) i (Some (Some i))) (ne_last e + 1)
                (ne_objs e ++ [Agent (ne_last e + 1) KNet (Some c) true]) (ne_reg e ++ [i])).
Proof.
  intros HS [(k & KK & KF & KN) (E1 & E2) (L & OB) LA RG DN RS IJ] LT CH.
  assert (LN : List.length (g_nodes (ne_graph e)) = n + k).
  { transitivity (List.length (dkeys (g_nodes (ne_graph e)))); [unfold dkeys; rewrite map_length; reflexivity|]. rewrite KK, seq_length. reflexivity. }
  assert (IN : forall m, has_node (ne_graph e) m = true <-> m < n + k) by (intros m; rewrite has_keys, KK, in_seq; lia).
  assert (G1 : exists k', dkeys (g_nodes g1) = seq 0 (n + k') /\ k <= k' /\ c < n + k' /\ g_edges g1 = g_edges g0 /\ g_directed g1 = g_directed g0 /\
            is_free (get_slot (ne_graph e) c) = true /\ (forall m, m <> c -> get_slot g1 m = get_slot (ne_graph e) m) /\
            (forall m, n + k <= m < n + k' -> m = c)).
  { destruct CH as [(-> & H1 & H2)|(-> & ->)].
    - exists k. rewrite IN in H1. repeat split; auto. lia.
    - exists (S k). rewrite LN. unfold nx_add_node. destruct (has_node (ne_graph e) (n + k)) eqn:H1; [apply IN in H1; lia|].
      repeat split; auto.
      + unfold set_slot. cbn [g_nodes]. rewrite dkeys_set. unfold has_node in H1. rewrite H1, KK.
        replace (n + S k) with (S (n + k)) by lia. rewrite seq_S. reflexivity.
      + lia.
      + unfold get_slot. unfold has_node in H1. rewrite dhas_get in H1. destruct (dget (n + k) (g_nodes (ne_graph e))); [discriminate|reflexivity].
      + intros m NM. rewrite get_set. apply Nat.eqb_neq in NM. rewrite NM. reflexivity.
      + lia. }
  destruct G1 as (k' & K1 & KL & CL & E1' & E2' & FR & OT & NW).
  assert (HC : has_node g1 c = true) by (apply has_keys; rewrite K1, in_seq; lia).
  assert (HI : has_node (set_slot g1 c (Some (Some i))) i = true).
  { apply has_keys. rewrite keys_set by exact HC. rewrite K1, in_seq. lia. }
  split; [exact HC|]. split; [exact HI|].
  assert (SL : forall m, get_slot (set_slot (set_slot g1 c (Some (Some i))) i (Some (Some i))) m =
            if Nat.eqb m i then Some (Some i) else if Nat.eqb m c then Some (Some i) else get_slot (ne_graph e) m).
  { intros m. rewrite !get_set. destruct (Nat.eqb_spec m i); [reflexivity|]. destruct (Nat.eqb_spec m c); [reflexivity|]. apply OT. assumption. }
  assert (KS : dkeys (g_nodes (set_slot (set_slot g1 c (Some (Some i))) i (Some (Some i)))) = seq 0 (n + k')).
  { rewrite keys_set by exact HI. rewrite keys_set by exact HC. exact K1. }
  assert (FN : forall o m, node_of e o = Some m -> is_free (get_slot (ne_graph e) m) = false /\ o < i).
  { intros o m NO. unfold node_of in NO. destruct (nth_error (ne_objs e) o) as [a|] eqn:NE; [|discriminate].
    destruct (OB _ _ NE) as (_ & _ & X). rewrite HS in X. destruct X as (m' & A & _ & B). rewrite A in NO. injection NO as <-.
    split; [exact B|]. rewrite <- L. apply nth_error_Some. congruence. }
  assert (NOF : forall o, node_of (NEnv (set_slot (set_slot g1 c (Some (Some i))) i (Some (Some i))) (ne_last e + 1)
                (ne_objs e ++ [Agent (ne_last e + 1) KNet (Some c) true]) (ne_reg e ++ [i])) o = if Nat.eqb o i then Some c else node_of e o).
  { intros o. rewrite node_of_app, L. reflexivity. }
  assert (NF : forall m o, agent_on e m o -> is_free (get_slot (ne_graph e) m) = false) by (intros m o X; unfold agent_on in X; rewrite X; reflexivity).
  constructor; cbn [ne_graph ne_objs ne_last ne_reg].
  - exists k'. split; [exact KS|]. split; [congruence|]. intros m B. unfold agent_on. cbn [ne_graph]. rewrite SL.
    replace (Nat.eqb m i) with false by (symmetry; apply Nat.eqb_neq; lia).
    destruct (Nat.eqb_spec m c) as [->|NC].
    + exists i. split; [lia|]. split; [reflexivity|]. rewrite NOF, Nat.eqb_refl. reflexivity.
    + assert (m < n + k) by (destruct (Nat.lt_ge_cases m (n + k)); auto; exfalso; apply NC, NW; lia).
      destruct (KN m ltac:(lia)) as (o & A & B' & C). exists o. split; [lia|]. split; [exact B'|]. rewrite NOF.
      replace (Nat.eqb o i) with false by (symmetry; apply Nat.eqb_neq; lia). exact C.
  - auto.
  - split; [rewrite app_length; cbn; lia|]. intros o a NE. rewrite KS.
    destruct (Nat.eq_dec o i) as [->|NO].
    + rewrite nth_error_app2 in NE by lia. rewrite L, Nat.sub_diag in NE. injection NE as <-. cbn [ag_uid ag_alive ag_node].
      split; [lia|]. split; [reflexivity|]. rewrite HS. exists c. split; [reflexivity|]. split; [apply in_seq; lia|]. rewrite SL, Nat.eqb_refl.
      destruct (Nat.eqb c i); reflexivity.
    + assert (o < List.length (ne_objs e)). { assert (nth_error (ne_objs e ++ [Agent (ne_last e + 1) KNet (Some c) true]) o <> None) as X by congruence.
        apply nth_error_Some in X. rewrite app_length in X. cbn in X. lia. }
      rewrite nth_error_app1 in NE by assumption. destruct (OB _ _ NE) as (A & B & C). split; [exact A|]. split; [exact B|].
      rewrite HS in *. destruct C as (m & C1 & C2 & C3). exists m. split; [exact C1|]. rewrite KK, in_seq in C2. split; [apply in_seq; lia|].
      rewrite SL. destruct (Nat.eqb m i); [reflexivity|]. destruct (Nat.eqb m c); [reflexivity|exact C3].
  - lia.
  - rewrite RG, seq_S. reflexivity.
  - intros m B. unfold agent_on. cbn [ne_graph]. rewrite SL. destruct (Nat.eqb_spec m i) as [->|NI]; [reflexivity|].
    specialize (DN m ltac:(lia)). destruct (Nat.eqb_spec m c) as [->|NC]; [|exact DN]. apply NF in DN. congruence.
  - intros m B. unfold agent_on. cbn [ne_graph]. rewrite SL. replace (Nat.eqb m i) with false by (symmetry; apply Nat.eqb_neq; lia).
    destruct (Nat.eqb_spec m c) as [->|NC].
    + right. exists i. split; [lia|]. split; [reflexivity|]. rewrite NOF, Nat.eqb_refl. reflexivity.
    + destruct (RS m ltac:(lia)) as [R|(o & A & B' & C)]; [left; exact R|right]. exists o. split; [lia|]. split; [exact B'|].
      rewrite NOF. replace (Nat.eqb o i) with false by (symmetry; apply Nat.eqb_neq; lia). exact C.
  - intros o p m. rewrite !NOF. destruct (Nat.eqb_spec o i) as [->|NO], (Nat.eqb_spec p i) as [->|NP]; auto.
    + intros X Y. injection X as <-. apply FN in Y as [Y _]. congruence.
    + intros Y X. injection X as <-. apply FN in Y as [Y _]. congruence.
    + apply IJ.
Qed.

Lemma minv_add i e : minv i e -> i < n -> exists e', money_add r social e i = (e', None) /\ minv (S i) e' /\
  (social = true -> node_of e' i = match find (fun m => is_free (get_slot (ne_graph e) m)) (l_choices r i (dkeys (g_nodes (ne_graph e)))) with
                                   | Some m => Some m | None => Some (List.length (g_nodes (ne_graph e))) end).
Proof.
  intros IV LT. unfold money_add, base_add_agent, take_id, next_id. destruct (i_objs _ _ IV) as (L & OB).
  rewrite L. destruct social eqn:HS; unfold construct; cbn [ne_graph ne_objs ne_last ne_reg].
  - destruct Hr as [HC _]. destruct (HC i (dkeys (g_nodes (ne_graph e)))) as [IC _].
    set (picks := l_choices r i (dkeys (g_nodes (ne_graph e)))) in *. unfold choose_node.
    destruct (find (fun m => is_free (get_slot (ne_graph e) m)) picks) as [c|] eqn:FD.
    + apply find_some in FD as [FI FF].
      assert (HN : has_node (ne_graph e) c = true) by (apply has_keys, IC, FI).
      destruct (minv_social i e c (ne_graph e) HS IV LT) as (A & B & C); [left; auto|].
      unfold put at 1. rewrite A. unfold push. cbn [ne_graph ne_objs ne_last ne_reg]. rewrite L. unfold put. cbn [ne_graph]. unfold obj. rewrite B.
      eexists. split; [reflexivity|]. split; [exact C|]. intros _. unfold with_graph. cbn [ne_last ne_objs ne_reg]. rewrite node_of_app, L, Nat.eqb_refl. reflexivity.
    + destruct (minv_social i e (List.length (g_nodes (ne_graph e))) (nx_add_node (ne_graph e) (List.length (g_nodes (ne_graph e)))) HS IV LT) as (A & B & C); [right; auto|].
      unfold put at 1. rewrite A. unfold push. cbn [ne_graph ne_objs ne_last ne_reg]. rewrite L. unfold put. cbn [ne_graph]. unfold obj. rewrite B.
      eexists. split; [reflexivity|]. split; [exact C|]. intros _. unfold with_graph. cbn [ne_last ne_objs ne_reg]. rewrite node_of_app, L, Nat.eqb_refl. reflexivity.
  - unfold push. cbn [ne_graph ne_objs ne_last ne_reg]. rewrite L.
    destruct IV as [(k & KK & KF & KN) (E1 & E2) (_ & _) LA RG DN RS IJ]. pose proof (KF HS) as K0. subst k. rewrite Nat.add_0_r in *.
    assert (HI : has_node (ne_graph e) i = true) by (apply has_keys; rewrite KK, in_seq; lia).
    unfold put. rewrite HI. eexists. split; [reflexivity|]. split; [|congruence]. unfold with_graph. cbn [ne_last ne_objs ne_reg].
    assert (NO : forall o, node_of e o = None).
    { intros o. unfold node_of. destruct (nth_error (ne_objs e) o) as [a|] eqn:NE; [|reflexivity]. apply (OB _ _ NE). }
    constructor; cbn [ne_graph ne_objs ne_last ne_reg].
    + exists 0. rewrite keys_set by exact HI. rewrite Nat.add_0_r. split; [exact KK|]. split; [auto|lia].
    + auto.
    + split; [rewrite app_length; cbn; lia|]. intros o a NE. rewrite HS. destruct (Nat.eq_dec o i) as [->|NI].
      * rewrite nth_error_app2 in NE by lia. rewrite L, Nat.sub_diag in NE. injection NE as <-. cbn. split; [lia|auto].
      * assert (o < List.length (ne_objs e)). { assert (nth_error (ne_objs e ++ [Agent (ne_last e + 1) KBase None true]) o <> None) as X by congruence.
          apply nth_error_Some in X. rewrite app_length in X. cbn in X. lia. }
        rewrite nth_error_app1 in NE by assumption. destruct (OB _ _ NE) as (A & B & C). auto.
    + lia.
    + rewrite RG, seq_S. reflexivity.
    + intros m B. unfold agent_on. cbn [ne_graph]. rewrite get_set. destruct (Nat.eqb_spec m i) as [->|NI]; [reflexivity|]. apply DN. lia.
    + intros m B. left. rewrite get_set. replace (Nat.eqb m i) with false by (symmetry; apply Nat.eqb_neq; lia).
      destruct (RS m ltac:(lia)) as [R|(o & _ & _ & C)]; [exact R|]. rewrite NO in C. discriminate.
    + intros o p m. rewrite !node_of_app. cbn [ag_node]. destruct (Nat.eqb o _); [discriminate|]. rewrite NO. discriminate.
Qed.

(** All agents, with the node that each of them knows. *)
Lemma minv_add_all j : forall i e, minv i e -> i + j = n ->
  exists e', money_add_all r social (seq i j) e = (e', None) /\ minv n e'.
Proof.
  induction j as [|j IH]; intros i e IV E; cbn [seq money_add_all].
  - exists e. split; [reflexivity|]. replace n with i by lia. exact IV.
  - destruct (minv_add i e IV ltac:(lia)) as (e1 & E1 & IV1 & _). rewrite E1. apply IH; [exact IV1|lia].
Qed.

(** If the first free node that is drawn is always the agent's own. *)
Lemma own_add_all j : social = true ->
  (forall i, i < n -> find (Nat.leb i) (l_choices r i (seq 0 n)) = Some i) ->
  forall i e, minv i e -> i + j = n -> dkeys (g_nodes (ne_graph e)) = seq 0 n ->
  (forall o, o < i -> node_of e o = Some o) ->
  exists e', money_add_all r social (seq i j) e = (e', None) /\ minv n e' /\ dkeys (g_nodes (ne_graph e')) = seq 0 n /\ forall o, o < n -> node_of e' o = Some o.
Proof.
  intros HS OWN. induction j as [|j IH]; intros i e IV E KK NO; cbn [seq money_add_all].
  - exists e. replace i with n in * by lia. auto.
  - destruct (minv_add i e IV ltac:(lia)) as (e1 & E1 & IV1 & N1). rewrite E1.
    assert (FD : find (fun m => is_free (get_slot (ne_graph e) m)) (l_choices r i (dkeys (g_nodes (ne_graph e)))) = Some i).
    { rewrite KK. destruct Hr as [HC _]. destruct (HC i (seq 0 n)) as [IC _]. specialize (OWN i ltac:(lia)). revert OWN.
      assert (X : forall m, In m (l_choices r i (seq 0 n)) -> is_free (get_slot (ne_graph e) m) = Nat.leb i m).
      { intros m I. apply IC, in_seq in I. destruct (Nat.leb_spec i m) as [G|G].
        - destruct (i_rest _ _ IV m ltac:(lia)) as [R|(o & A & _ & C)]; [rewrite R; reflexivity|].
          rewrite NO in C by exact A. injection C as ->. lia.
        - pose proof (i_done _ _ IV m G) as D. unfold agent_on in D. rewrite D. reflexivity. }
      revert X. generalize (l_choices r i (seq 0 n)) as l. induction l as [|x l IHl]; cbn [find]; intros X Y; [discriminate|].
      rewrite (X x (or_introl eq_refl)). destruct (Nat.leb i x); [exact Y|]. apply IHl; [|exact Y]. intros m I. apply X. right. exact I. }
    rewrite FD in N1. specialize (N1 HS).
    assert (IX : minv (S i) e1 /\ dkeys (g_nodes (ne_graph e1)) = seq 0 n /\ forall o, o < S i -> node_of e1 o = Some o).
    { split; [exact IV1|]. unfold money_add in E1.
      destruct (i_objs _ _ IV) as (L & _). rewrite HS, L in E1. unfold base_add_agent, take_id, next_id, construct in E1.
      cbn [ne_graph ne_objs ne_last ne_reg] in E1. unfold choose_node in E1. rewrite FD in E1.
      assert (HI : has_node (ne_graph e) i = true) by (apply has_keys; rewrite KK, in_seq; lia).
      unfold put at 1 in E1. rewrite HI in E1. unfold push in E1. cbn [ne_graph ne_objs ne_last ne_reg] in E1. unfold put in E1. cbn [ne_graph] in E1.
      assert (HI2 : has_node (set_slot (ne_graph e) i (Some (Some (List.length (ne_objs e))))) i = true)
        by (apply has_keys; rewrite keys_set by exact HI; apply has_keys; exact HI).
      unfold obj in E1. rewrite HI2 in E1. injection E1 as <-. split.
      - cbn [with_graph ne_graph]. rewrite keys_set by exact HI2. rewrite keys_set by exact HI. exact KK.
      - intros o LO. destruct (Nat.eq_dec o i) as [->|NE]; [exact N1|]. unfold with_graph. cbn [ne_last ne_objs ne_reg]. rewrite node_of_app, L.
        apply Nat.eqb_neq in NE as NE'. rewrite NE'. apply NO. lia. }
    destruct IX as (_ & K1 & NO1). apply IH; auto. lia.
Qed.
End M.

Lemma start r social n g : fair r -> 0 < n -> plain n g -> exists g1,
  money_populate r social g =
    match money_add_all r social (seq 0 n) (NEnv g1 (-1) [] []) with
    | (e1, None) => if forallb (fun p => has_key (snd p)) (g_nodes (ne_graph e1)) && some_network_agent e1 then (e1, None) else (e1, Some AssertionError)
    | x => x
    end /\ minv social n g 0 (NEnv g1 (-1) [] []) /\ dkeys (g_nodes g1) = seq 0 n.
Proof.
  intros F N P. unfold plain in P. unfold money_populate.
  assert (KK : dkeys (g_nodes g) = seq 0 n) by (rewrite P; unfold dkeys; rewrite map_map; apply map_id).
  pose proof (reserve_all (g_nodes g) g) as RA.
  destruct (reserve (map (fun _ => KNet) (g_nodes g)) (g_nodes g) g) as [g1 l] eqn:RE.
  destruct RA as (A & B & C & D & G1 & G2).
  { intros p I. rewrite P in I. apply in_map_iff in I as (i & <- & _). reflexivity. }
  { intros m I. apply has_keys. exact I. }
  exists g1. rewrite KK in A. split; [|split; [|congruence]].
  - destruct (g_nodes g) as [|p nodes] eqn:GN; [rewrite <- KK in A; destruct n; [lia|discriminate KK]|].
    rewrite RE, A. reflexivity.
  - rewrite KK in *. constructor; cbn.
    + exists 0. rewrite Nat.add_0_r. split; [exact B|]. split; [auto|lia].
    + auto.
    + split; [reflexivity|]. intros [|o] a X; discriminate.
    + reflexivity.
    + reflexivity.
    + lia.
    + intros m LT. left. apply G1, in_seq. lia.
    + intros [|o] p m X; discriminate.
Qed.

(** The assertions at the end hold. *)
Lemma assertions social n g e : 0 < n -> minv social n g n e ->
  forallb (fun p => has_key (snd p)) (g_nodes (ne_graph e)) && some_network_agent e = true /\
  (forall m, In m (dkeys (g_nodes (ne_graph e))) -> exists o, o < n /\ agent_on e m o).
Proof.
  intros N IV. destruct (i_keys _ _ _ _ _ IV) as (k & KK & _ & KN).
  assert (ALL : forall m, In m (dkeys (g_nodes (ne_graph e))) -> exists o, o < n /\ agent_on e m o).
  { intros m I. rewrite KK, in_seq in I. destruct (Nat.lt_ge_cases m n) as [G|G].
    - exists m. split; [exact G|]. apply (i_done _ _ _ _ _ IV). exact G.
    - destruct (KN m ltac:(lia)) as (o & A & B & _). eauto. }
  assert (WF : dwf (g_nodes (ne_graph e))) by (unfold dwf; rewrite KK; apply seq_NoDup).
  split; [|exact ALL]. apply andb_true_iff. split.
  - apply forallb_forall. intros [m s] I. cbn.
    assert (In m (dkeys (g_nodes (ne_graph e)))) as J by (unfold dkeys; apply in_map_iff; exists (m, s); auto).
    destruct (ALL m J) as (o & _ & A). unfold agent_on, get_slot in A. rewrite (dget_in_wf m s _ WF I) in A. subst. reflexivity.
  - apply existsb_exists. pose proof (i_done _ _ _ _ _ IV 0 N) as D. unfold agent_on, get_slot in D.
    destruct (dget 0 (g_nodes (ne_graph e))) as [s|] eqn:DG; [|discriminate]. exists (0, s). split; [apply dget_in; exact DG|]. cbn. rewrite D.
    unfold alive. destruct (i_objs _ _ _ _ _ IV) as (L & OB). destruct (nth_error (ne_objs e) 0) as [a|] eqn:NE.
    + apply (OB _ _ NE).
    + apply nth_error_None in NE. lia.
Qed.

Lemma money_made r social n g width height : fair r -> 0 < n -> plain n g -> 0 < width -> 0 < height ->
  exists e, money_populate r social g = (e, None) /\ money_env r social g width height = Made e (place r 0 (seq 0 n) width height) /\
    minv social n g n e.
Proof.
  intros F N P W H. destruct (start r social n g F N P) as (g1 & PO & IV & _).
  destruct (minv_add_all r social F n g n 0 _ IV eq_refl) as (e & E & IVn). rewrite E in PO.
  destruct (assertions social n g e N IVn) as [AS _]. rewrite AS in PO. exists e. split; [exact PO|]. split; [|exact IVn].
  unfold money_env. rewrite PO, (i_reg _ _ _ _ _ IVn), seq_length.
  replace (Nat.eqb width 0) with false by (symmetry; apply Nat.eqb_neq; lia). replace (Nat.eqb height 0) with false by (symmetry; apply Nat.eqb_neq; lia).
  rewrite andb_false_r. reflexivity.
Qed.

Lemma money_own r n g width height : fair r -> 0 < n -> plain n g -> 0 < width -> 0 < height ->
  (forall i, i < n -> find (Nat.leb i) (l_choices r i (seq 0 n)) = Some i) ->
  exists e, money_env r true g width height = Made e (place r 0 (seq 0 n) width height) /\
    minv true n g n e /\ dkeys (g_nodes (ne_graph e)) = seq 0 n /\ forall o, o < n -> node_of e o = Some o.
Proof.
  intros F N P W H OWN. destruct (start r true n g F N P) as (g1 & PO & IV & K1).
  destruct (own_add_all r true F n g n eq_refl OWN 0 _ IV eq_refl K1 ltac:(lia)) as (e & E & IVn & KK & NO). rewrite E in PO.
  destruct (assertions true n g e N IVn) as [AS _]. rewrite AS in PO. exists e. split; [|auto].
  unfold money_env. rewrite PO, (i_reg _ _ _ _ _ IVn), seq_length.
  replace (Nat.eqb width 0) with false by (symmetry; apply Nat.eqb_neq; lia). replace (Nat.eqb height 0) with false by (symmetry; apply Nat.eqb_neq; lia).
  rewrite andb_false_r. reflexivity.
Qed.

Lemma place_spec r width height agents : fair r -> 0 < width -> 0 < height -> forall i,
  map fst (place r i agents width height) = agents /\
  Forall (fun p => fst (snd p) < width /\ snd (snd p) < height) (place r i agents width height).
Proof.
  intros [_ F] W H. induction agents as [|a l IH]; intros i; cbn; [auto|].
  destruct (IH (S (S i))) as [A B]. split; [f_equal; exact A|]. constructor; [cbn; auto|exact B].
Qed.

(** ** Portrayal *)
Lemma opt_map_all {X Y} (f : X -> option Y) l : (forall x, In x l -> f x <> None) -> exists l', opt_map f l = Some l' /\ map Some l' = map f l.
Proof.
  induction l as [|x l IH]; intros H; cbn; [exists []; auto|].
  destruct (f x) as [y|] eqn:E; [|exfalso; apply (H x); [left; reflexivity|exact E]].
  destruct IH as (l' & -> & M); [intros z I; apply H; right; exact I|]. exists (y :: l'). cbn. rewrite M. auto.
Qed.
