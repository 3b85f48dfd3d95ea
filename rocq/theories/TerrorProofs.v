(** Proofs about the society of the terrorism example. *)
From Coq Require Import ZArith QArith List Bool Arith String Permutation Lia Lqa.
From Verif Require Import Num PyDict TimedModel TimedProofs AgentModel AgentProofs FsmModel FsmSpec FsmProofs PlainProofs YieldProofs
  InvProofs PatronProofs TerrorModel TerrorSpec.
Import ListNotations.
Local Open Scope string_scope.

(** * Sums *)
Lemma sum_ext f g l : (forall a, In a l -> (f a == g a)%Q) -> (sum f l == sum g l)%Q.
Proof.
  induction l as [|a l IH]; intros H; cbn [sum fold_right]; [reflexivity|].
  fold (sum f l) (sum g l). rewrite (H a), IH; [reflexivity| |now left]. intros b J. apply H. now right.
Qed.
Lemma sum_scale f k l : (sum (fun a => f a * k) l == sum f l * k)%Q.
Proof.
  induction l as [|a l IH]; cbn [sum fold_right]; [ring|]. fold (sum f l) (sum (fun a => f a * k)%Q l). rewrite IH. ring.
Qed.
Lemma sum_le f g l : (forall a, In a l -> (f a <= g a)%Q) -> (sum f l <= sum g l)%Q.
Proof.
  induction l as [|a l IH]; intros H; cbn [sum fold_right]; [apply Qle_refl|].
  fold (sum f l) (sum g l). apply Qplus_le_compat; [apply H; now left|]. apply IH. intros b J. apply H. now right.
Qed.
Lemma sum_nonneg f l : (forall a, In a l -> (0 <= f a)%Q) -> (0 <= sum f l)%Q.
Proof.
  intros H. assert (Z : (sum (fun _ => 0) l == 0)%Q).
  { clear H. induction l as [|a l IH]; cbn [sum fold_right]; [reflexivity|]. fold (sum (fun _ => 0%Q) l). rewrite IH. reflexivity. }
  rewrite <- Z. apply sum_le. exact H.
Qed.
Lemma mean_between weight value l lo hi : (forall a, In a l -> (0 <= weight a)%Q) -> (forall a, In a l -> (lo <= value a <= hi)%Q) ->
  ~ (sum weight l == 0)%Q -> (lo <= mean_by weight value l <= hi)%Q.
Proof.
  intros W V N. unfold mean_by. assert (P : (0 < sum weight l)%Q).
  { pose proof (sum_nonneg _ _ W). destruct (Qlt_le_dec 0 (sum weight l)) as [L|L]; auto. exfalso. apply N. lra. }
  split.
  - apply Qle_shift_div_l; auto. rewrite Qmult_comm, <- (sum_scale weight lo). apply sum_le. intros a J.
    specialize (W a J). specialize (V a J). nra.
  - apply Qle_shift_div_r; auto. rewrite Qmult_comm, <- (sum_scale weight hi). apply sum_le. intros a J.
    specialize (W a J). specialize (V a J). nra.
Qed.

Section Terror.
Variable cf : config.
Variable lib : library.
Notation att := (cf_attrs cf).
Notation kind_of := (cf_kind cf).
Notation code := (terror_code cf lib).

(** * Calls *)
(** Nothing but draws and what has been computed of the network. *)
Definition same (r r' : trest) : Prop :=
  te_edges r' = te_edges r /\ te_belief r' = te_belief r /\ te_vuln r' = te_vuln r.
Lemma same_refl r : same r r.
Proof. now repeat split. Qed.
Lemma same_trans r1 r2 r3 : same r1 r2 -> same r2 r3 -> same r1 r3.
Proof. intros (A & B & C) (A' & B' & C'). repeat split; congruence. Qed.
(** What has been computed is of the present network, and the network stays. *)
Definition current (r : trest) : Prop :=
  (te_degree r = None \/ te_degree r = Some (te_edges r)) /\ (te_between r = None \/ te_between r = Some (te_edges r)).

Definition fresh (now : num) (r : trest) (g : graph) : Prop :=
  te_degree r = Some g /\ outdated false now r (te_degree r) = false.
Lemma degree_fresh now r g a : fresh now r g -> degree cf false now r a = (r, degree_centrality cf g a).
Proof. intros [G O]. unfold degree. rewrite O, G. reflexivity. Qed.
Lemma degree_makes now r a : exists r' g, degree cf false now r a = (r', degree_centrality cf g a) /\ fresh now r' g /\ same r r' /\
  te_draws r' = te_draws r /\ (current r -> current r').
Proof.
  unfold degree. destruct (outdated false now r (te_degree r)) eqn:O.
  - eexists _, (te_edges r). split; [reflexivity|]. split; [split; [reflexivity|]|].
    + unfold outdated. cbn. apply n_ltb_irrefl.
    + split; [now repeat split|]. split; [reflexivity|]. intros [_ H]. split; [now right|exact H].
  - destruct (te_degree r) as [g|] eqn:G; [|discriminate]. exists r, g. split; [reflexivity|].
    split; [split; [exact G|rewrite G; exact O]|]. split; [apply same_refl|auto].
Qed.
Lemma betweenness_keeps now r a : exists r' x, betweenness lib false now r a = (r', x) /\ same r r' /\ te_draws r' = te_draws r /\
  (current r -> current r').
Proof.
  unfold betweenness. destruct (outdated false now r (te_between r)) eqn:O.
  - eexists _, _. split; [reflexivity|]. split; [now repeat split|]. split; [reflexivity|]. intros [H _]. split; [exact H|now right].
  - eexists _, _. split; [reflexivity|]. split; [apply same_refl|auto].
Qed.

Lemma total_fresh now g l : forall r, fresh now r g -> total_degree cf now l r = (r, sum (degree_centrality cf g) l).
Proof.
  induction l as [|i l IH]; cbn [total_degree]; intros r H; [reflexivity|].
  rewrite (degree_fresh _ _ _ _ H), (IH _ H). reflexivity.
Qed.
Lemma total_makes now l r : l <> [] -> exists r' g, total_degree cf now l r = (r', sum (degree_centrality cf g) l) /\ fresh now r' g /\
  same r r' /\ te_draws r' = te_draws r /\ (current r -> current r').
Proof.
  destruct l as [|i l]; [congruence|]. intros _. cbn [total_degree].
  destruct (degree_makes now r i) as (r' & g & -> & F & H). rewrite (total_fresh _ _ _ _ F). exists r', g. auto.
Qed.
Lemma weighted_fresh now influence g l : forall r, fresh now r g -> ~ (influence == 0)%Q ->
  weighted cf now influence l r = (r, Some (sum (fun a => te_belief r a * degree_centrality cf g a / influence)%Q l)).
Proof.
  induction l as [|i l IH]; cbn [weighted]; intros r H N; [reflexivity|].
  rewrite (degree_fresh _ _ _ _ H). destruct (Qeq_bool influence 0) eqn:E; [apply Qeq_bool_iff in E; contradiction|].
  rewrite (IH _ H N). reflexivity.
Qed.
(** Both sums together: the mean, by degree. *)
Lemma mean_makes now l r : l <> [] -> exists r' g, fresh now r' g /\ same r r' /\ te_draws r' = te_draws r /\ (current r -> current r') /\
  (let '(r1, influence) := total_degree cf now l r in weighted cf now influence l r1) =
    (r', if Qeq_bool (sum (degree_centrality cf g) l) 0 then None
         else Some (sum (fun a => te_belief r a * degree_centrality cf g a / sum (degree_centrality cf g) l)%Q l)).
Proof.
  intros N. destruct (total_makes now l r N) as (r' & g & -> & F & SM & D & C). exists r', g.
  split; [exact F|]. split; [exact SM|]. split; [exact D|]. split; [exact C|].
  destruct (Qeq_bool (sum (degree_centrality cf g) l) 0) eqn:E.
  - destruct l as [|i l]; [congruence|]. cbn [weighted]. rewrite (degree_fresh _ _ _ _ F). now rewrite E.
  - rewrite (weighted_fresh _ _ g); auto. { destruct SM as (_ & -> & _). reflexivity. }
    intros X. apply Qeq_bool_iff in X. congruence.
Qed.
Lemma mean_is (w v : aid -> Q) l : (sum (fun a => v a * w a / sum w l)%Q l == mean_by w v l)%Q.
Proof. unfold mean_by, Qdiv. rewrite <- (sum_scale (fun a => v a * w a)%Q). reflexivity. Qed.

Lemma choose_met l : forall r k r', choose cf l r = (k, r') ->
  k = met (cf_interaction cf) (te_draws r) l /\ exists d, r' = set_draws r d.
Proof.
  induction l as [|i l IH]; cbn [choose]; intros r k r' E.
  - injection E as <- <-. split; [reflexivity|]. exists (te_draws r). now destruct r.
  - destruct (draw r) as [d r1] eqn:D. injection D as <- <-. destruct (choose cf l _) as [k1 r2] eqn:C.
    destruct (IH _ _ _ C) as [-> [d2 ->]]. injection E as <- <-. split; [|exists d2; reflexivity].
    unfold met. cbn [List.length seq map combine filter snd fst te_draws set_draws].
    rewrite <- seq_shift, map_map. cbn [set_draws te_draws]. now destruct (Qle_bool (te_draws r 0) (cf_interaction cf)).
Qed.
Lemma met_in prob draws l a : In a (met prob draws l) -> In a l.
Proof.
  unfold met. intros J. apply in_map_iff in J as ([x y] & <- & J). apply filter_In in J as [J _]. apply in_combine_l in J. exact J.
Qed.

Lemma above_keeps now a l : forall r r' b, above lib now a l r = (r', b) -> same r r' /\ (current r -> current r').
Proof.
  induction l as [|n l IH]; cbn [above]; intros r r' b E.
  - injection E as <- <-. split; [apply same_refl|auto].
  - destruct (betweenness_keeps now r n) as (r1 & x & E1 & S1 & _ & C1). rewrite E1 in E.
    destruct (betweenness_keeps now r1 a) as (r2 & y & E2 & S2 & _ & C2). rewrite E2 in E.
    pose proof (same_trans _ _ _ S1 S2) as S3. destruct (Qltb y x).
    + injection E as <- <-. auto.
    + destruct (IH _ _ _ E) as [S4 C4]. split; [eapply same_trans; eauto|auto].
Qed.
Lemma above'_keeps now a l : forall r r' b, above' lib now a l r = (r', b) -> same r r' /\ (current r -> current r').
Proof.
  induction l as [|n l IH]; cbn [above']; intros r r' b E.
  - injection E as <- <-. split; [apply same_refl|auto].
  - destruct (betweenness_keeps now r a) as (r1 & x & E1 & S1 & _ & C1). rewrite E1 in E.
    destruct (betweenness_keeps now r1 n) as (r2 & y & E2 & S2 & _ & C2). rewrite E2 in E.
    pose proof (same_trans _ _ _ S1 S2) as S3. destruct (Qltb x y).
    + injection E as <- <-. auto.
    + destruct (IH _ _ _ E) as [S4 C4]. split; [eapply same_trans; eauto|auto].
Qed.

(** * Activations *)
Lemma goto_value w a name r : exists g, goto w a name r = (r, [], g) /\
  ((exists st, g = GReturn (PState st) /\ match fa_kind (fw_agents w a) with KFsm states => dget name states = Some st | KPlain _ => False end)
   \/ g = GRaise false /\ match fa_kind (fw_agents w a) with KFsm states => dget name states = None | KPlain _ => True end).
Proof. unfold goto. destruct (fa_kind (fw_agents w a)); [destruct (dget name states) eqn:G|]; eauto 8. Qed.
Lemma resume_shape s a q w r ops g : c_resume code s a q w = (r, ops, g) ->
  ops = [] /\ match g with GYield _ _ => False | GReturn v => plain_value v | GRaise _ => True end.
Proof.
  revert s a q w r ops g. assert (G : forall w a name r r' ops g, goto w a name r = (r', ops, g) ->
    ops = [] /\ match g with GYield _ _ => False | GReturn v => plain_value v | GRaise _ => True end).
  { intros w a name r r' ops g E. destruct (goto_value w a name r) as (g' & E' & H). rewrite E' in E. injection E as <- <- <-.
    split; auto. destruct H as [(st & -> & _)|[-> _]]; [constructor|exact I]. }
  assert (X : forall s a f w r ops g, (match f with
         | FCivil => civilian_fn cf s a w
         | FLeader => leader_fn cf lib s a w
         | FTerrorist => terrorist_fn cf lib s a w
         | FNetTerrorist | FNetLeader => network_fn cf lib s a w
         | FTraining => training_fn cf lib s a w
         | FHavenCivil => haven_civilian_fn cf s a w
         | FHavenTerrorist => haven_terrorist_fn cf lib s a w
         | FDead => (fw_rest w, [], GReturn (PNum PInf))
         end) = (r, ops, g) -> ops = [] /\ match g with GYield _ _ => False | GReturn v => plain_value v | GRaise _ => True end).
  { intros s a f w r ops g. assert (RD : forall r0, radicalised w a r0 = (r, ops, g) ->
      ops = [] /\ match g with GYield _ _ => False | GReturn v => plain_value v | GRaise _ => True end).
    { intros r0. unfold radicalised. destruct (Qle_bool (4 # 5) (te_belief r0 a)); [apply G|intros [= <- <- <-]; split; [auto|constructor]]. }
    destruct f.
    - unfold civilian_fn. destruct (neighbors _ _ _ _) as [|b l]; [apply RD|].
      destruct (choose cf (b :: l) (fw_rest w)) as [k r1]. destruct (total_degree _ _ _ _) as [r2 i].
      destruct (weighted _ _ _ _ _) as [r3 [m|]]; [apply RD|intros [= <- <- <-]; auto].
    - unfold leader_fn. destruct (above _ _ _ _ _) as [r2 [|]]; [apply G|intros [= <- <- <-]; split; [auto|constructor]].
    - unfold terrorist_fn. set (r3 := match _ with [] => _ | _ => _ end). destruct r3 as [r2 [|]]; [|intros [= <- <- <-]; auto].
      destruct (filter _ _); [|intros [= <- <- <-]; split; [auto|constructor]].
      destruct (above' _ _ _ _ _) as [r4 [|]]; [intros [= <- <- <-]; split; [auto|constructor]|apply G].
    - unfold network_fn. intros [= <- <- <-]; auto.
    - unfold network_fn. intros [= <- <- <-]; auto.
    - unfold training_fn. intros [= <- <- <-]; split; [auto|constructor].
    - unfold haven_civilian_fn. destruct (neighbors _ _ _ _); apply G.
    - unfold haven_terrorist_fn. apply G.
    - intros [= <- <- <-]; split; [auto|constructor]. }
  intros s a q w r ops g E. cbn [c_resume terror_code] in E.
  match type of E with (let '(_, _) := ?t in _) = _ => destruct t as [[r0 ops0] g0] eqn:E0 end.
  destruct (X s a q w _ _ _ E0) as [-> H]. injection E as <- <- <-. destruct g0; auto.
Qed.
Lemma plain_terror : plain_code code.
Proof. intros s a q w r ops g E. apply (resume_shape _ _ _ _ _ _ _ E). Qed.

(** An activation of an agent that is not suspended. *)
Lemma activated fs s a w c w' c' l o states st : rested c -> fa_kind (fw_agents w a) = KFsm states ->
  fa_alive (fw_agents w a) = true -> fa_cur (fw_agents w a) = Some st ->
  agent_step code fs s a (w, c) = (w', c', l, o) ->
  rested c' /\ l = [] /\ (forall b, b <> a -> get_co c' b = get_co c b) /\
  (get_co c a = Some GDone /\ w' = w /\ o = Ret None \/
   get_co c a = None /\ exists r g, c_resume code s a (st_fun st) w = (r, [], g) /\ fw_rest w' = r /\
     (forall b, b <> a -> fw_agents w' b = fw_agents w b) /\
     fw_agents w' a = set_cur (fw_agents w a) (match g with GReturn v => goes_to v (Some st) | _ => Some st end) /\
     match g with GYield _ _ => False | GReturn v => plain_value v /\ o = ends_in v | GRaise d => o = (if d then Dead else Exc) end).
Proof.
  intros R K A C E.
  destruct (plain_step code fs s a w c w' c' l o states plain_terror R K E) as [R' _]. split; [exact R'|].
  assert (NS : get_co c a <> Some (GSusp FStart)) by (destruct (R a) as [->| ->]; discriminate).
  destruct (yield_step code fs s a w c w' c' l o states) as [(-> & -> & H)|H]; auto.
  { intros q r ops g _ CR. pose proof (plain_terror _ _ _ _ _ _ _ CR) as X. destruct g; auto. }
  - split; [reflexivity|]. destruct H as [(G & [_ CO] & ->)|(G & _ & [[X _]|(_ & X & _)])]; [|congruence|congruence].
    split; [exact CO|left; auto].
  - destruct H as (q & r & ops & g & w1 & RS & CR & RF & H). destruct (resume_shape _ _ _ _ _ _ _ CR) as [-> P].
    injection RF as <- <-. split; [reflexivity|]. destruct RS as [X|(st' & G & _ & C' & ->)].
    { destruct (R a) as [Y|Y]; congruence. }
    assert (CO : exists x, co_after c c' a x).
    { destruct g; [destruct P|destruct H as (X & _); eauto|destruct H as (_ & X & _); eauto]. }
    split; [destruct CO as [x [_ X]]; exact X|].
    rewrite C in C'. injection C' as <-. right. split; [exact G|]. exists r, g. split; [exact CR|].
    assert (ID : fw_agents w a = set_cur (fw_agents w a) (Some st)) by (rewrite <- C; now destruct (fw_agents w a)).
    destruct g as [v q'|v|d].
    + destruct P.
    + destruct H as (_ & PV & -> & H1 & H2 & H3). cbn [fw_rest fw_agents] in *. rewrite C in H3. auto.
    + destruct H as (-> & _ & ->). cbn [fw_rest fw_agents]. auto.
Qed.

(** * What is always so *)
Definition allowed (k : akind) : list (state tfun) :=
  match k with
  | ASpread => [civilian; leader; terrorist]
  | ANetwork => [civilian; net_leader; net_terrorist]
  | ATraining => [training]
  | AHaven => [haven_civilian; haven_terrorist]
  end.
Definition states_of (k : akind) := fst (meta (class_of k)).
Definition peaceful (st : state tfun) : Prop := st_name st = "civilian".
Record person_ok (w : tworld) (a : aid) (st : state tfun) : Prop := {
  po_kind : fa_kind (fw_agents w a) = KFsm (states_of (kind_of a));
  po_alive : fa_alive (fw_agents w a) = true;
  po_cur : fa_cur (fw_agents w a) = Some st;
  po_allowed : In st (allowed (kind_of a));
  po_belief : share (te_belief (fw_rest w) a);
  po_vuln : share (te_vuln (fw_rest w) a);
  po_radical : person cf a -> ~ peaceful st -> (4 # 5 <= te_belief (fw_rest w) a)%Q }.
Definition society_inv (reg : list aid) (x : tworld * cors (frame tfun)) : Prop :=
  rested (snd x) /\ forall a, exists st, person_ok (fst x) a st.

(** What the function of a state may do. *)
Definition allows (w : tworld) (a : aid) (st : state tfun) (r : trest) (g : gout tfun (pyval tfun)) : Prop :=
  (forall b, share (te_belief r b) /\ share (te_vuln r b)) /\
  (forall b, b <> a -> te_belief r b = te_belief (fw_rest w) b) /\
  exists st', match g with GReturn v => goes_to v (Some st) | _ => Some st end = Some st' /\ In st' (allowed (kind_of a)) /\
    (~ peaceful st -> ~ peaceful st') /\ (person cf a -> ~ peaceful st' -> (4 # 5 <= te_belief r a)%Q).

Section Sound.
Hypothesis POW : powers (l_pow lib).
Hypothesis ATT : sound att.

Lemma share_minus x : share x -> share (1 - x).
Proof. unfold share. intros [A B]. split; lra. Qed.
Lemma pow_share x y : share x -> share y -> share (l_pow lib x y).
Proof. intros X Y. destruct (POW x y X Y). destruct X. split; lra. Qed.
Lemma share_mult x y : share x -> share y -> share (x * y).
Proof. unfold share. intros [A B] [C D]. split; nra. Qed.
Lemma share_mix x y i : share x -> share y -> share i -> share (x * i + y * (1 - i)).
Proof. unfold share. intros [A B] [C D] [E F]. split; nra. Qed.

Lemma degree_nonneg g a : (0 <= degree_centrality cf g a)%Q.
Proof.
  unfold degree_centrality. destruct (cf_nodes cf <=? 1)%nat; [discriminate|].
  unfold Qdiv. apply Qmult_le_0_compat; [|apply Qinv_le_0_compat]; change 0%Q with (inject_Z 0); rewrite <- Zle_Qle; lia.
Qed.
Lemma mean_share l r now r1 influence r2 m : (forall a, share (te_belief r a)) ->
  total_degree cf now l r = (r1, influence) -> weighted cf now influence l r1 = (r2, Some m) -> share m.
Proof.
  intros B E1 E2. destruct l as [|i l].
  { cbn in E1, E2. injection E1 as <- <-. injection E2 as <- <-. split; discriminate. }
  destruct (mean_makes now (i :: l) r) as (r' & g & _ & _ & _ & _ & H); [discriminate|]. rewrite E1, E2 in H.
  destruct (Qeq_bool _ 0) eqn:Z; [discriminate|]. injection H as <- ->. unfold share. rewrite (mean_is (degree_centrality cf g) (te_belief r) (i :: l)).
  apply mean_between.
  - intros a _. apply degree_nonneg.
  - intros a _. apply B.
  - intros X. apply Qeq_bool_iff in X. congruence.
Qed.
Lemma sums_same now l r : let '(r1, influence) := total_degree cf now l r in
  forall r2 m, weighted cf now influence l r1 = (r2, m) -> same r r2 /\ (current r -> current r2).
Proof.
  destruct l as [|i l].
  { cbn. intros r2 m [= <- <-]. split; [apply same_refl|auto]. }
  destruct (mean_makes now (i :: l) r) as (r' & g & _ & SM & _ & CU & H); [discriminate|].
  destruct (total_degree cf now (i :: l) r) as [r1 influence]. intros r2 m E. rewrite E in H. injection H as -> ->. auto.
Qed.

Lemma goto_step w a st name st' r r' ops g : fa_kind (fw_agents w a) = KFsm (states_of (kind_of a)) ->
  dget name (states_of (kind_of a)) = Some st' -> In st' (allowed (kind_of a)) ->
  (~ peaceful st -> ~ peaceful st') -> (person cf a -> ~ peaceful st' -> (4 # 5 <= te_belief r a)%Q) ->
  (forall b, share (te_belief r b) /\ share (te_vuln r b)) -> (forall b, b <> a -> te_belief r b = te_belief (fw_rest w) b) ->
  goto w a name r = (r', ops, g) ->
  allows w a st r' (match g with GYield v _ => GYield v (st_fun st) | GReturn v => GReturn v | GRaise d => GRaise d end) /\
  g = GReturn (PState st') /\ r' = r.
Proof.
  intros K G A NP RA SH OT E. unfold goto in E. rewrite K, G in E. injection E as <- <- <-. split; [|auto].
  split; [exact SH|]. split; [exact OT|]. exists st'. cbn [goes_to]. auto.
Qed.

(** The effect of training areas and havens. *)
Definition change (p : Q -> bool) (h : Q -> Q) (r : trest) (b : aid) : trest :=
  if p (te_vuln r b) then set_vuln r b (h (te_vuln r b)) else r.
Lemma change_fold p h l : forall r, let r' := fold_left (change p h) l r in
  te_edges r' = te_edges r /\ te_belief r' = te_belief r /\ te_draws r' = te_draws r /\ te_degree r' = te_degree r /\
  te_between r' = te_between r /\
  ((forall x, share x -> share (h x)) -> (forall b, share (te_vuln r b)) -> forall b, share (te_vuln r' b)) /\
  (NoDup l -> forall b, te_vuln r' b = if existsb (Nat.eqb b) l && p (te_vuln r b) then h (te_vuln r b) else te_vuln r b).
Proof.
  induction l as [|a l IH]; intros r; cbn [fold_left]; cbv zeta.
  { repeat split; auto. apply H0. apply H0. }
  destruct (IH (change p h r a)) as (A & B & C & D & E & F & G).
  assert (X : te_edges (change p h r a) = te_edges r /\ te_belief (change p h r a) = te_belief r /\
    te_draws (change p h r a) = te_draws r /\ te_degree (change p h r a) = te_degree r /\ te_between (change p h r a) = te_between r).
  { unfold change. destruct (p (te_vuln r a)); repeat split. }
  assert (V : forall b, te_vuln (change p h r a) b = if Nat.eqb b a && p (te_vuln r b) then h (te_vuln r b) else te_vuln r b).
  { intros b. unfold change. destruct (p (te_vuln r a)) eqn:P; cbn [set_vuln te_vuln]; unfold put.
    - destruct (Nat.eqb b a) eqn:N; cbn [andb]; auto. apply Nat.eqb_eq in N. subst b. now rewrite P.
    - destruct (Nat.eqb b a) eqn:N; cbn [andb]; auto. apply Nat.eqb_eq in N. subst b. now rewrite P. }
  destruct X as (X1 & X2 & X3 & X4 & X5). repeat split; try congruence.
  - apply F; auto. intros b'. rewrite V. destruct (_ && _); auto.
  - apply F; auto. intros b'. rewrite V. destruct (_ && _); auto.
  - intros N b. inversion N as [|? ? NI N']; subst. rewrite (G N' b), !V. cbn [existsb].
    destruct (Nat.eqb b a) eqn:Q; cbn [orb andb]; auto. apply Nat.eqb_eq in Q. subst b.
    assert (Z : existsb (Nat.eqb a) l = false).
    { apply not_true_iff_false. intros H. apply existsb_exists in H as (y & J & H). apply Nat.eqb_eq in H. subst y. contradiction. }
    rewrite Z. reflexivity.
Qed.

Lemma radical_step s w a r0 r ops g : cf_kind cf a = ASpread \/ cf_kind cf a = ANetwork ->
  person_ok w a civilian -> (forall b, share (te_belief r0 b) /\ share (te_vuln r0 b)) ->
  (forall b, b <> a -> te_belief r0 b = te_belief (fw_rest w) b) -> radicalised w a r0 = (r, ops, g) ->
  allows w a civilian r (match g with GYield v _ => GYield v (st_fun civilian) | GReturn v => GReturn v | GRaise d => GRaise d end) /\
  (s = s :> sched -> r = r0 /\ exists v, g = GReturn v).
Proof.
  intros KA OK SH OT E. unfold radicalised in E. destruct (Qle_bool (4 # 5) (te_belief r0 a)) eqn:L.
  - apply Qle_bool_iff in L.
    assert (exists st', dget "terrorist" (states_of (kind_of a)) = Some st' /\ In st' (allowed (kind_of a))) as (st' & G & I1).
    { destruct KA as [-> | ->]; eexists; (split; [reflexivity|cbn; auto]). }
    destruct (goto_step w a civilian "terrorist" st' r0 r ops g) as (AL & -> & ->); auto.
    + apply OK.
    + intros N. destruct N. reflexivity.
    + split; [exact AL|]. intros _. split; eauto.
  - injection E as <- <- <-. split; [|split; eauto]. split; [exact SH|]. split; [exact OT|]. exists civilian. cbn [goes_to].
    split; [reflexivity|]. split; [apply OK|]. split; [auto|]. intros _ N. destruct N. reflexivity.
Qed.

Definition wrap (st : state tfun) (g : gout unit (pyval tfun)) : gout tfun (pyval tfun) :=
  match g with GYield v _ => GYield v (st_fun st) | GReturn v => GReturn v | GRaise d => GRaise d end.
Definition everyone (w : tworld) : Prop := forall b, exists st, person_ok w b st.
Lemma shares w : everyone w -> forall b, share (te_belief (fw_rest w) b) /\ share (te_vuln (fw_rest w) b).
Proof. intros H b. destruct (H b) as (st & OK). split; apply OK. Qed.
Lemma put_at {V} (f : aid -> V) a v : put f a v a = v.
Proof. unfold put. now rewrite Nat.eqb_refl. Qed.
Lemma put_other {V} (f : aid -> V) a v b : b <> a -> put f a v b = f b.
Proof. intros N. unfold put. apply Nat.eqb_neq in N. now rewrite N. Qed.
Lemma put_share (f : aid -> Q) a v : (forall b, share (f b)) -> share v -> forall b, share (put f a v b).
Proof. intros F S b. unfold put. destruct (Nat.eqb b a); auto. Qed.

Lemma civilian_allows s w a r ops g : cf_kind cf a = ASpread \/ cf_kind cf a = ANetwork -> everyone w -> person_ok w a civilian ->
  civilian_fn cf s a w = (r, ops, g) -> allows w a civilian r (wrap civilian g).
Proof.
  intros KA EV OK E. pose proof (shares w EV) as SH. unfold civilian_fn in E. destruct (neighbors s (fw_rest w) a (a_spread cf)) as [|b l].
  { eapply (radical_step s); eauto. }
  destruct (choose cf (b :: l) (fw_rest w)) as [k r1] eqn:C. destruct (choose_met _ _ _ _ C) as [_ [d ->]].
  pose proof (sums_same (s_time s) k (set_draws (fw_rest w) d)) as SS.
  destruct (total_degree cf (s_time s) k (set_draws (fw_rest w) d)) as [r2 inf] eqn:T.
  destruct (weighted cf (s_time s) inf k r2) as [r3 [m|]] eqn:W.
  - destruct (SS _ _ eq_refl) as [(_ & B3 & V3) _]. cbn [set_draws te_belief te_vuln] in B3, V3.
    pose proof (mean_share k (set_draws (fw_rest w) d) _ _ _ _ _ (fun b => proj1 (SH b)) T W) as M.
    eapply (radical_step s); [exact KA|exact OK| | |exact E].
    + intros c. cbn [set_belief te_belief te_vuln]. rewrite V3. split; [|apply SH]. apply put_share.
      * intros c'. rewrite B3. apply SH.
      * unfold influenced. rewrite B3, V3. apply share_mix; [|apply SH|apply SH]. apply share_mix; [exact M|apply SH|apply ATT].
    + intros c N. cbn [set_belief te_belief]. rewrite put_other by exact N. now rewrite B3.
  - destruct (SS _ _ eq_refl) as [(_ & B3 & V3) _]. cbn [set_draws te_belief te_vuln] in B3, V3.
    injection E as <- <- <-. split; [intros c; rewrite B3, V3; apply SH|]. split; [intros c _; now rewrite B3|].
    exists civilian. cbn [wrap]. split; [reflexivity|]. split; [apply OK|]. split; auto. intros _ N. destruct N. reflexivity.
Qed.
Lemma more_belief x y : (4 # 5 <= x)%Q -> share x -> share y -> (4 # 5 <= l_pow lib x y)%Q.
Proof. intros L X Y. destruct (POW x y X Y). lra. Qed.
Lemma additional_share : share (1 - additional att).
Proof. apply share_minus, ATT. Qed.
Lemma leader_allows s w a r ops g : cf_kind cf a = ASpread -> everyone w -> person_ok w a leader ->
  leader_fn cf lib s a w = (r, ops, g) -> allows w a leader r (wrap leader g).
Proof.
  intros KA EV OK E. pose proof (shares w EV) as SH. unfold leader_fn in E.
  set (r1 := set_belief _ _ _) in E. destruct (above lib (s_time s) a _ r1) as [r2 b] eqn:AB.
  destruct (above_keeps _ _ _ _ _ _ AB) as [(_ & B & V) _]. subst r1. cbn [set_belief te_belief te_vuln] in B, V.
  assert (H1 : forall b, share (te_belief r2 b) /\ share (te_vuln r2 b)).
  { intros c. rewrite B, V. split; [|apply SH]. apply put_share; [intros; apply SH|]. apply pow_share; [apply SH|apply additional_share]. }
  assert (H2 : forall b, b <> a -> te_belief r2 b = te_belief (fw_rest w) b).
  { intros c N. rewrite B. now apply put_other. }
  assert (H3 : (4 # 5 <= te_belief r2 a)%Q).
  { rewrite B, put_at. apply more_belief; [|apply SH|apply additional_share]. apply OK; [now left|discriminate]. }
  destruct b.
  - eapply (goto_step w a leader "terrorist" terrorist r2); eauto; [apply OK|now rewrite KA|rewrite KA; cbn; auto|discriminate].
  - injection E as <- <- <-. split; [exact H1|]. split; [exact H2|]. exists leader. cbn [goes_to wrap].
    split; [reflexivity|]. split; [apply OK|]. auto.
Qed.
Lemma terrorist_allows s w a r ops g : cf_kind cf a = ASpread -> everyone w -> person_ok w a terrorist ->
  terrorist_fn cf lib s a w = (r, ops, g) -> allows w a terrorist r (wrap terrorist g).
Proof.
  intros KA EV OK E. pose proof (shares w EV) as SH. unfold terrorist_fn in E.
  set (l := neighbors _ _ _ _) in E. set (r3 := match l with [] => _ | _ => _ end) in E.
  assert (OB : (4 # 5 <= te_belief (fw_rest w) a)%Q) by (apply OK; [now left|discriminate]).
  assert (H : forall r2 b, r3 = (r2, b) -> (forall b, share (te_belief r2 b) /\ share (te_vuln r2 b)) /\
    (forall b, b <> a -> te_belief r2 b = te_belief (fw_rest w) b) /\ (4 # 5 <= te_belief r2 a)%Q).
  { intros r2 b. subst r3. destruct l as [|i l']; [intros [= <- <-]; auto|].
    pose proof (sums_same (s_time s) (i :: l') (fw_rest w)) as SS.
    destruct (total_degree cf (s_time s) (i :: l') (fw_rest w)) as [r1 inf].
    destruct (weighted cf (s_time s) inf (i :: l') r1) as [r4 [m|]]; destruct (SS _ _ eq_refl) as [(_ & B & V) _].
    - intros [= <- <-]. cbn [set_belief te_belief te_vuln]. rewrite B, V, put_at. split; [|split].
      + intros c. split; [|apply SH]. apply put_share; [intros; apply SH|]. apply pow_share; [apply SH|apply additional_share].
      + intros c N. now apply put_other.
      + apply more_belief; [exact OB|apply SH|apply additional_share].
    - intros [= <- <-]. rewrite B, V. auto. }
  destruct r3 as [r2 [|]]; destruct (H _ _ eq_refl) as (H1 & H2 & H3).
  - destruct (filter _ l).
    + destruct (above' lib (s_time s) a l r2) as [r4 b] eqn:AB. destruct (above'_keeps _ _ _ _ _ _ AB) as [(_ & B & V) _].
      assert (H1' : forall b, share (te_belief r4 b) /\ share (te_vuln r4 b)) by (intros c; rewrite B, V; apply H1).
      assert (H2' : forall b, b <> a -> te_belief r4 b = te_belief (fw_rest w) b) by (intros c N; rewrite B; auto).
      rewrite <- B in H3. destruct b.
      * injection E as <- <- <-. split; [exact H1'|]. split; [exact H2'|]. exists terrorist. cbn [goes_to wrap].
        split; [reflexivity|]. split; [apply OK|]. auto.
      * eapply (goto_step w a terrorist "leader" leader r4); eauto; [apply OK|now rewrite KA|rewrite KA; cbn; auto|discriminate].
    + injection E as <- <- <-. split; [exact H1|]. split; [exact H2|]. exists terrorist. cbn [goes_to wrap].
      split; [reflexivity|]. split; [apply OK|]. auto.
  - injection E as <- <- <-. split; [exact H1|]. split; [exact H2|]. exists terrorist. cbn [wrap].
    split; [reflexivity|]. split; [apply OK|]. auto.
Qed.
Lemma new_relationship_keeps w a l : forall r r' b, new_relationship cf lib w a l r = (r', b) ->
  te_belief r' = te_belief r /\ te_vuln r' = te_vuln r.
Proof.
  induction l as [|i l IH]; cbn [new_relationship]; intros r r' b E; [injection E as <- <-; auto|].
  destruct (l_path_length lib (te_edges r) a i) as [[|n]|].
  - injection E as <- <-; auto.
  - destruct (l_distance lib a i); [|injection E as <- <-; auto]. destruct (state_in w ["civilian"] i); [|eauto].
    destruct (draw r) as [x r1] eqn:D. injection D as <- <-. destruct (Qltb _ _); [injection E as <- <-; auto|].
    apply IH in E. exact E.
  - destruct (l_distance lib a i); [|injection E as <- <-; auto]. destruct (state_in w ["civilian"] i); [|eauto].
    destruct (draw r) as [x r1] eqn:D. injection D as <- <-. destruct (Qltb _ _); [injection E as <- <-; auto|].
    apply IH in E. exact E.
Qed.
Lemma network_allows s w a st r ops g : everyone w -> person_ok w a st -> 
  network_fn cf lib s a w = (r, ops, g) -> allows w a st r (wrap st g).
Proof.
  intros EV OK E. pose proof (shares w EV) as SH. unfold network_fn in E. injection E as <- <- <-.
  assert (B : te_belief (fst (update_relationships cf lib s a w)) = te_belief (fw_rest w) /\
    te_vuln (fst (update_relationships cf lib s a w)) = te_vuln (fw_rest w)).
  { unfold update_relationships. destruct (neighbors _ _ _ _); [|auto]. destruct (l_geo_search _ _ _); [|auto].
    destruct (l_ego_search _ _ _); [|auto]. destruct (new_relationship _ _ _ _ _ _) as [r' b] eqn:N.
    apply (new_relationship_keeps _ _ _ _ _ _ N). }
  destruct B as [B V]. unfold allows. rewrite B, V. split; [exact SH|]. split; [auto|]. exists st. cbn [wrap].
  split; [reflexivity|]. split; [apply OK|]. split; [auto|]. apply OK.
Qed.
Lemma training_allows s w a r ops g : cf_kind cf a = ATraining -> everyone w -> person_ok w a training ->
  training_fn cf lib s a w = (r, ops, g) -> allows w a training r (wrap training g).
Proof.
  intros KA EV OK E. pose proof (shares w EV) as SH. unfold training_fn in E. injection E as <- <- <-.
  destruct (change_fold (Qltb (train_min att)) (fun v => l_pow lib v (1 - train_influence att)) (neighbors s (fw_rest w) a (a_spread cf)) (fw_rest w))
    as (_ & B & _ & _ & _ & V & _). unfold change in B, V. cbv beta zeta in B, V. unfold allows. rewrite B.
  split.
  - intros b. split; [apply SH|]. apply V; [|intros; apply SH]. intros x X. apply pow_share; auto. apply share_minus, ATT.
  - split; [auto|]. exists training. cbn [wrap goes_to]. split; [reflexivity|]. split; [apply OK|]. split; [auto|]. apply OK.
Qed.
Lemma haven_civilian_allows s w a r ops g : cf_kind cf a = AHaven -> everyone w -> person_ok w a haven_civilian ->
  haven_civilian_fn cf s a w = (r, ops, g) -> allows w a haven_civilian r (wrap haven_civilian g).
Proof.
  intros KA EV OK E. pose proof (shares w EV) as SH. unfold haven_civilian_fn in E.
  assert (NP : forall P : Prop, person cf a -> P) by (intros P [X|X]; congruence).
  destruct (neighbors s (fw_rest w) a (fun _ => _)) as [|i l].
  - eapply (goto_step w a haven_civilian "terrorist" haven_terrorist (fw_rest w)); eauto;
      [apply OK|now rewrite KA|rewrite KA; cbn; auto|intros N; destruct N; reflexivity|intros X; now apply NP].
  - destruct (change_fold (Qltb (haven_min att)) (fun v => v * (1 - haven_influence att))%Q (neighbors s (fw_rest w) a (a_spread cf)) (fw_rest w))
      as (_ & B & _ & _ & _ & V & _). unfold change in B, V. cbv beta zeta in B, V.
    eapply (goto_step w a haven_civilian "civilian" haven_civilian); [apply OK|now rewrite KA|rewrite KA; cbn; auto|auto|intros X; now apply NP| | |exact E].
    + intros b. rewrite B. split; [apply SH|]. apply V; [|intros; apply SH]. intros x X. apply share_mult; auto. apply share_minus, ATT.
    + intros b _. now rewrite B.
Qed.
Lemma haven_terrorist_allows s w a r ops g : cf_kind cf a = AHaven -> everyone w -> person_ok w a haven_terrorist ->
  haven_terrorist_fn cf lib s a w = (r, ops, g) -> allows w a haven_terrorist r (wrap haven_terrorist g).
Proof.
  intros KA EV OK E. pose proof (shares w EV) as SH. unfold haven_terrorist_fn in E.
  assert (NP : forall P : Prop, person cf a -> P) by (intros P [X|X]; congruence).
  destruct (change_fold (fun v => Qltb v (haven_max att)) (fun v => l_pow lib v (1 - haven_influence att)) (neighbors s (fw_rest w) a (a_spread cf)) (fw_rest w))
    as (_ & B & _ & _ & _ & V & _). unfold change in B, V. cbv beta zeta in B, V.
  eapply (goto_step w a haven_terrorist "terrorist" haven_terrorist); [apply OK|now rewrite KA|rewrite KA; cbn; auto|auto|intros X; now apply NP| | |exact E].
  + intros b. rewrite B. split; [apply SH|]. apply V; [|intros; apply SH]. intros x X. apply pow_share; auto. apply share_minus, ATT.
  + intros b _. now rewrite B.
Qed.

Lemma resume_allows s w a st r g : everyone w -> person_ok w a st -> c_resume code s a (st_fun st) w = (r, [], g) -> allows w a st r g.
Proof.
  intros EV OK E. cbn [c_resume terror_code] in E.
  pose proof (po_allowed _ _ _ OK) as A. destruct (kind_of a) eqn:K; cbn [allowed In] in A;
    repeat match type of A with _ \/ _ => destruct A as [<-|A] end; try (now destruct A); cbn [st_fun] in E;
    match type of E with (let '(_, _) := ?t in _) = _ => destruct t as [[r0 ops0] g0] eqn:E0; injection E as <- -> <- end.
  - apply (civilian_allows s w a _ [] g0); auto.
  - apply (leader_allows s w a _ [] g0); auto.
  - apply (terrorist_allows s w a _ [] g0); auto.
  - apply (civilian_allows s w a _ [] g0); auto.
  - exact (network_allows _ _ _ net_leader _ _ _ EV OK E0).
  - exact (network_allows _ _ _ net_terrorist _ _ _ EV OK E0).
  - apply (training_allows s w a _ [] g0); auto.
  - apply (haven_civilian_allows s w a _ [] g0); auto.
  - apply (haven_terrorist_allows s w a _ [] g0); auto.
Qed.

(** One activation. *)
Lemma society_step fs s a w c w' c' l o : society_inv (s_reg s) (w, c) -> agent_step code fs s a (w, c) = (w', c', l, o) ->
  l = [] /\ society_inv (s_reg s) (w', c') /\
  (forall b, b <> a -> fw_agents w' b = fw_agents w b /\ get_co c' b = get_co c b /\ believes w' b = believes w b) /\
  (forall st st', fa_cur (fw_agents w a) = Some st -> fa_cur (fw_agents w' a) = Some st' -> ~ peaceful st -> ~ peaceful st').
Proof.
  intros [R EV] E. cbn [fst snd] in R, EV. destruct (EV a) as (st & OK).
  destruct (activated fs s a w c w' c' l o _ st R (po_kind _ _ _ OK) (po_alive _ _ _ OK) (po_cur _ _ _ OK) E) as (R' & -> & CO & H).
  split; [reflexivity|]. destruct H as [(_ & -> & _)|(_ & r & g & CR & F & OT & ME & _)].
  - split; [split; auto|]. split; [auto|]. intros x y X Y. congruence.
  - destruct (resume_allows s w a st r g EV OK CR) as (SH & OB & st' & GO & A & NP & RA).
    assert (M : fw_agents w' a = set_cur (fw_agents w a) (Some st')).
    { rewrite ME. now rewrite GO. }
    split; [|split].
    + split; [exact R'|]. intros b. destruct (Nat.eq_dec b a) as [->|N].
      * exists st'. constructor; cbn [fst]; rewrite ?M, ?F; cbn [set_cur fa_kind fa_alive fa_cur]; auto; try apply OK; apply SH.
      * destruct (EV b) as (sb & OKb). exists sb. constructor; cbn [fst]; rewrite ?(OT b N), ?F; try apply OKb; try apply SH.
        rewrite (OB b N). apply OKb.
    + intros b N. split; [auto|]. split; [auto|]. unfold believes. rewrite F. auto.
    + intros x y X Y. rewrite (po_cur _ _ _ OK) in X. injection X as <-. rewrite M in Y. injection Y as <-. exact NP.
Qed.

(** * Runs *)
Notation listed := (fun (_ : tworld * cors (frame tfun)) (_ : aid) => True).
(** The invariant, and that this agent is no civilian. *)
Definition lost (a : aid) (reg : list aid) (x : tworld * cors (frame tfun)) : Prop :=
  society_inv reg x /\ forall st, fa_cur (fw_agents (fst x) a) = Some st -> ~ peaceful st.
Lemma society_step_inv shuffle : step_inv (terror_user cf lib shuffle) society_inv listed.
Proof.
  intros s a [w c] [w' c'] ops o I _ E. destruct (society_step _ _ _ _ _ _ _ _ _ I E) as (-> & I' & _). repeat split; auto; apply I'.
Qed.
Lemma draws_inv reg w d c : society_inv reg (w, c) -> society_inv reg (FWorld (fw_agents w) (set_draws (fw_rest w) d), c).
Proof.
  intros [R EV]. split; [exact R|]. intros a. destruct (EV a) as (st & OK). exists st. destruct OK. constructor; assumption.
Qed.
Lemma shuffled shuffle l w c w' c' l' : fair shuffle -> u_shuffle (terror_user cf lib shuffle) l (w, c) = ((w', c'), l') ->
  c' = c /\ Permutation l l' /\ exists d, w' = FWorld (fw_agents w) (set_draws (fw_rest w) d).
Proof.
  intros FA E. cbn in E. pose proof (FA l (fw_rest w)) as F. destruct (shuffle l (fw_rest w)) as [r' l0]. injection E as <- <- <-.
  destruct F as (P & d & ->). eauto.
Qed.
Lemma society_shuffle_inv shuffle : fair shuffle -> shuffle_inv (terror_user cf lib shuffle) society_inv listed.
Proof.
  intros FA l reg [w c] [w' c'] l' I E. destruct (shuffled _ _ _ _ _ _ _ FA E) as (-> & P & d & ->).
  split; [now apply draws_inv|]. split; [auto|]. intros b J. eapply Permutation_in; [apply Permutation_sym; exact P|exact J].
Qed.
Lemma lost_step_inv a shuffle : step_inv (terror_user cf lib shuffle) (lost a) listed.
Proof.
  intros s b [w c] [w' c'] ops o [I L] _ E. destruct (society_step _ _ _ _ _ _ _ _ _ I E) as (-> & I' & OT & NP).
  split; [|auto]. split; [exact I'|]. cbn [fst] in *. intros st C. destruct (Nat.eq_dec a b) as [->|N].
  - destruct I as [_ EV]. destruct (EV b) as (st0 & OK). eapply NP; eauto. apply OK. apply L. apply OK.
  - apply L. destruct (OT a N) as (<- & _). exact C.
Qed.
Lemma lost_shuffle_inv a shuffle : fair shuffle -> shuffle_inv (terror_user cf lib shuffle) (lost a) listed.
Proof.
  intros FA l reg [w c] [w' c'] l' [I L] E. destruct (shuffled _ _ _ _ _ _ _ FA E) as (-> & P & d & ->).
  split; [split; [now apply draws_inv|exact L]|]. split; [auto|]. intros b J. eapply Permutation_in; [apply Permutation_sym; exact P|exact J].
Qed.

Lemma uniform_share x y d : (0 <= x)%Q -> (x <= y)%Q -> (y <= 1)%Q -> share d -> share (uniform x y d).
Proof. unfold share, uniform. intros A B C [D E]. split; nra. Qed.
Lemma society_start ids g d1 d2 draws : (forall a, valid_id (kind_of a) (ids a)) -> (forall a, share (d1 a)) -> (forall a, share (d2 a)) ->
  everyone (society cf ids g d1 d2 draws).
Proof.
  intros V D1 D2 a. specialize (V a). specialize (D1 a). specialize (D2 a).
  assert (VU : share (new_vuln cf (kind_of a) (d2 a))).
  { unfold new_vuln. destruct (is_spread (kind_of a)); [|split; discriminate]. apply uniform_share; try apply ATT; auto. }
  unfold valid_id in V.
  assert (B0 : share 0) by (split; discriminate). assert (B1 : share 1) by (split; discriminate).
  assert (BC : share (uniform 0 (1 # 2) (d1 a))) by (apply uniform_share; auto; discriminate).
  assert (share (uniform (4 # 5) 1 (d1 a)) /\ (4 # 5 <= uniform (4 # 5) 1 (d1 a))%Q) as [BT1 BT2].
  { split; [apply uniform_share; auto; discriminate|]. unfold uniform. destruct D1. nra. }
  assert (BL : (4 # 5 <= 1)%Q) by discriminate.
  assert (NP : forall P : Prop, kind_of a = ATraining \/ kind_of a = AHaven -> person cf a -> P) by (intros P [X|X] [Y|Y]; congruence).
  destruct (kind_of a) eqn:K; destruct (ids a) as [x|] eqn:ID; cbn [In] in V;
    repeat match type of V with _ \/ _ => destruct V as [<-|V] end; try (now destruct V);
    (eexists; constructor; cbn [society fw_agents fw_rest te_belief te_vuln];
     [rewrite K, ID; reflexivity|rewrite K, ID; reflexivity|rewrite K, ID; reflexivity|rewrite K; cbn; auto|rewrite K, ID; cbn; auto|rewrite K; auto|]);
    try (intros X; apply (NP _ (or_introl eq_refl) X)); try (intros X; apply (NP _ (or_intror eq_refl) X)).
  all: rewrite ?K, ?ID; cbn; intros X Y; try (destruct Y; reflexivity); auto.
Qed.
Lemma society_starts {AR : Arith} shuffle ordered di ids g d1 d2 draws n s w c tr :
  society_run cf lib shuffle ordered di ids g d1 d2 draws n = (s, (w, c), tr) ->
  exists s0 tr', run_hist (terror_user cf lib shuffle) (repeat CStep n) s0 (society cf ids g d1 d2 draws, no_cors) = (s, (w, c), tr').
Proof.
  unfold society_run. rewrite run_hist_app.
  destruct (add_run (terror_user cf lib shuffle) (seq 0 (cf_nodes cf)) (timed_init (negb ordered) di)
    (society cf ids g d1 d2 draws, no_cors)) as (s0 & tr0 & E & R & Q); [cbn [timed_init s_reg app]; apply seq_NoDup|].
  rewrite E. destruct (run_hist _ (repeat CStep n) s0 _) as [[s1 x1] tr1] eqn:E1. intros [= -> -> <-]. eauto.
Qed.
Lemma nobody_waits reg : rested (@no_cors (frame tfun)) /\ reg = reg :> list aid.
Proof. split; [intros a; now left|reflexivity]. Qed.
Lemma reached_inv s w c : reached cf lib s w c -> society_inv (s_reg s) (w, c).
Proof.
  intros (AR & shuffle & ordered & di & ids & g & d1 & d2 & draws & n & tr & FA & VI & D1 & D2 & E).
  destruct (society_starts _ _ _ _ _ _ _ _ _ _ _ _ _ E) as (s0 & tr0 & E0).
  destruct (steps_inv _ society_inv listed (society_step_inv shuffle) (society_shuffle_inv shuffle FA) n s0
    (society cf ids g d1 d2 draws, no_cors) s (w, c) tr0) as [H _]; auto.
  split; [split|]; [apply nobody_waits; exact []|now apply society_start|intros ? ? ? ? ?; exact I].
Qed.
(** Steps from there. *)
Lemma never_back {AR : Arith} shuffle n s w c s' w' c' tr a : fair shuffle -> reached cf lib s w c -> ~ in_state "civilian" w a ->
  run_hist (terror_user cf lib shuffle) (repeat CStep n) s (w, c) = (s', (w', c'), tr) -> ~ in_state "civilian" w' a.
Proof.
  intros FA RE N E. pose proof (reached_inv _ _ _ RE) as I.
  destruct (steps_inv _ (lost a) listed (lost_step_inv a shuffle) (lost_shuffle_inv a shuffle FA) n s (w, c) s' (w', c') tr) as [[_ H] _]; auto.
  - split; [|intros ? ? ? ? ?; exact Logic.I]. split; [exact I|]. intros st C P. apply N. exists st. auto.
  - intros (st & C & P). exact (H st C P).
Qed.

Lemma run_society {AR : Arith} shuffle n s w c s' w' c' tr : fair shuffle -> reached cf lib s w c ->
  run_hist (terror_user cf lib shuffle) (repeat CStep n) s (w, c) = (s', (w', c'), tr) -> society_inv (s_reg s') (w', c').
Proof.
  intros FA RE E.
  destruct (steps_inv _ society_inv listed (society_step_inv shuffle) (society_shuffle_inv shuffle FA) n s (w, c) s' (w', c') tr) as [H _]; auto.
  split; [|intros ? ? ? ? ?; exact Logic.I]. exact (reached_inv _ _ _ RE).
Qed.

(** * Exceptions *)
Lemma network_raises fs s a w c w' c' l o st : society_inv (s_reg s) (w, c) -> kind_of a = ANetwork ->
  fa_cur (fw_agents w a) = Some st -> ~ peaceful st -> get_co c a = None ->
  agent_step code fs s a (w, c) = (w', c', l, o) -> o = Exc.
Proof.
  intros [R EV] K C NP G E. cbn [fst snd] in R, EV. destruct (EV a) as (st0 & OK).
  destruct (activated fs s a w c w' c' l o _ st0 R (po_kind _ _ _ OK) (po_alive _ _ _ OK) (po_cur _ _ _ OK) E) as (_ & _ & _ & H).
  destruct H as [(X & _)|(_ & r & g & CR & _ & _ & _ & H)]; [congruence|].
  rewrite (po_cur _ _ _ OK) in C. injection C as ->. pose proof (po_allowed _ _ _ OK) as A. rewrite K in A. cbn in A.
  destruct A as [<-|[<-|[<-|[]]]]; [destruct NP; reflexivity| |];
    cbn in CR; injection CR as <- <-; exact H.
Qed.
Definition raised (tr : list ev) : Prop := exists t b, In (EvAct t b Exc) tr.
Lemma bucket_raises {AR : Arith} shuffle a : kind_of a = ANetwork -> forall bucket now s w c s' x' tr e, society_inv (s_reg s) (w, c) ->
  fa_cur (fw_agents w a) = Some net_leader -> get_co c a = None -> In a bucket ->
  run_bucket (terror_user cf lib shuffle) now bucket s (w, c) = (s', x', tr, e) -> e = true /\ raised tr.
Proof.
  intros K. induction bucket as [|h bucket IH]; intros now s w c s' x' tr e I C G J E; [destruct J|].
  cbn [run_bucket] in E. destruct (u_step (terror_user cf lib shuffle) s h (w, c)) as [[[w1 c1] ops] o] eqn:U.
  destruct (society_step _ _ _ _ _ _ _ _ _ I U) as (-> & I1 & OT & _). cbn [run_ops] in E.
  destruct (Nat.eq_dec h a) as [->|N].
  - assert (o = Exc) as ->. { eapply (network_raises _ s a w c w1 c1 _ o net_leader); eauto; [discriminate|exact U]. }
    injection E as <- <- <- <-. split; [reflexivity|]. exists now, a. now left.
  - assert (Na : a <> h) by congruence. destruct (OT a Na) as (A1 & A2 & _). destruct J as [J|J]; [congruence|].
    assert (C1 : fa_cur (fw_agents w1 a) = Some net_leader) by (now rewrite A1).
    assert (G1 : get_co c1 a = None) by (now rewrite A2).
    destruct o as [d| |].
    + set (s2 := if negb _ then _ else _) in E. destruct (run_bucket _ now bucket s2 (w1, c1)) as [[[s3 x3] tr3] e3] eqn:E3.
      injection E as <- <- <- <-. assert (I2 : society_inv (s_reg s2) (w1, c1)).
      { subst s2. destruct (negb _); exact I1. }
      destruct (IH _ _ _ _ _ _ _ _ I2 C1 G1 J E3) as [-> (t & b & X)]. split; [reflexivity|]. exists t, b. now right.
    + destruct (run_bucket _ now bucket s (w1, c1)) as [[[s3 x3] tr3] e3] eqn:E3.
      injection E as <- <- <- <-. destruct (IH _ _ _ _ _ _ _ _ I1 C1 G1 J E3) as [-> (t & b & X)]. split; [reflexivity|]. exists t, b. now right.
    + injection E as <- <- <- <-. split; [reflexivity|]. exists now, h. now left.
Qed.
Lemma add_queue {AR : Arith} {X} (u : user X) (l : list aid) : forall s x t b, s_queue s = [(t, b)] -> n_eqb t (or_num None (s_time s)) = true ->
  exists s' tr, run_hist u (map (fun a => CAdd a None) l) s x = (s', x, tr) /\ s_queue s' = [(t, b ++ l)%list] /\ s_time s' = s_time s /\
  s_shuffle s' = s_shuffle s.
Proof.
  induction l as [|a l IH]; cbn [map run_hist run_cmd run_op]; intros s x t b Q N.
  - exists s, []. rewrite app_nil_r. auto.
  - assert (Q1 : s_queue (timed_add s a None) = [(t, b ++ [a])%list] /\ s_time (timed_add s a None) = s_time s /\
      s_shuffle (timed_add s a None) = s_shuffle s).
    { assert (QI : insert_bucket (s_queue s) (or_num None (s_time s)) a = [(t, b ++ [a])%list]).
      { rewrite Q. cbn [insert_bucket fst snd]. now rewrite N. }
      unfold timed_add, reg_add. destruct (existsb _ _); split; auto; exact QI. }
    destruct Q1 as (Q1 & T1 & H1). destruct (IH (timed_add s a None) x t (b ++ [a])%list Q1) as (s' & tr & E & Q' & T' & H').
    { now rewrite T1. }
    rewrite E. eexists _, _. split; [reflexivity|]. rewrite Q', T', H', <- app_assoc. auto.
Qed.
Lemma first_step_raises {AR : Arith} shuffle ordered di ids g d1 d2 draws n a :
  fair shuffle -> (forall a, valid_id (kind_of a) (ids a)) -> (forall a, share (d1 a)) -> (forall a, share (d2 a)) ->
  (a < cf_nodes cf)%nat -> kind_of a = ANetwork -> ids a = Some "leader" ->
  raised (snd (society_run cf lib shuffle ordered di ids g d1 d2 draws (S n))).
Proof.
  intros FA VI D1 D2 L K ID. unfold society_run. rewrite run_hist_app.
  set (u := terror_user cf lib shuffle). set (x0 := (society cf ids g d1 d2 draws, no_cors)).
  assert (X : exists s0 tr0, run_hist u (map (fun a => CAdd a None) (seq 0 (cf_nodes cf))) (timed_init (negb ordered) di) x0 = (s0, x0, tr0) /\
    s_queue s0 = [(Fin 0, seq 0 (cf_nodes cf))] /\ s_time s0 = Fin 0).
  { destruct (cf_nodes cf) as [|m]; [lia|]. cbn [seq map run_hist run_cmd run_op].
    destruct (add_queue u (seq 1 m) (timed_add (timed_init (negb ordered) di) 0%nat None) x0 (Fin 0) [0%nat]) as (s0 & tr0 & E & Q & T & _).
    - reflexivity.
    - reflexivity.
    - rewrite E. eexists _, _. split; [reflexivity|]. split; [exact Q|]. rewrite T. reflexivity. }
  destruct X as (s0 & tr0 & E & Q & T). rewrite E. cbn [repeat run_hist run_cmd].
  destruct (timed_step u s0 x0) as [[[s1 x1] tr1] e1] eqn:ST.
  assert (RA : raised tr1).
  { unfold timed_step in ST. rewrite Q, T in ST. change (n_ltb (Fin 0) (Fin 0)) with false in ST.
    cbn iota in ST. match type of ST with context [if s_shuffle s0 then ?y else ?z] => destruct (if s_shuffle s0 then y else z) as [[w c] b] eqn:SH end.
    match type of ST with context [run_bucket u ?t b ?s' (w, c)] => destruct (run_bucket u t b s' (w, c)) as [[[s2 x2] tr2] e2] eqn:B end.
    assert (I0 : forall reg, society_inv reg x0).
    { intros reg. split; [apply (nobody_waits reg)|now apply society_start]. }
    assert (Y : (forall reg, society_inv reg (w, c)) /\ fa_cur (fw_agents w a) = Some net_leader /\ get_co c a = None /\ In a b).
    { assert (CU : fa_cur (fw_agents (fst x0) a) = Some net_leader).
      { subst x0. cbn [fst society fw_agents]. rewrite K, ID. reflexivity. }
      assert (J : In a (seq 0 (cf_nodes cf))) by (apply in_seq; lia).
      destruct (s_shuffle s0).
      - subst x0. destruct (shuffled _ _ _ _ _ _ _ FA SH) as (-> & P & d & ->). split; [|split; [exact CU|split; [reflexivity|]]].
        + intros reg. apply draws_inv, I0.
        + eapply Permutation_in; eauto.
      - injection SH as <- <- <-. split; [exact I0|]. split; [exact CU|]. split; [reflexivity|exact J]. }
    destruct Y as (I1 & CU & G & J). destruct (bucket_raises shuffle a K _ _ _ _ _ _ _ _ _ (I1 _) CU G J B) as [-> R].
    injection ST as <- <- <- <-. exact R. }
  destruct (run_hist u (repeat CStep n) s1 x1) as [[s2 x2] tr2]. cbn [snd].
  destruct RA as (t & b & J). exists t, b. apply in_or_app. right. apply in_or_app. now left.
Qed.

(** Without agents of TerroristNetworkModel nothing is raised. *)
Lemma ends_linked g a b : adjacent g a b = true -> (1 <= ends g b)%nat.
Proof.
  unfold adjacent, ends. induction g as [|[x y] g IH]; cbn [existsb fold_right fst snd]; [discriminate|].
  destruct (Nat.eqb x b) eqn:X; [lia|]. destruct (Nat.eqb y b) eqn:Y; [lia|].
  rewrite andb_false_r. cbn [orb andb]. intros H. apply IH in H. lia.
Qed.
Lemma degree_positive g a b : adjacent g a b = true -> (0 < degree_centrality cf g b)%Q.
Proof.
  intros A. apply ends_linked in A. unfold degree_centrality. destruct (cf_nodes cf <=? 1)%nat eqn:N; [reflexivity|].
  apply Nat.leb_gt in N. apply Qlt_shift_div_l.
  - change 0%Q with (inject_Z 0). rewrite <- Zlt_Qlt. lia.
  - rewrite Qmult_0_l. change 0%Q with (inject_Z 0). rewrite <- Zlt_Qlt. lia.
Qed.
Lemma sums_calm now l r a : current r -> (forall b, In b l -> adjacent (te_edges r) a b = true) ->
  let '(r1, influence) := total_degree cf now l r in exists r2 m, weighted cf now influence l r1 = (r2, Some m).
Proof.
  intros CU A. destruct l as [|i l]; [cbn; eauto|].
  destruct (mean_makes now (i :: l) r) as (r' & g & [G _] & (ED & _) & _ & CU' & H); [discriminate|].
  destruct (total_degree cf now (i :: l) r) as [r1 influence]. rewrite H.
  assert (g = te_edges r) as ->. { destruct (CU' CU) as [[X|X] _]; congruence. }
  destruct (Qeq_bool _ 0) eqn:Z; [|eauto]. apply Qeq_bool_iff in Z. exfalso.
  cbn [sum fold_right] in Z. fold (sum (degree_centrality cf (te_edges r)) l) in Z.
  pose proof (degree_positive _ _ _ (A i (or_introl eq_refl))) as P.
  pose proof (sum_nonneg (degree_centrality cf (te_edges r)) l (fun a _ => degree_nonneg _ a)) as NN. lra.
Qed.
Lemma goto_calm w a st name r r' ops g : person_ok w a st -> kind_of a <> ANetwork ->
  (exists st', dget name (states_of (kind_of a)) = Some st') -> goto w a name r = (r', ops, g) ->
  r' = r /\ forall d, g <> GRaise d.
Proof.
  intros OK _ [st' G] E. unfold goto in E. rewrite (po_kind _ _ _ OK), G in E. injection E as <- <- <-. split; [auto|discriminate].
Qed.
Lemma current_belief r a b : current r -> current (set_belief r a b).
Proof. intros H. exact H. Qed.
Lemma current_draws r d : current r -> current (set_draws r d).
Proof. intros H. exact H. Qed.
Lemma neighbor_adjacent s r a p b : In b (neighbors s r a p) -> adjacent (te_edges r) a b = true.
Proof. intros J. apply filter_In in J as [_ J]. now apply andb_true_iff in J as [J _]. Qed.
Lemma fold_current p h l r : current r -> current (fold_left (change p h) l r).
Proof.
  intros CU. destruct (change_fold p h l r) as (E & _ & _ & D & B & _). unfold current. now rewrite E, D, B.
Qed.
Lemma lift_calm (f : tfun) (g : gout unit (pyval tfun)) r : (current r /\ forall d, g <> GRaise d) ->
  current r /\ forall d, match g with GYield v _ => GYield v f | GReturn v => GReturn v | GRaise d => GRaise d end <> GRaise d.
Proof. intros [Y Z]. split; [exact Y|]. intros d. destruct g; try discriminate. intros [= ->]. now apply (Z d). Qed.
Lemma resume_calm s w a st r g : person_ok w a st -> kind_of a <> ANetwork -> current (fw_rest w) ->
  c_resume code s a (st_fun st) w = (r, [], g) -> current r /\ forall d, g <> GRaise d.
Proof.
  intros OK NK CU E. cbn [c_resume terror_code] in E.
  assert (RD : forall r0 r1 ops g, kind_of a = ASpread -> current r0 -> radicalised w a r0 = (r1, ops, g) -> current r1 /\ forall d, g <> GRaise d).
  { intros r0 r1 ops g0 KA CU0. unfold radicalised. destruct (Qle_bool _ _).
    - intros X. destruct (goto_calm w a st "terrorist" r0 r1 ops g0 OK NK) as [-> N]; [rewrite KA; eexists; reflexivity|exact X|auto].
    - intros [= <- <- <-]. split; [auto|discriminate]. }
  assert (X : match kind_of a with ANetwork => False | _ => True end) by (destruct (kind_of a); auto; congruence).
  pose proof (po_allowed _ _ _ OK) as A. destruct (kind_of a) eqn:K; cbn [allowed In] in A; try (now destruct X);
    repeat match type of A with _ \/ _ => destruct A as [<-|A] end; try (now destruct A); cbn [st_fun] in E;
    match type of E with (let '(_, _) := ?t in _) = _ => destruct t as [[r0 ops0] g0] eqn:E0; injection E as <- -> <- end;
    apply lift_calm.
  - cbn [st_fun civilian] in E0. unfold civilian_fn in E0.
    destruct (neighbors s (fw_rest w) a (a_spread cf)) as [|b l] eqn:NE; [apply (RD _ _ _ _ eq_refl CU E0)|].
    destruct (choose cf (b :: l) (fw_rest w)) as [k r1] eqn:C. destruct (choose_met _ _ _ _ C) as [-> [d ->]].
    set (k := met _ _ _) in *. pose proof (sums_same (s_time s) k (set_draws (fw_rest w) d)) as SS.
    pose proof (sums_calm (s_time s) k (set_draws (fw_rest w) d) a (current_draws _ _ CU)) as SC.
    destruct (total_degree cf (s_time s) k (set_draws (fw_rest w) d)) as [r2 inf].
    destruct SC as (r3 & m & W).
    { intros i J. apply (neighbor_adjacent s (fw_rest w) a (a_spread cf)). rewrite NE. eapply met_in; exact J. }
    rewrite W in E0. destruct (SS _ _ W) as [_ CU3]. apply (RD _ _ _ _ eq_refl (current_belief _ _ _ (CU3 CU)) E0).
  - cbn [st_fun leader] in E0. unfold leader_fn in E0. set (r1 := set_belief _ _ _) in E0.
    destruct (above lib (s_time s) a _ r1) as [r2 b] eqn:AB. destruct (above_keeps _ _ _ _ _ _ AB) as [_ CU2].
    assert (CU1 : current r1) by exact CU. destruct b.
    + destruct (goto_calm w a leader "terrorist" r2 r0 [] g0 OK) as [-> N]; auto; [congruence|rewrite K; eexists; reflexivity].
    + injection E0 as <- <-. split; [auto|discriminate].
  - cbn [st_fun terrorist] in E0. unfold terrorist_fn in E0. set (l := neighbors _ _ _ _) in E0.
    assert (H : exists r2, (match l with [] => (fw_rest w, true) | _ =>
        let '(r1, influence) := total_degree cf (s_time s) l (fw_rest w) in
        match weighted cf (s_time s) influence l r1 with
        | (r2, None) => (r2, false)
        | (r2, Some _) => (set_belief r2 a (l_pow lib (te_belief r2 a) (1 - additional att)), true)
        end end) = (r2, true) /\ current r2).
    { destruct l as [|i l'] eqn:EL; [eauto|]. rewrite <- EL.
      pose proof (sums_same (s_time s) l (fw_rest w)) as SS. pose proof (sums_calm (s_time s) l (fw_rest w) a CU) as SC. rewrite EL in *.
      destruct (total_degree cf (s_time s) (i :: l') (fw_rest w)) as [r1 inf].
      destruct SC as (r3 & m & W). { intros b J. rewrite <- EL in J. eapply neighbor_adjacent; exact J. }
      rewrite W. destruct (SS _ _ W) as [_ CU3]. eexists. split; [reflexivity|]. apply current_belief. auto. }
    destruct H as (r2 & H & CU2). rewrite H in E0. destruct (filter _ l); [|injection E0 as <- <-; split; [auto|discriminate]].
    destruct (above' lib (s_time s) a l r2) as [r4 b] eqn:AB. destruct (above'_keeps _ _ _ _ _ _ AB) as [_ CU4]. destruct b.
    + injection E0 as <- <-. split; [auto|discriminate].
    + destruct (goto_calm w a terrorist "leader" r4 r0 [] g0 OK) as [-> N]; auto; [congruence|rewrite K; eexists; reflexivity].
  - cbn [st_fun training] in E0. unfold training_fn in E0. injection E0 as <- <-. split; [|discriminate].
    apply (fold_current (Qltb (train_min att)) (fun v => l_pow lib v (1 - train_influence att))). exact CU.
  - cbn [st_fun haven_civilian] in E0. unfold haven_civilian_fn in E0. destruct (neighbors _ _ _ (fun _ => _)).
    + destruct (goto_calm w a haven_civilian "terrorist" (fw_rest w) r0 [] g0 OK) as [-> N]; auto; [congruence|rewrite K; eexists; reflexivity].
    + apply (goto_calm w a haven_civilian "civilian" _ r0 [] g0 OK) in E0 as [-> N]; auto; [|congruence|rewrite K; eexists; reflexivity].
      split; [|auto]. apply (fold_current (Qltb (haven_min att)) (fun v => v * (1 - haven_influence att))%Q). exact CU.
  - cbn [st_fun haven_terrorist] in E0. unfold haven_terrorist_fn in E0.
    apply (goto_calm w a haven_terrorist "terrorist" _ r0 [] g0 OK) in E0 as [-> N]; auto; [|congruence|rewrite K; eexists; reflexivity].
    split; [|auto]. apply (fold_current (fun v => Qltb v (haven_max att)) (fun v => l_pow lib v (1 - haven_influence att))). exact CU.
Qed.
(** * What activations do *)
Definition whole (reg : list aid) (x : tworld * cors (frame tfun)) : Prop := society_inv reg x /\ reg = seq 0 (cf_nodes cf).
Lemma reached_reg s w c : reached cf lib s w c -> s_reg s = seq 0 (cf_nodes cf).
Proof.
  intros (AR & shuffle & ordered & di & ids & g & d1 & d2 & draws & n & tr & FA & VI & D1 & D2 & E).
  unfold society_run in E. rewrite run_hist_app in E.
  destruct (add_run (terror_user cf lib shuffle) (seq 0 (cf_nodes cf)) (timed_init (negb ordered) di)
    (society cf ids g d1 d2 draws, no_cors)) as (s0 & tr0 & E0 & R & _); [cbn [timed_init s_reg app]; apply seq_NoDup|].
  rewrite E0 in E. destruct (run_hist _ (repeat CStep n) s0 _) as [[s1 x1] tr1] eqn:E1. injection E as -> -> <-.
  destruct (steps_inv (terror_user cf lib shuffle) whole listed) with (n := n) (s := s0) (x := (society cf ids g d1 d2 draws, @no_cors (frame tfun)))
    (s' := s) (x' := (w, c)) (tr := tr1) as [[_ H] _]; auto.
  - intros s2 a [w2 c2] [w3 c3] ops o [I X] _ U. destruct (society_step _ _ _ _ _ _ _ _ _ I U) as (-> & I' & _). repeat split; auto; apply I'.
  - intros l reg [w2 c2] [w3 c3] l' [I X] U. destruct (society_shuffle_inv shuffle FA l reg _ _ _ I U) as (A & B & C). repeat split; auto; apply A.
  - split; [|intros ? ? ? ? ?; exact Logic.I]. split; [|exact R]. split; [apply (nobody_waits [])|now apply society_start].
Qed.
Lemma adjacent_linked w a b : adjacent (te_edges (fw_rest w)) a b = true <-> linked w a b.
Proof.
  unfold adjacent, linked. rewrite existsb_exists. split.
  - intros ([x y] & J & H). cbn [fst snd] in H. apply orb_true_iff in H as [H|H]; apply andb_true_iff in H as [X Y];
      apply Nat.eqb_eq in X, Y; subst x y; auto.
  - intros [J|J]; [exists (a, b)|exists (b, a)]; (split; [exact J|]); cbn [fst snd]; rewrite !Nat.eqb_refl; cbn; auto using orb_true_r.
Qed.
Lemma spread_person b : a_spread cf b = true <-> person cf b.
Proof. unfold a_spread, person. destruct (kind_of b); cbn; split; auto; try discriminate; intros [X|X]; discriminate. Qed.
Lemma state_in_iff w names b : state_in w names b = true <-> exists x, In x names /\ in_state x w b.
Proof.
  unfold state_in, in_state. destruct (fa_cur (fw_agents w b)) as [st|].
  - rewrite existsb_exists. split.
    + intros (x & J & E). apply String.eqb_eq in E. eauto.
    + intros (x & J & st' & [= <-] & <-). exists (st_name st). split; [exact J|apply String.eqb_refl].
  - split; [discriminate|]. intros (x & _ & st & X & _). discriminate.
Qed.
Lemma neighbors_iff s w a p b : In b (neighbors s (fw_rest w) a p) <-> In b (s_reg s) /\ linked w a b /\ p b = true.
Proof. unfold neighbors. rewrite filter_In, andb_true_iff, adjacent_linked. tauto. Qed.

(** The function that is run. *)
Lemma runs fs s a w c w' c' l o x : society_inv (s_reg s) (w, c) -> in_state x w a -> get_co c a = None ->
  agent_step code fs s a (w, c) = (w', c', l, o) ->
  exists st g, In st (allowed (kind_of a)) /\ st_name st = x /\ person_ok w a st /\ c_resume code s a (st_fun st) w = (fw_rest w', [], g) /\
    (forall d, g = GRaise d -> o = if d then Dead else Exc).
Proof.
  intros [R EV] (st & C & N) G E. cbn [fst snd] in *. destruct (EV a) as (st0 & OK).
  rewrite (po_cur _ _ _ OK) in C. injection C as ->.
  destruct (activated fs s a w c w' c' l o _ st R (po_kind _ _ _ OK) (po_alive _ _ _ OK) (po_cur _ _ _ OK) E) as (_ & _ & _ & H).
  destruct H as [(X & _)|(_ & r & g & CR & F & _ & _ & H)]; [congruence|].
  exists st, g. split; [apply OK|]. split; [exact N|]. split; [exact OK|]. split; [now rewrite F|]. intros d ->. exact H.
Qed.
Lemma of_resume s a f w r g : c_resume code s a f w = (r, [], g) ->
  exists g0, (match f with
         | FCivil => civilian_fn cf s a w
         | FLeader => leader_fn cf lib s a w
         | FTerrorist => terrorist_fn cf lib s a w
         | FNetTerrorist | FNetLeader => network_fn cf lib s a w
         | FTraining => training_fn cf lib s a w
         | FHavenCivil => haven_civilian_fn cf s a w
         | FHavenTerrorist => haven_terrorist_fn cf lib s a w
         | FDead => (fw_rest w, [], GReturn (PNum PInf))
         end) = (r, [], g0) /\ (forall d, g0 = GRaise d -> g = GRaise d).
Proof.
  cbn [c_resume terror_code]. match goal with |- (let '(_, _) := ?t in _) = _ -> _ => destruct t as [[r0 ops0] g0] end.
  intros [= <- -> <-]. exists g0. split; [reflexivity|]. intros d ->. reflexivity.
Qed.
Lemma radicalised_rest w a r r' ops g : radicalised w a r = (r', ops, g) -> r' = r.
Proof.
  unfold radicalised. destruct (Qle_bool _ _); [|now intros [= <- _ _]].
  destruct (goto_value w a "terrorist" r) as (g' & -> & _). now intros [= <- _ _].
Qed.
Lemma civilian_name a st : person cf a -> In st (allowed (kind_of a)) -> st_name st = "civilian" -> st = civilian.
Proof. intros [K|K] J N; rewrite K in J; cbn in J; repeat destruct J as [<-|J]; auto; try discriminate; destruct J. Qed.

(** A civilian. *)
Lemma civilian_effect fs s a w c w' c' l o : society_inv (s_reg s) (w, c) -> person cf a -> in_state "civilian" w a -> get_co c a = None ->
  agent_step code fs s a (w, c) = (w', c', l, o) -> o <> Exc ->
  exists near, (forall b, In b near <-> In b (s_reg s) /\ linked w a b /\ person cf b) /\
  (near = [] -> believes w' a = believes w a) /\
  (near <> [] -> let k := met (cf_interaction cf) (te_draws (fw_rest w)) near in
   (k = [] -> (believes w' a == believes w a * (1 - intensity att * vulnerable w a))%Q) /\
   (k <> [] -> exists r g, fresh (s_time s) r g /\ (current (fw_rest w) -> g = te_edges (fw_rest w)) /\
     (~ sum (degree_centrality cf g) k == 0)%Q /\
     (believes w' a == believes w a + intensity att * vulnerable w a *
        (mean_by (degree_centrality cf g) (believes w) k - believes w a))%Q)).
Proof.
  intros I PE ST G E NE. destruct (runs _ _ _ _ _ _ _ _ _ _ I ST G E) as (st & g & A & N & OK & CR & RA).
  rewrite (civilian_name a st PE A N) in CR. destruct (of_resume _ _ _ _ _ _ CR) as (g0 & E0 & RA0). cbn [st_fun civilian] in E0.
  exists (neighbors s (fw_rest w) a (a_spread cf)). split.
  { intros b. rewrite neighbors_iff, spread_person. reflexivity. }
  unfold civilian_fn in E0. unfold believes, vulnerable. destruct (neighbors s (fw_rest w) a (a_spread cf)) as [|b0 l0].
  { split; [|congruence]. intros _. apply radicalised_rest in E0. now rewrite E0. }
  split; [discriminate|]. intros _. set (k := met (cf_interaction cf) (te_draws (fw_rest w)) (b0 :: l0)).
  destruct (choose cf (b0 :: l0) (fw_rest w)) as [k' r1] eqn:C. destruct (choose_met _ _ _ _ C) as [-> [d ->]]. fold k in E0.
  split; intros K.
  - rewrite K in E0. cbn [total_degree weighted] in E0. apply radicalised_rest in E0. rewrite E0.
    cbn [set_belief te_belief]. rewrite put_at. unfold influenced. cbn [set_draws te_belief te_vuln]. ring.
  - destruct (mean_makes (s_time s) k (set_draws (fw_rest w) d) K) as (r' & gr & F & (_ & B & V) & _ & CU & M).
    cbn [set_draws te_belief te_vuln] in B, V.
    exists r', gr. split; [exact F|]. split.
    { intros CUR. destruct (CU CUR) as [[X|X] _]; destruct F as [F _]; [congruence|].
      destruct (mean_makes (s_time s) k (set_draws (fw_rest w) d) K) as (_ & _ & _ & _ & _ & _ & _).
      rewrite F in X. injection X as ->. destruct (total_degree cf (s_time s) k (set_draws (fw_rest w) d)) as [r2 inf] eqn:T.
      pose proof (sums_same (s_time s) k (set_draws (fw_rest w) d)) as SS. rewrite T in SS. destruct (SS _ _ M) as [(ED & _) _]. exact ED. }
    destruct (total_degree cf (s_time s) k (set_draws (fw_rest w) d)) as [r2 inf]. rewrite M in E0.
    destruct (Qeq_bool (sum (degree_centrality cf gr) k) 0) eqn:Z.
    + exfalso. apply NE. injection E0 as _ <-. apply (RA false). now apply RA0.
    + split; [intros X; apply Qeq_bool_iff in X; congruence|].
      apply radicalised_rest in E0. rewrite E0. cbn [set_belief te_belief]. rewrite put_at. unfold influenced.
      cbn [set_draws te_belief te_vuln] in *. rewrite B, V. pose proof (mean_is (degree_centrality cf gr) (te_belief (fw_rest w)) k) as MI.
      rewrite MI. change (fun a : aid => te_belief (fw_rest w) a) with (te_belief (fw_rest w)). ring.
Qed.

(** A terrorist. *)
Lemma terrorist_effect fs s a w c w' c' l o : society_inv (s_reg s) (w, c) -> kind_of a = ASpread -> in_state "terrorist" w a -> get_co c a = None ->
  agent_step code fs s a (w, c) = (w', c', l, o) -> o <> Exc ->
  let fellow b := In b (s_reg s) /\ linked w a b /\ person cf b /\ (in_state "terrorist" w b \/ in_state "leader" w b) in
  ((exists b, fellow b) -> believes w' a = l_pow lib (believes w a) (1 - additional att)) /\
  ((forall b, ~ fellow b) -> believes w' a = believes w a).
Proof.
  intros I KA ST G E NE fellow. destruct (runs _ _ _ _ _ _ _ _ _ _ I ST G E) as (st & g & A & N & OK & CR & RA).
  assert (st = terrorist) as ->. { rewrite KA in A. cbn in A. destruct A as [<-|[<-|[<-|[]]]]; auto; discriminate. }
  destruct (of_resume _ _ _ _ _ _ CR) as (g0 & E0 & RA0). cbn [st_fun terrorist] in E0.
  unfold terrorist_fn in E0. set (l0 := neighbors _ _ _ _) in E0.
  assert (FE : forall b, In b l0 <-> fellow b).
  { intros b. unfold l0. rewrite neighbors_iff, andb_true_iff, state_in_iff, spread_person. unfold fellow. split.
    - intros (X & Y & (x & [<-|[<-|[]]] & Z) & W); auto.
    - intros (X & Y & Z & [W|W]); (split; [auto|]); (split; [auto|]); (split; [|auto]); eexists; (split; [|exact W]); cbn; auto. }
  assert (T : forall r2, (exists g1, (match filter (state_in w ["leader"]) l0 with
      | [] => match above' lib (s_time s) a l0 r2 with (r4, true) => (r4, [], GReturn PNone) | (r4, false) => goto w a "leader" r4 end
      | _ :: _ => (r2, [], GReturn PNone) end) = (fw_rest w', [], g1)) -> te_belief (fw_rest w') = te_belief r2).
  { intros r2 [g1 H]. destruct (filter _ l0); [|injection H as <- _; reflexivity].
    destruct (above' lib (s_time s) a l0 r2) as [r4 b] eqn:AB. destruct (above'_keeps _ _ _ _ _ _ AB) as [(_ & B & _) _].
    destruct b; [injection H as <- _; auto|]. destruct (goto_value w a "leader" r4) as (g' & GG & _). rewrite GG in H. injection H as <- _. auto. }
  unfold believes. destruct l0 as [|i l'] eqn:EL.
  - split; [intros [b X]; apply FE in X; destruct X|]. intros _. rewrite (T (fw_rest w)); eauto.
  - split; [|intros X; exfalso; apply (X i), FE; now left]. intros _.
    pose proof (sums_same (s_time s) (i :: l') (fw_rest w)) as SS.
    destruct (total_degree cf (s_time s) (i :: l') (fw_rest w)) as [r1 inf].
    destruct (weighted cf (s_time s) inf (i :: l') r1) as [r2 [m|]]; destruct (SS _ _ eq_refl) as [(_ & B & _) _].
    + rewrite (T _ (ex_intro _ g0 E0)). cbn [set_belief te_belief]. rewrite put_at. now rewrite B.
    + exfalso. apply NE. injection E0 as _ <-. apply (RA false). now apply RA0.
Qed.

(** Training areas and havens. *)
Lemma neighbors_nodup s (w : tworld) a p : s_reg s = seq 0 (cf_nodes cf) -> NoDup (neighbors s (fw_rest w) a p).
Proof. intros E. unfold neighbors. rewrite E. apply NoDup_filter, seq_NoDup. Qed.
Lemma change_effect s w a p h b : s_reg s = seq 0 (cf_nodes cf) ->
  let near := In b (s_reg s) /\ linked w a b /\ person cf b in
  let r' := fold_left (change p h) (neighbors s (fw_rest w) a (a_spread cf)) (fw_rest w) in
  (near -> p (vulnerable w b) = true -> te_vuln r' b = h (vulnerable w b)) /\
  (~ near \/ p (vulnerable w b) = false -> te_vuln r' b = vulnerable w b).
Proof.
  intros RG near r'. destruct (change_fold p h (neighbors s (fw_rest w) a (a_spread cf)) (fw_rest w)) as (_ & _ & _ & _ & _ & _ & V).
  fold r' in V. rewrite (V (neighbors_nodup _ _ _ _ RG) b). unfold vulnerable.
  assert (X : existsb (Nat.eqb b) (neighbors s (fw_rest w) a (a_spread cf)) = true <-> near).
  { rewrite existsb_exists. unfold near. rewrite <- spread_person, <- neighbors_iff. split.
    - intros (y & J & Y). apply Nat.eqb_eq in Y. now subst y.
    - intros J. exists b. split; [exact J|apply Nat.eqb_refl]. }
  split.
  - intros N P. apply X in N. now rewrite N, P.
  - intros [N|P]; [|now rewrite P, andb_false_r]. destruct (existsb _ _); [destruct N; now apply X|reflexivity].
Qed.
Lemma training_effect fs s a w c w' c' l o b : society_inv (s_reg s) (w, c) -> s_reg s = seq 0 (cf_nodes cf) ->
  kind_of a = ATraining -> get_co c a = None ->
  agent_step code fs s a (w, c) = (w', c', l, o) ->
  let near := In b (s_reg s) /\ linked w a b /\ person cf b in
  (near -> (train_min att < vulnerable w b)%Q -> vulnerable w' b = l_pow lib (vulnerable w b) (1 - train_influence att)) /\
  (~ near \/ (vulnerable w b <= train_min att)%Q -> vulnerable w' b = vulnerable w b).
Proof.
  intros I RG KA G E near. destruct I as [R EV]. destruct (EV a) as (st0 & OK0).
  assert (ST : in_state (st_name st0) w a) by (exists st0; split; [apply OK0|reflexivity]).
  destruct (runs _ _ _ _ _ _ _ _ _ _ (conj R EV) ST G E) as (st & g & A & N & OK & CR & RA).
  assert (st = training) as ->. { rewrite KA in A. cbn in A. now destruct A as [<-|[]]. }
  destruct (of_resume _ _ _ _ _ _ CR) as (g0 & E0 & RA0). cbn [st_fun training] in E0. unfold training_fn in E0. injection E0 as E0 _.
  destruct (change_effect s w a (Qltb (train_min att)) (fun v => l_pow lib v (1 - train_influence att)) b RG) as [X Y].
  unfold change in X, Y. cbv beta in X, Y. unfold vulnerable in *. rewrite <- E0. split.
  - intros N1 L. apply X; [exact N1|]. unfold Qltb. destruct (Qle_bool _ _) eqn:Q; auto. apply Qle_bool_iff in Q. lra.
  - intros [H|H]; apply Y; [now left|right]. unfold Qltb. apply Qle_bool_iff in H. now rewrite H.
Qed.
Lemma haven_effect fs s a w c w' c' l o b : society_inv (s_reg s) (w, c) -> s_reg s = seq 0 (cf_nodes cf) ->
  kind_of a = AHaven -> get_co c a = None ->
  agent_step code fs s a (w, c) = (w', c', l, o) ->
  let near b := In b (s_reg s) /\ linked w a b /\ person cf b in
  (in_state "civilian" w a -> (exists b, near b /\ in_state "civilian" w b) ->
     (near b -> (haven_min att < vulnerable w b)%Q -> vulnerable w' b = vulnerable w b * (1 - haven_influence att))%Q /\
     (~ near b \/ (vulnerable w b <= haven_min att)%Q -> vulnerable w' b = vulnerable w b)) /\
  (in_state "civilian" w a -> (forall b, near b -> ~ in_state "civilian" w b) -> vulnerable w' b = vulnerable w b /\ in_state "terrorist" w' a) /\
  (in_state "terrorist" w a ->
     (near b -> (vulnerable w b < haven_max att)%Q -> vulnerable w' b = l_pow lib (vulnerable w b) (1 - haven_influence att)) /\
     (~ near b \/ (haven_max att <= vulnerable w b)%Q -> vulnerable w' b = vulnerable w b)).
Proof.
  intros I RG KA G E near.
  assert (GT : forall name r g0, goto w a name r = (fw_rest w', [], g0) -> fw_rest w' = r).
  { intros name r g0 H. destruct (goto_value w a name r) as (g' & GG & _). rewrite GG in H. now injection H as <- _. }
  assert (FE : forall b, In b (neighbors s (fw_rest w) a (fun b => state_in w ["civilian"] b && a_spread cf b)) <-> near b /\ in_state "civilian" w b).
  { intros b0. rewrite neighbors_iff, andb_true_iff, state_in_iff, spread_person. unfold near. split.
    - intros (X & Y & (x & [<-|[]] & Z) & W); auto.
    - intros ((X & Y & Z) & W). split; [auto|]. split; [auto|]. split; [|auto]. exists "civilian". cbn. auto. }
  split; [|split]; intros ST.
  - intros [b1 CB]. apply FE in CB.
    destruct (runs _ _ _ _ _ _ _ _ _ _ I ST G E) as (st & g & A & N & OK & CR & RA).
    assert (st = haven_civilian) as ->. { rewrite KA in A. cbn in A. destruct A as [<-|[<-|[]]]; auto; discriminate. }
    destruct (of_resume _ _ _ _ _ _ CR) as (g0 & E0 & RA0). cbn [st_fun haven_civilian] in E0. unfold haven_civilian_fn in E0.
    destruct (neighbors s (fw_rest w) a (fun b => state_in w ["civilian"] b && a_spread cf b)) as [|i l0]; [destruct CB|]. apply GT in E0.
    destruct (change_effect s w a (Qltb (haven_min att)) (fun v => v * (1 - haven_influence att))%Q b RG) as [X Y].
    unfold change in X, Y. cbv beta in X, Y. unfold vulnerable in *. rewrite E0. split.
    + intros N1 L. apply X; [exact N1|]. unfold Qltb. destruct (Qle_bool _ _) eqn:Q; auto. apply Qle_bool_iff in Q. lra.
    + intros [H|H]; apply Y; [now left|right]. unfold Qltb. apply Qle_bool_iff in H. now rewrite H.
  - intros NC. pose proof I as [R EV]. destruct ST as (st & C & N). cbn [fst snd] in *. destruct (EV a) as (st0 & OK).
    rewrite (po_cur _ _ _ OK) in C. injection C as ->.
    destruct (activated fs s a w c w' c' l o _ st R (po_kind _ _ _ OK) (po_alive _ _ _ OK) (po_cur _ _ _ OK) E) as (_ & _ & _ & H).
    destruct H as [(X & _)|(_ & r & g & CR & F & _ & ME & H)]; [congruence|].
    assert (st = haven_civilian) as ->.
    { pose proof (po_allowed _ _ _ OK) as A. rewrite KA in A. cbn in A. destruct A as [<-|[<-|[]]]; auto; discriminate. }
    cbn [c_resume terror_code st_fun haven_civilian] in CR. unfold haven_civilian_fn in CR.
    destruct (neighbors s (fw_rest w) a (fun b => state_in w ["civilian"] b && a_spread cf b)) as [|i l0].
    + unfold goto in CR. rewrite (po_kind _ _ _ OK), KA in CR. cbn in CR. injection CR as <- <-. unfold vulnerable. rewrite F. split; [auto|].
      exists haven_terrorist. rewrite ME. split; reflexivity.
    + exfalso. assert (J : In i (i :: l0)) by now left. apply FE in J as [J1 J2]. exact (NC i J1 J2).
  - destruct (runs _ _ _ _ _ _ _ _ _ _ I ST G E) as (st & g & A & N & OK & CR & RA).
    assert (st = haven_terrorist) as ->. { rewrite KA in A. cbn in A. destruct A as [<-|[<-|[]]]; auto; discriminate. }
    destruct (of_resume _ _ _ _ _ _ CR) as (g0 & E0 & RA0). cbn [st_fun haven_terrorist] in E0. unfold haven_terrorist_fn in E0.
    apply GT in E0.
    destruct (change_effect s w a (fun v => Qltb v (haven_max att)) (fun v => l_pow lib v (1 - haven_influence att)) b RG) as [X Y].
    unfold change in X, Y. cbv beta in X, Y. unfold vulnerable in *. rewrite E0. split.
    + intros N1 L. apply X; [exact N1|]. unfold Qltb. destruct (Qle_bool _ _) eqn:Q; auto. apply Qle_bool_iff in Q. lra.
    + intros [H|H]; apply Y; [now left|right]. unfold Qltb. apply Qle_bool_iff in H. now rewrite H.
Qed.

(** Leadership, if what has been computed is of the present network. *)
Lemma betweenness_current now r a : current r -> exists r', betweenness lib false now r a = (r', l_centrality lib (te_edges r) a) /\
  current r' /\ te_edges r' = te_edges r.
Proof.
  intros [C1 C2]. unfold betweenness. destruct (outdated false now r (te_between r)) eqn:O.
  - eexists. split; [reflexivity|]. cbn. split; [split; cbn; auto|reflexivity].
  - destruct C2 as [C2|C2]; [rewrite C2 in O; discriminate|]. exists r. rewrite C2. repeat split; auto.
Qed.
Lemma above_current now a l : forall r, current r -> exists r',
  above lib now a l r = (r', existsb (fun n => Qltb (l_centrality lib (te_edges r) a) (l_centrality lib (te_edges r) n)) l).
Proof.
  induction l as [|n l IH]; intros r C; cbn [above existsb]; [eauto|].
  destruct (betweenness_current now r n C) as (r1 & -> & C1 & E1). destruct (betweenness_current now r1 a C1) as (r2 & -> & C2 & E2).
  rewrite E1. destruct (Qltb _ _); cbn [orb]; [eauto|]. destruct (IH r2 C2) as (r3 & E3). rewrite E3, E2, E1. eauto.
Qed.
Lemma above'_current now a l : forall r, current r -> exists r',
  above' lib now a l r = (r', existsb (fun n => Qltb (l_centrality lib (te_edges r) a) (l_centrality lib (te_edges r) n)) l).
Proof.
  induction l as [|n l IH]; intros r C; cbn [above' existsb]; [eauto|].
  destruct (betweenness_current now r a C) as (r1 & -> & C1 & E1). destruct (betweenness_current now r1 n C1) as (r2 & -> & C2 & E2).
  rewrite E1. destruct (Qltb _ _); cbn [orb]; [eauto|]. destruct (IH r2 C2) as (r3 & E3). rewrite E3, E2, E1. eauto.
Qed.
Lemma Qltb_lt x y : Qltb x y = true <-> (x < y)%Q.
Proof.
  unfold Qltb. rewrite negb_true_iff. split.
  - intros H. apply Qnot_le_lt. intros L. apply Qle_bool_iff in L. congruence.
  - intros H. destruct (Qle_bool y x) eqn:Q; auto. apply Qle_bool_iff in Q. lra.
Qed.
Lemma state_after fs s a w c w' c' l o x : society_inv (s_reg s) (w, c) -> in_state x w a -> get_co c a = None ->
  agent_step code fs s a (w, c) = (w', c', l, o) ->
  exists st r g, person_ok w a st /\ st_name st = x /\ c_resume code s a (st_fun st) w = (r, [], g) /\
    match g with
    | GReturn (PState st') => in_state (st_name st') w' a
    | GReturn PNone => in_state x w' a
    | GRaise d => o = if d then Dead else Exc
    | _ => True
    end.
Proof.
  intros [R EV] (st & C & N) G E. cbn [fst snd] in *. destruct (EV a) as (st0 & OK).
  rewrite (po_cur _ _ _ OK) in C. injection C as ->.
  destruct (activated fs s a w c w' c' l o _ st R (po_kind _ _ _ OK) (po_alive _ _ _ OK) (po_cur _ _ _ OK) E) as (_ & _ & _ & H).
  destruct H as [(X & _)|(_ & r & g & CR & F & _ & ME & H)]; [congruence|].
  exists st, r, g. split; [exact OK|]. split; [exact N|]. split; [exact CR|].
  destruct g as [v k|v|d]; [exact I| |exact H]. destruct v; try exact I.
  - exists st. rewrite ME. split; [reflexivity|exact N].
  - eexists. rewrite ME. split; reflexivity.
Qed.
Lemma haven_stays fs s a w c w' c' l o : society_inv (s_reg s) (w, c) -> kind_of a = AHaven -> get_co c a = None ->
  agent_step code fs s a (w, c) = (w', c', l, o) ->
  in_state "civilian" w a -> (exists b, In b (s_reg s) /\ linked w a b /\ person cf b /\ in_state "civilian" w b) -> in_state "civilian" w' a.
Proof.
  intros I KA G E ST (b & J & L & PE & CB). destruct (state_after _ _ _ _ _ _ _ _ _ _ I ST G E) as (st & r & g & OK & N & CR & H).
  pose proof (po_allowed _ _ _ OK) as A. rewrite KA in A. cbn in A.
  destruct A as [<-|[<-|[]]]; try discriminate. cbn [c_resume terror_code st_fun haven_civilian] in CR. unfold haven_civilian_fn in CR.
  assert (X : In b (neighbors s (fw_rest w) a (fun b => state_in w ["civilian"] b && a_spread cf b))).
  { apply neighbors_iff. split; [exact J|]. split; [exact L|]. apply andb_true_iff. split; [|now apply spread_person].
    apply state_in_iff. exists "civilian". split; [now left|exact CB]. }
  destruct (neighbors s (fw_rest w) a (fun b => state_in w ["civilian"] b && a_spread cf b)) as [|b0 l0]; [destruct X|].
  unfold goto in CR. rewrite (po_kind _ _ _ OK), KA in CR. cbn in CR. injection CR as <- <-. exact H.
Qed.
Lemma leader_steps_down fs s a w c w' c' l o : society_inv (s_reg s) (w, c) -> current (fw_rest w) -> kind_of a = ASpread ->
  in_state "leader" w a -> get_co c a = None -> agent_step code fs s a (w, c) = (w', c', l, o) ->
  let rival b := In b (s_reg s) /\ linked w a b /\ (in_state "terrorist" w b \/ in_state "leader" w b) /\
    (l_centrality lib (te_edges (fw_rest w)) a < l_centrality lib (te_edges (fw_rest w)) b)%Q in
  ((exists b, rival b) -> in_state "terrorist" w' a) /\ ((forall b, ~ rival b) -> in_state "leader" w' a).
Proof.
  intros I CU KA ST G E rival. destruct (state_after _ _ _ _ _ _ _ _ _ _ I ST G E) as (st & r & g & OK & N & CR & H).
  pose proof (po_allowed _ _ _ OK) as A. rewrite KA in A. cbn in A.
  destruct A as [<-|[<-|[<-|[]]]]; try discriminate. cbn [c_resume terror_code st_fun leader] in CR. unfold leader_fn in CR.
  set (r1 := set_belief _ _ _) in CR. assert (C1 : current r1) by (apply current_belief; exact CU).
  set (l0 := neighbors s r1 a (state_in w ["terrorist"; "leader"])) in CR.
  destruct (above_current (s_time s) a l0 r1 C1) as (r2 & AB). rewrite AB in CR. clear AB.
  change (te_edges r1) with (te_edges (fw_rest w)) in CR.
  assert (EX : existsb (fun n => Qltb (l_centrality lib (te_edges (fw_rest w)) a) (l_centrality lib (te_edges (fw_rest w)) n)) l0 = true <-> exists b, rival b).
  { rewrite existsb_exists. unfold rival. split.
    - intros (b & J & L). apply Qltb_lt in L. exists b. change l0 with (neighbors s (fw_rest w) a (state_in w ["terrorist"; "leader"])) in J.
      apply neighbors_iff in J as (X & Y & Z). apply state_in_iff in Z as (z & [<-|[<-|[]]] & Z); auto.
    - intros (b & X & Y & Z & L). exists b. split; [|now apply Qltb_lt].
      change l0 with (neighbors s (fw_rest w) a (state_in w ["terrorist"; "leader"])). apply neighbors_iff. split; [auto|]. split; [auto|].
      apply state_in_iff. destruct Z as [Z|Z]; eexists; (split; [|exact Z]); cbn; auto. }
  destruct (existsb _ l0).
  - unfold goto in CR. rewrite (po_kind _ _ _ OK), KA in CR. cbn in CR. injection CR as <- <-. cbn in H. split; [auto|].
    intros X. destruct EX as [EX _]. destruct (EX eq_refl) as [b RB]. destruct (X b RB).
  - injection CR as <- <-. cbn in H. split; [|auto]. intros X. apply EX in X. discriminate.
Qed.
Lemma terrorist_steps_up fs s a w c w' c' l o : society_inv (s_reg s) (w, c) -> current (fw_rest w) -> kind_of a = ASpread ->
  in_state "terrorist" w a -> get_co c a = None -> agent_step code fs s a (w, c) = (w', c', l, o) -> o <> Exc ->
  let fellow b := In b (s_reg s) /\ linked w a b /\ person cf b /\ (in_state "terrorist" w b \/ in_state "leader" w b) in
  let led b := fellow b /\ (in_state "leader" w b \/
    (l_centrality lib (te_edges (fw_rest w)) a < l_centrality lib (te_edges (fw_rest w)) b)%Q) in
  ((exists b, led b) -> in_state "terrorist" w' a) /\ ((forall b, ~ led b) -> in_state "leader" w' a).
Proof.
  intros I CU KA ST G E NE fellow led. destruct (state_after _ _ _ _ _ _ _ _ _ _ I ST G E) as (st & r & g & OK & N & CR & H).
  pose proof (po_allowed _ _ _ OK) as A. rewrite KA in A. cbn in A.
  destruct A as [<-|[<-|[<-|[]]]]; try discriminate. cbn [c_resume terror_code st_fun terrorist] in CR. unfold terrorist_fn in CR.
  set (l0 := neighbors _ _ _ _) in CR.
  assert (FE : forall b, In b l0 <-> fellow b).
  { intros b. unfold l0. rewrite neighbors_iff, andb_true_iff, state_in_iff, spread_person. unfold fellow. split.
    - intros (X & Y & (x & [<-|[<-|[]]] & Z) & W); auto.
    - intros (X & Y & Z & [W|W]); (split; [auto|]); (split; [auto|]); (split; [|auto]); eexists; (split; [|exact W]); cbn; auto. }
  assert (T : exists r2, current r2 /\ te_edges r2 = te_edges (fw_rest w) /\
    (match filter (state_in w ["leader"]) l0 with
      | [] => match above' lib (s_time s) a l0 r2 with (r4, true) => (r4, [], GReturn PNone) | (r4, false) => goto w a "leader" r4 end
      | _ :: _ => (r2, [], GReturn PNone) end) = (r, [], match g with GYield v _ => GYield v tt | GReturn v => GReturn v | GRaise d => GRaise d end)).
  { destruct l0 as [|i l'] eqn:EL.
    - exists (fw_rest w). split; [exact CU|]. split; [reflexivity|].
      match type of CR with (let '(_, _) := ?t in _) = _ => destruct t as [[r0 ops0] g0] end. injection CR as <- -> <-.
      now destruct g0 as [? []| |].
    - pose proof (sums_same (s_time s) (i :: l') (fw_rest w)) as SS.
      destruct (total_degree cf (s_time s) (i :: l') (fw_rest w)) as [r1 inf].
      destruct (weighted cf (s_time s) inf (i :: l') r1) as [r2 [m|]]; destruct (SS _ _ eq_refl) as [(ED & _) CC].
      + exists (set_belief r2 a (l_pow lib (te_belief r2 a) (1 - additional att))).
        split; [apply current_belief, CC, CU|]. split; [exact ED|].
        match type of CR with (let '(_, _) := ?t in _) = _ => destruct t as [[r0 ops0] g0] end. injection CR as <- -> <-.
        now destruct g0 as [? []| |].
      + exfalso. injection CR as <- <-. cbn in H. exact (NE H). }
  destruct T as (r2 & C2 & E2 & T). clear CR.
  destruct (filter (state_in w ["leader"]) l0) as [|b0 l1] eqn:FL.
  - assert (NL : forall b, In b l0 -> ~ in_state "leader" w b).
    { intros b J L. assert (X : In b (filter (state_in w ["leader"]) l0)).
      { apply filter_In. split; [exact J|]. apply state_in_iff. exists "leader". split; [now left|exact L]. }
      rewrite FL in X. destruct X. }
    destruct (above'_current (s_time s) a l0 r2 C2) as (r4 & AB). rewrite AB, E2 in T. clear AB.
    assert (EX : existsb (fun n => Qltb (l_centrality lib (te_edges (fw_rest w)) a) (l_centrality lib (te_edges (fw_rest w)) n)) l0 = true <-> exists b, led b).
    { rewrite existsb_exists. unfold led. split.
      - intros (b & J & L). apply Qltb_lt in L. exists b. split; [now apply FE|auto].
      - intros (b & J & L). apply FE in J. exists b. split; [exact J|]. apply Qltb_lt. destruct L as [L|L]; [destruct (NL b J L)|exact L]. }
    destruct (existsb _ l0).
    + injection T as _ T. destruct g as [? ?|v|?]; [discriminate| |discriminate]. injection T as <-. cbn in H. split; [auto|].
      intros X. destruct EX as [EX _]. destruct (EX eq_refl) as [b RB]. destruct (X b RB).
    + unfold goto in T. rewrite (po_kind _ _ _ OK), KA in T. cbn in T. injection T as _ T. destruct g as [? ?|v|?]; [discriminate| |discriminate].
      injection T as <-. cbn in H. split; [|auto]. intros X. apply EX in X. discriminate.
  - injection T as _ T. destruct g as [? ?|v|?]; [discriminate| |discriminate]. injection T as <-. cbn in H. split; [auto|].
    intros X. exfalso. assert (J : In b0 (filter (state_in w ["leader"]) l0)) by (rewrite FL; now left).
    apply filter_In in J as [J L]. apply state_in_iff in L as (x & [<-|[]] & L). apply (X b0). split; [now apply FE|auto].
Qed.

Hypothesis CALM : forall a, kind_of a <> ANetwork.
Definition calm_inv (x : tworld * cors (frame tfun)) : Prop := society_inv [] x /\ current (fw_rest (fst x)).
Lemma calm_step fs s a w c w' c' l o : calm_inv (w, c) -> agent_step code fs s a (w, c) = (w', c', l, o) ->
  l = [] /\ calm_inv (w', c') /\ o <> Exc.
Proof.
  intros [I CU] E. destruct (society_step fs s a w c w' c' l o I E) as (-> & I' & _). split; [reflexivity|].
  destruct I as [R EV]. cbn [fst snd] in *. destruct (EV a) as (st & OK).
  destruct (activated fs s a w c w' c' [] o _ st R (po_kind _ _ _ OK) (po_alive _ _ _ OK) (po_cur _ _ _ OK) E) as (_ & _ & _ & H).
  destruct H as [(_ & -> & ->)|(_ & r & g & CR & F & _ & _ & H)].
  - split; [split; auto|discriminate].
  - destruct (resume_calm s w a st r g OK (CALM a) CU CR) as [CU' N]. split; [split; [exact I'|cbn [fst]; now rewrite F]|].
    destruct g as [|v|d]; [destruct H| |now destruct (N d)]. destruct H as [PV ->].
    destruct PV; discriminate.
Qed.
Lemma calm_bucket {AR : Arith} shuffle : forall bucket now s x s' x' tr e, calm_inv x ->
  run_bucket (terror_user cf lib shuffle) now bucket s x = (s', x', tr, e) -> calm_inv x' /\ e = false /\ ~ raised tr.
Proof.
  induction bucket as [|h bucket IH]; intros now s [w c] s' x' tr e I E.
  { injection E as <- <- <- <-. split; [exact I|]. split; [auto|]. intros (t & b & []). }
  cbn [run_bucket] in E. destruct (u_step (terror_user cf lib shuffle) s h (w, c)) as [[[w1 c1] ops] o] eqn:U.
  destruct (calm_step _ _ _ _ _ _ _ _ _ I U) as (-> & I1 & NE). cbn [run_ops] in E.
  assert (X : forall tr3, ~ raised tr3 -> ~ raised (([] ++ [EvAct now h o]) ++ tr3)).
  { intros tr3 N (t & b & J). cbn in J. destruct J as [J|J]; [injection J as _ _ J; contradiction|]. apply N. exists t, b. exact J. }
  destruct o as [d| |]; [| |congruence].
  - match type of E with context [run_bucket ?u now bucket ?s2 (w1, c1)] => destruct (run_bucket u now bucket s2 (w1, c1)) as [[[s3 x3] tr3] e3] eqn:E3 end.
    injection E as <- <- <- <-. destruct (IH _ _ _ _ _ _ _ I1 E3) as (A & B & C). split; [exact A|]. split; [exact B|exact (X _ C)].
  - match type of E with context [run_bucket ?u now bucket ?s2 (w1, c1)] => destruct (run_bucket u now bucket s2 (w1, c1)) as [[[s3 x3] tr3] e3] eqn:E3 end.
    injection E as <- <- <- <-. destruct (IH _ _ _ _ _ _ _ I1 E3) as (A & B & C). split; [exact A|]. split; [exact B|exact (X _ C)].
Qed.
Lemma calm_steps {AR : Arith} shuffle n : fair shuffle -> forall s x s' x' tr, calm_inv x ->
  run_hist (terror_user cf lib shuffle) (repeat CStep n) s x = (s', x', tr) -> ~ raised tr.
Proof.
  intros FA. induction n as [|n IH]; cbn [repeat run_hist run_cmd]; intros s x s' x' tr I E.
  { injection E as <- <- <-. intros (t & b & []). }
  set (u := terror_user cf lib shuffle) in *.
  destruct (timed_step u s x) as [[[s1 x1] tr1] e1] eqn:ST.
  assert (Y : calm_inv x1 /\ ~ raised tr1).
  { unfold timed_step in ST. destruct (s_queue s) as [|[t b] q]; [injection ST as <- <- <- <-; split; [exact I|intros (t & b & [])]|].
    destruct (n_ltb (s_time s) t); [injection ST as <- <- <- <-; split; [exact I|intros (t' & b' & [])]|].
    match type of ST with context [if s_shuffle s then ?y else ?z] => destruct (if s_shuffle s then y else z) as [x0 b0] eqn:SH end.
    assert (I0 : calm_inv x0).
    { destruct (s_shuffle s).
      - destruct x as [w c], x0 as [w0 c0]. destruct (shuffled _ _ _ _ _ _ _ FA SH) as (-> & _ & d & ->). destruct I as [I1 I2].
        split; [now apply draws_inv|exact I2].
      - now injection SH as <- <-. }
    match type of ST with context [run_bucket u ?t' b0 ?s' x0] => destruct (run_bucket u t' b0 s' x0) as [[[s2 x2] tr2] e2] eqn:B end.
    destruct (calm_bucket shuffle _ _ _ _ _ _ _ _ I0 B) as (I2 & -> & NR). injection ST as <- <- <- <-. auto. }
  destruct Y as [I1 NR]. destruct (run_hist u (repeat CStep n) s1 x1) as [[s2 x2] tr2] eqn:E2. injection E as <- <- <-.
  pose proof (IH _ _ _ _ _ I1 E2) as NR2. intros (t & b & J). apply in_app_or in J as [J|J]; [apply NR|apply NR2]; exists t, b; exact J.
Qed.
Lemma calm_run {AR : Arith} shuffle ordered di ids g d1 d2 draws n : fair shuffle -> (forall a, valid_id (kind_of a) (ids a)) ->
  (forall a, share (d1 a)) -> (forall a, share (d2 a)) -> ~ raised (snd (society_run cf lib shuffle ordered di ids g d1 d2 draws n)).
Proof.
  intros FA VI D1 D2. unfold society_run. rewrite run_hist_app.
  assert (AD : forall l s, exists s' tr, run_hist (terror_user cf lib shuffle) (map (fun a => CAdd a None) l) s
    (society cf ids g d1 d2 draws, no_cors) = (s', (society cf ids g d1 d2 draws, no_cors), tr) /\ ~ raised tr).
  { induction l as [|a l IH]; intros s; cbn [map run_hist run_cmd run_op]; [eexists _, _; split; [reflexivity|intros (t & b & [])]|].
    destruct (IH (timed_add s a None)) as (s' & tr & E & N). rewrite E. eexists _, _. split; [reflexivity|].
    intros (t & b & J). cbn in J. destruct J as [J|J]; [discriminate|]. apply N. exists t, b. exact J. }
  destruct (AD (seq 0 (cf_nodes cf)) (timed_init (negb ordered) di)) as (s0 & tr0 & E & N). rewrite E.
  destruct (run_hist _ (repeat CStep n) s0 _) as [[s1 x1] tr1] eqn:E1. cbn [snd].
  assert (N1 : ~ raised tr1).
  { eapply calm_steps; [exact FA| |exact E1]. split; [split; [apply (nobody_waits [])|now apply society_start]|]. split; now left. }
  intros (t & b & J). apply in_app_or in J as [J|J]; [apply N|apply N1]; exists t, b; exact J.
Qed.
Lemma reached_calm s w c : reached cf lib s w c -> current (fw_rest w).
Proof.
  intros (AR & shuffle & ordered & di & ids & g & d1 & d2 & draws & n & tr & FA & VI & D1 & D2 & E).
  destruct (society_starts _ _ _ _ _ _ _ _ _ _ _ _ _ E) as (s0 & tr0 & E0).
  destruct (steps_inv (terror_user cf lib shuffle) (fun _ => calm_inv) listed) with (n := n) (s := s0)
    (x := (society cf ids g d1 d2 draws, @no_cors (frame tfun))) (s' := s) (x' := (w, c)) (tr := tr0) as [[_ H] _]; auto.
  - intros s2 a [w2 c2] [w3 c3] ops o I _ U. destruct (calm_step _ _ _ _ _ _ _ _ _ I U) as (-> & I' & _). repeat split; auto; apply I'.
  - intros l reg [w2 c2] [w3 c3] l' [I X] U. destruct (shuffled _ _ _ _ _ _ _ FA U) as (-> & P & d & ->).
    split; [split; [now apply draws_inv|exact X]|]. split; [auto|]. intros b J. eapply Permutation_in; [apply Permutation_sym; exact P|exact J].
  - split; [|intros ? ? ? ? ?; exact Logic.I]. split; [split; [apply (nobody_waits [])|now apply society_start]|]. split; now left.
Qed.
Lemma mean_scale (weight weight' value : aid -> Q) k l : (~ k == 0)%Q -> (forall a, (weight a == weight' a * k)%Q) ->
  (mean_by weight value l == mean_by weight' value l)%Q.
Proof.
  intros K W. unfold mean_by.
  assert (A : (sum (fun a => value a * weight a) l == sum (fun a => value a * weight' a) l * k)%Q).
  { rewrite <- (sum_scale (fun a => value a * weight' a)%Q). apply sum_ext. intros a _. rewrite W. ring. }
  assert (B : (sum weight l == sum weight' l * k)%Q).
  { rewrite <- (sum_scale weight'). apply sum_ext. intros a _. apply W. }
  rewrite A, B. unfold Qdiv. rewrite Qinv_mult_distr.
  setoid_replace (sum (fun a => value a * weight' a) l * k * (/ sum weight' l * / k))%Q
    with (sum (fun a => value a * weight' a) l * / sum weight' l * (k * / k))%Q by ring.
  rewrite (Qmult_inv_r k K). ring.
Qed.
End Sound.
Lemma ends_links g a : ends g a =
  (List.length (filter (fun e => Nat.eqb (fst e) a) g) + List.length (filter (fun e => Nat.eqb (snd e) a) g))%nat.
Proof.
  unfold ends. induction g as [|[x y] g IH]; cbn [fold_right filter fst snd List.length]; [reflexivity|].
  rewrite IH. destruct (Nat.eqb x a), (Nat.eqb y a); cbn [List.length]; lia.
Qed.
Lemma degree_links g a : (1 < cf_nodes cf)%nat ->
  (degree_centrality cf g a == inject_Z (Z.of_nat (ends g a)) * / inject_Z (Z.of_nat (cf_nodes cf - 1)))%Q.
Proof. intros N. unfold degree_centrality. apply Nat.leb_gt in N. rewrite N. reflexivity. Qed.

(** New relationships. *)
Lemma itself w a l : forall r r', In a l -> (forall g, l_path_length lib g a a = Some 0%nat) ->
  new_relationship cf lib w a l r = (r', true) ->
  exists b, In b l /\ b <> a /\ in_state "civilian" w b /\
    te_edges r' = if adjacent (te_edges r) a b then te_edges r else (a, b) :: te_edges r.
Proof.
  induction l as [|i l IH]; cbn [new_relationship]; intros r r' J P E; [destruct J|].
  destruct (Nat.eq_dec i a) as [->|N]; [rewrite P in E; discriminate|]. destruct J as [J|J]; [congruence|].
  assert (X : forall p, (match l_distance lib a i with
      | None => (r, false)
      | Some d => if state_in w ["civilian"] i then
          let '(x, r1) := draw r in
          if Qltb x (weight_social att * p + weight_link att * (1 - d))%Q
          then (set_edges r1 (if adjacent (te_edges r1) a i then te_edges r1 else (a, i) :: te_edges r1), true)
          else new_relationship cf lib w a l r1
        else new_relationship cf lib w a l r end) = (r', true) ->
    exists b, In b (i :: l) /\ b <> a /\ in_state "civilian" w b /\
      te_edges r' = if adjacent (te_edges r) a b then te_edges r else (a, b) :: te_edges r).
  { clear E. intros p H. destruct (l_distance lib a i) as [d|]; [|discriminate]. destruct (state_in w ["civilian"] i) eqn:SI.
    - destruct (draw r) as [x r1] eqn:D. injection D as <- <-. destruct (Qltb _ _).
      + injection H as <-. exists i. split; [now left|]. split; [exact N|]. split; [|reflexivity].
        apply state_in_iff in SI as (x & [<-|[]] & SI). exact SI.
      + destruct (IH _ _ J P H) as (b & A & B & C & D). exists b. split; [now right|]. auto.
    - destruct (IH _ _ J P H) as (b & A & B & C & D). exists b. split; [now right|]. auto. }
  destruct (l_path_length lib (te_edges r) a i) as [[|n]|]; [discriminate|eapply X; exact E|eapply X; exact E].
Qed.
End Terror.
