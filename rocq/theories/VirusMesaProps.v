(** C238-C240: the three versions of the virus on a network of benchmarks/virusonnetwork against each other. *)
From Coq Require Import ZArith List Bool Arith String Permutation Lia.
From Verif Require Import Num TimedModel AgentModel FsmModel NoopSpec NoopProofs VirusModel VirusSpec VirusProofs VirusProps VirusMesaModel VirusMesaSpec VirusMesaProofs.
Import ListNotations.
Local Open Scope nat_scope.

(** ** C238: the three versions have the same histories *)
(** The version with a step and the one for mesa have all histories in which the agents that are not resistant have their turns in any order in each
    step, and no others, whatever the draws can be; so they have the same. *)
Theorem C238_step_histories_partial : forall (AR : Arith) U nbrs spread check recovery gain di n chosen k h, two U -> ticks di k ->
  (step_can U nbrs spread check recovery gain di n chosen k h <->
   exists h', possible U nbrs spread check recovery gain n chosen k h' /\ forall j a, j <= k -> h' j a = h j a).
Proof.
  intros AR U nbrs spread check recovery gain di n chosen k h (x & y & Ux & Uy & XY) T. split.
  - intros (sh & g & F & D & H). exists (fun j => soil_stat nbrs spread check recovery gain n chosen di sh g j).
    split; [apply soil_sound; assumption|]. intros j a L. unfold soil_stat. destruct (step_run _ _ _ _ _ sh true di n chosen j g) as [[s w] tr] eqn:E. eapply H; eauto.
  - intros (h' & P & H). destruct (soil_complete nbrs spread check recovery gain U n chosen di x y k h' T Ux Uy XY P) as (g & D & R).
    exists (coder x), g. split; [apply coder_fair|]. split; [exact D|]. intros j s w tr L E a. rewrite <- H by exact L. rewrite <- R by exact L.
    unfold soil_stat. now rewrite E.
Qed.
Theorem C238_mesa_histories_partial : forall U nbrs spread check recovery gain n chosen k h, two U ->
  (mesa_can U nbrs spread check recovery gain n chosen k h <->
   exists h', possible U nbrs spread check recovery gain n chosen k h' /\ forall j a, j <= k -> h' j a = h j a).
Proof.
  intros U nbrs spread check recovery gain n chosen k h (x & y & Ux & Uy & XY). split.
  - intros (sh & g & F & D & H). eexists. split; [apply (mesa_sound nbrs spread check recovery gain U n chosen sh g k F D)|]. intros j a L. now apply H.
  - intros (h' & P & H). destruct (mesa_complete nbrs spread check recovery gain U n chosen x y k h' Ux Uy XY P) as (g & D & R).
    exists (coder x), g. split; [apply coder_fair|]. split; [exact D|]. intros j L a. rewrite <- H by exact L. now apply R.
Qed.
Theorem C238_same_histories_partial : forall (AR : Arith) U nbrs nbrs' spread check recovery gain di n chosen k h, two U -> ticks di k -> same_edges nbrs nbrs' ->
  (step_can U nbrs spread check recovery gain di n chosen k h <-> mesa_can U nbrs' spread check recovery gain n chosen k h).
Proof.
  intros AR U nbrs nbrs' spread check recovery gain di n chosen k h H2 T SE.
  rewrite C238_step_histories_partial, C238_mesa_histories_partial by assumption. split; intros (h' & P & H); exists h'; (split; [|exact H]).
  - eapply possible_edges; eauto.
  - eapply possible_edges; [|exact P]. intros a b. symmetry. apply SE.
Qed.
(** Refuted: the version with states does not have all of them.  A virus that gets from one end of a street to the other in one step. *)
Lemma unit_in z : (0 <= z < 1000)%Z -> unit_range 1000 (Fin z).
Proof. intros H. exists z. auto. Qed.
Definition sweep : history := fun j a => match j with 0 => if Nat.eqb a 1 then Infected else Susceptible | _ => if Nat.ltb 0 a && Nat.leb a 4 then Infected else Susceptible end.
Theorem C238_states_refuted : two (unit_range 1000) /\ ticks (AR := exact) (Fin 1000) 1 /\
  mesa_can (unit_range 1000) (on_street 4) (Fin 500) (Fin 500) (Fin 500) (Fin 500) 4 [1] 1 sweep /\
  step_can (AR := exact) (unit_range 1000) (on_street 4) (Fin 500) (Fin 500) (Fin 500) (Fin 500) (Fin 1000) 4 [1] 1 sweep /\
  ~ states_can (AR := exact) (unit_range 1000) (on_street 4) (Fin 500) (Fin 500) (Fin 500) (Fin 500) (Fin 1000) 4 [1] 1 sweep.
Proof.
  assert (T2 : two (unit_range 1000)) by (exists 0%Z, 1%Z; split; [apply unit_in; lia|split; [apply unit_in; lia|lia]]).
  assert (M : mesa_can (unit_range 1000) (on_street 4) (Fin 500) (Fin 500) (Fin 500) (Fin 500) 4 [1] 1 sweep).
  { exists still, (fun i => match i with 0 | 2 | 4 => Fin 100 | _ => Fin 900 end). split; [|split].
    - split; [intros l g; apply Permutation_refl|intros l g D; exact D].
    - intros i. assert (R1 : unit_range 1000 (Fin 100)) by (apply unit_in; lia). assert (R9 : unit_range 1000 (Fin 900)) by (apply unit_in; lia).
      destruct i as [|[|[|[|[|i]]]]]; assumption.
    - intros [|[|j]] L a; [| |lia].
      + vm_compute. destruct a as [|[|[|[|[|a]]]]]; reflexivity.
      + vm_compute. destruct a as [|[|[|[|[|a]]]]]; reflexivity. }
  split; [exact T2|]. split; [apply thousand_ticks|]. split; [exact M|].
  split; [apply (C238_same_histories_partial exact (unit_range 1000) (on_street 4) (on_street 4)); [exact T2|apply thousand_ticks|intros a b; reflexivity|exact M]|].
  intros (sh & g & [F _] & _ & H).
  destruct (virus_run (AR := exact) (on_street 4) (Fin 500) (Fin 500) (Fin 500) (Fin 500) sh true (Fin 1000) 4 [1] 1 g) as [[s x] tr] eqn:E.
  pose proof (H 1 s x tr (le_n 1) E 4) as H4. change (name_of (sweep 1 4)) with "infected"%string in H4.
  pose proof (C190_one_edge_per_step exact _ _ _ _ _ _ F _ _ _ _ _ _ _ _ _ (thousand_ticks 1) E 4 (or_introl H4)) as W.
  cbn [within] in W. destruct W as [[W|[]]|(b & [W|[]] & I)]; [discriminate W|]. subst b. vm_compute in I. destruct I as [I|[]]. discriminate I.
Qed.

(** ** C239: the versions do the same with their default parameters *)
(** Refuted: agents of mesa's can recover and become resistant, those of the others cannot. *)
Theorem C239_defaults_refuted :
  (exists nbrs n chosen shuffle g a, fair (unit_range 1000) shuffle /\ drawn (unit_range 1000) g /\
     sw_status (mw_agents (mesa_run nbrs (Fin 400) (Fin 400) (Fin 300) (Fin 500) shuffle n chosen 1 g)) a = Resistant) /\
  (forall (AR : Arith) nbrs n chosen shuffle g di k s w tr a, fair (unit_range 1000) shuffle -> drawn (unit_range 1000) g -> ticks di k ->
     step_run nbrs (Fin 400) (Fin 400) (Fin 0) (Fin 0) shuffle true di n chosen k g = (s, w, tr) -> sw_status w a <> Resistant).
Proof.
  split.
  - exists (on_street 4), 4, [1], still, (fun i => match i with 0 => Fin 900 | _ => Fin 100 end), 1. split; [|split].
    + split; [intros l g; apply Permutation_refl|intros l g D; exact D].
    + intros [|i]; apply unit_in; lia.
    + vm_compute. reflexivity.
  - intros AR nbrs n chosen sh g di k s w tr a F D T E.
    pose proof (soil_sound nbrs (Fin 400) (Fin 400) (Fin 0) (Fin 0) (unit_range 1000) n chosen di sh g k T F D) as (_ & P0 & PS).
    assert (G : forall j, j <= k -> forall b, soil_stat nbrs (Fin 400) (Fin 400) (Fin 0) (Fin 0) n chosen di sh g j b <> Resistant).
    { induction j as [|j IH]; intros L b; [apply P0|]. destruct (PS j) as (o & _ & _ & Tn); [lia|]. specialize (IH ltac:(lia)). revert Tn IH. clear.
      intros Tn IH. revert b. induction Tn as [st st' H|c l st st1 st' T1 Tn IHn]; intros b; [rewrite H; apply IH|]. apply IHn. clear - T1 IH. intros b.
      unfold turn in T1. destruct (st c) eqn:Sc; try (rewrite T1; apply IH). destruct T1 as (A & B & C).
      destruct (Nat.eq_dec b c) as [->|NE].
      - destruct (st1 c); try discriminate. destruct C as (_ & (u & (z & -> & Z) & Pu) & _). cbn in Pu. apply Z.ltb_lt in Pu. lia.
      - destruct (in_dec Nat.eq_dec b (nbrs c)) as [I|NI].
        + destruct (st b) eqn:Sb.
          * destruct (A b Sb I) as [[-> _]|[-> _]]; discriminate.
          * rewrite B, Sb; [discriminate|exact NE|left; congruence].
          * now destruct (IH b).
        + rewrite B; [apply IH|exact NE|right; exact NI]. }
    specialize (G k (le_n k) a). unfold soil_stat in G. rewrite E in G. exact G.
Qed.

(** ** C240: the assertions of _config.py hold for the version for mesa *)
(** After [k] steps the counter is [k] and the three numbers add up to the number of agents. *)
Theorem C240_config_assertions : forall nbrs spread check recovery gain shuffle n chosen k g,
  let w := mesa_run nbrs spread check recovery gain shuffle n chosen k g in
  mw_steps w = k /\ m_count is_susceptible n w + m_count is_infected n w + m_count is_resistant n w = n.
Proof.
  intros nbrs spread check recovery gain sh n chosen k g w. split.
  - subst w. induction k as [|k IH]; [reflexivity|]. unfold mesa_run in *. cbn [Nat.iter nat_rect]. unfold Nat.iter in *. cbn. unfold m_round at 1.
    destruct (sh _ _). cbn. now rewrite IH.
  - unfold m_count. rewrite <- (seq_length n 1) at 4. fold (virus_ids n). induction (virus_ids n) as [|a l IH]; [reflexivity|].
    cbn [filter List.length]. destruct (sw_status (mw_agents w) a); cbn [is_susceptible is_infected is_resistant List.length]; lia.
Qed.
(** And so does the assertion of the other versions on the outbreak. *)
Theorem C240_outbreak : forall nbrs spread check recovery gain shuffle n chosen size g, sample n chosen (Nat.min size n) ->
  let w := mesa_run nbrs spread check recovery gain shuffle n chosen 0 g in
  m_count is_infected n w = Nat.min size n /\ m_count is_resistant n w = 0.
Proof.
  intros nbrs spread check recovery gain sh n chosen size g (N & I & L) w. unfold m_count. subst w. cbn [mesa_run Nat.iter nat_rect]. split.
  - rewrite <- L. apply Permutation_length, NoDup_Permutation; [apply NoDup_filter, ids_nodup|exact N|]. intros a. rewrite filter_In.
    change (sw_status (mw_agents (m_init n chosen g)) a) with (stat (m_init n chosen g) a). rewrite m_init_spec. unfold st0.
    destruct (existsb (Nat.eqb a) chosen && existsb (Nat.eqb a) (virus_ids n)) eqn:E.
    + apply andb_true_iff in E as [E1 E2]. apply in_existsb in E1, E2. tauto.
    + split; [intros [_ X]; discriminate X|]. intros J. pose proof (I a J) as J2. apply in_existsb in J, J2. rewrite J, J2 in E. discriminate E.
  - apply length_zero_iff_nil. apply filter_none. intros a _.
    change (sw_status (mw_agents (m_init n chosen g)) a) with (stat (m_init n chosen g) a). rewrite m_init_spec.
    pose proof (st0_not_resistant n chosen a). destruct (st0 n chosen a); auto. contradiction.
Qed.

(** Cases.  Six agents on a street, as for C187: the version for mesa, with a shuffle that spends a draw. *)
Definition numbers_m (k : nat) : nat * nat * nat * nat :=
  let w := mesa_run (on_street 6) (Fin 400) (Fin 800) (Fin 500) (Fin 500) around 6 [2; 5] k dice in
  (m_count is_susceptible 6 w, m_count is_infected 6 w, m_count is_resistant 6 w, mw_steps w).
Example C240_case : sample 6 [2; 5] (Nat.min 2 6) /\ map numbers_m [0; 2; 4; 8] = [(4, 2, 0, 0); (2, 3, 1, 2); (3, 2, 1, 4); (4, 0, 2, 8)].
Proof. split; [exact two_of_six|vm_compute; reflexivity]. Qed.
(** Its history is one of the version with a step too, in which agents become resistant. *)
Example C238_case : two (unit_range 1000) /\ fair (unit_range 1000) around /\ drawn (unit_range 1000) dice /\
  step_can (AR := exact) (unit_range 1000) (on_street 6) (Fin 400) (Fin 800) (Fin 500) (Fin 500) (Fin 1000) 6 [2; 5] 8
    (fun j => sw_status (mw_agents (mesa_run (on_street 6) (Fin 400) (Fin 800) (Fin 500) (Fin 500) around 6 [2; 5] j dice))).
Proof.
  assert (D : drawn (unit_range 1000) dice).
  { intros i. unfold dice. apply unit_in. apply Z.mod_pos_bound. lia. }
  assert (F : fair (unit_range 1000) around) by (split; [exact around_rearranges|intros l g H i; apply H]).
  split; [exact (proj1 C238_states_refuted)|]. split; [exact F|]. split; [exact D|].
  apply (C238_same_histories_partial exact _ (on_street 6) (on_street 6)); [exact (proj1 C238_states_refuted)|apply thousand_ticks|intros a b; reflexivity|].
  exists around, dice. auto.
Qed.

Print Assumptions C238_step_histories_partial.
Print Assumptions C238_mesa_histories_partial.
Print Assumptions C238_same_histories_partial.
Print Assumptions C238_states_refuted.
Print Assumptions C239_defaults_refuted.
Print Assumptions C240_config_assertions.
Print Assumptions C240_outbreak.
