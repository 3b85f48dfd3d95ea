(** C187-C193: the virus on a network of benchmarks/virusonnetwork. *)
From Coq Require Import ZArith List Bool Arith String Permutation Lia.
From Verif Require Import Num TimedModel AgentModel FsmModel NoopSpec NoopProofs VirusModel VirusSpec VirusProofs.
Import ListNotations.
Local Open Scope string_scope.
Local Open Scope nat_scope.

(** C187.  After [init] the sampled agents are infected, all others are susceptible: the assertions of soil_states.py:32 and soil_step.py:38
    hold for every size of the outbreak. *)
Theorem C187_outbreak : forall (AR : Arith) nbrs spread check recovery gain shuffle, rearranges shuffle ->
  forall di n chosen shuffled size g s x tr, sample n chosen (Nat.min size n) ->
  virus_run nbrs spread check recovery gain shuffle shuffled di n chosen 0 g = (s, x, tr) ->
  count_in "infected" s x = Nat.min size n /\ count_in "susceptible" s x = n - Nat.min size n /\ count_in "resistant" s x = 0.
Proof. intros AR nbrs spread check recovery gain shuffle H di n chosen. exact (outbreak_a nbrs spread check recovery gain shuffle H di n chosen). Qed.
Print Assumptions C187_outbreak.
Theorem C187_outbreak_step : forall (AR : Arith) nbrs spread check recovery gain shuffle, rearranges shuffle ->
  forall di n chosen shuffled size g s w tr, sample n chosen (Nat.min size n) ->
  step_run nbrs spread check recovery gain shuffle shuffled di n chosen 0 g = (s, w, tr) ->
  count_status is_infected s w = Nat.min size n /\ count_status is_susceptible s w = n - Nat.min size n /\ count_status is_resistant s w = 0.
Proof. intros AR nbrs spread check recovery gain shuffle H di n chosen. exact (outbreak_b nbrs spread check recovery gain shuffle H di n chosen). Qed.
Print Assumptions C187_outbreak_step.

(** C188.  The three numbers add up to the number of agents after any number of steps: the last assertion of _config.py. *)
Theorem C188_numbers_add_up : forall (AR : Arith) nbrs spread check recovery gain shuffle, rearranges shuffle ->
  forall di n chosen k shuffled g s x tr, ticks di k ->
  virus_run nbrs spread check recovery gain shuffle shuffled di n chosen k g = (s, x, tr) ->
  count_in "susceptible" s x + count_in "infected" s x + count_in "resistant" s x = n.
Proof. intros AR nbrs spread check recovery gain shuffle H di n chosen. exact (sums_a nbrs spread check recovery gain shuffle H di n chosen). Qed.
Print Assumptions C188_numbers_add_up.
Theorem C188_numbers_add_up_step : forall (AR : Arith) nbrs spread check recovery gain shuffle, rearranges shuffle ->
  forall di n chosen k shuffled g s w tr, ticks di k ->
  step_run nbrs spread check recovery gain shuffle shuffled di n chosen k g = (s, w, tr) ->
  count_status is_susceptible s w + count_status is_infected s w + count_status is_resistant s w = n.
Proof. intros AR nbrs spread check recovery gain shuffle H di n chosen. exact (sums_b nbrs spread check recovery gain shuffle H di n chosen). Qed.
Print Assumptions C188_numbers_add_up_step.
(** C188.  Between steps only susceptible agents have just been infected. *)
Theorem C188_just_been_infected : forall (AR : Arith) nbrs spread check recovery gain shuffle, rearranges shuffle ->
  forall di n chosen k shuffled g s x tr, ticks di k ->
  virus_run nbrs spread check recovery gain shuffle shuffled di n chosen k g = (s, x, tr) ->
  forall a, vr_flag (fw_rest (fst x)) a = true -> state_id x a "susceptible".
Proof. intros AR nbrs spread check recovery gain shuffle H di n chosen. exact (marked_a nbrs spread check recovery gain shuffle H di n chosen). Qed.
Print Assumptions C188_just_been_infected.

(** C189.  Resistance lasts. *)
Theorem C189_resistance_lasts : forall (AR : Arith) nbrs spread check recovery gain shuffle, rearranges shuffle ->
  forall di n chosen k j shuffled g s1 x1 tr1 s2 x2 tr2, ticks di (k + j) ->
  virus_run nbrs spread check recovery gain shuffle shuffled di n chosen k g = (s1, x1, tr1) ->
  virus_run nbrs spread check recovery gain shuffle shuffled di n chosen (k + j) g = (s2, x2, tr2) ->
  forall a, state_id x1 a "resistant" -> state_id x2 a "resistant".
Proof. intros AR nbrs spread check recovery gain shuffle H di n chosen. exact (forever_a nbrs spread check recovery gain shuffle H di n chosen). Qed.
Print Assumptions C189_resistance_lasts.
Theorem C189_resistance_lasts_step : forall (AR : Arith) nbrs spread check recovery gain shuffle, rearranges shuffle ->
  forall di n chosen k j shuffled g s1 w1 tr1 s2 w2 tr2, ticks di (k + j) ->
  step_run nbrs spread check recovery gain shuffle shuffled di n chosen k g = (s1, w1, tr1) ->
  step_run nbrs spread check recovery gain shuffle shuffled di n chosen (k + j) g = (s2, w2, tr2) ->
  forall a, sw_status w1 a = Resistant -> sw_status w2 a = Resistant.
Proof. intros AR nbrs spread check recovery gain shuffle H di n chosen. exact (forever_b nbrs spread check recovery gain shuffle H di n chosen). Qed.
Print Assumptions C189_resistance_lasts_step.
(** C189.  In the version with states, all agents act once in the first step; in any other step exactly those act, once, that were not
    resistant before the step before. *)
Theorem C189_who_acts_first : forall (AR : Arith) nbrs spread check recovery gain shuffle, rearranges shuffle ->
  forall di n chosen shuffled g s x tr s' x' tr' failed, ticks di 1 ->
  virus_run nbrs spread check recovery gain shuffle shuffled di n chosen 0 g = (s, x, tr) ->
  timed_step (virus_user nbrs spread check recovery gain shuffle) s x = (s', x', tr', failed) ->
  Permutation (virus_ids n) (actors tr') /\ failed = false.
Proof. intros AR nbrs spread check recovery gain shuffle H di n chosen. exact (first_a nbrs spread check recovery gain shuffle H di n chosen). Qed.
Print Assumptions C189_who_acts_first.
Theorem C189_who_acts : forall (AR : Arith) nbrs spread check recovery gain shuffle, rearranges shuffle ->
  forall di n chosen k shuffled g s1 x1 tr1 s2 x2 tr2 s3 x3 tr3 failed, ticks di (S (S k)) ->
  virus_run nbrs spread check recovery gain shuffle shuffled di n chosen k g = (s1, x1, tr1) ->
  virus_run nbrs spread check recovery gain shuffle shuffled di n chosen (S k) g = (s2, x2, tr2) ->
  timed_step (virus_user nbrs spread check recovery gain shuffle) s2 x2 = (s3, x3, tr3, failed) ->
  Permutation (filter (fun a => negb (in_state "resistant" (fw_agents (fst x1) a))) (virus_ids n)) (actors tr3) /\ failed = false.
Proof. intros AR nbrs spread check recovery gain shuffle H di n chosen. exact (next_acts_a nbrs spread check recovery gain shuffle H di n chosen). Qed.
Print Assumptions C189_who_acts.
(** C189.  In the version with a step exactly those act, once, that are not resistant. *)
Theorem C189_who_acts_step : forall (AR : Arith) nbrs spread check recovery gain shuffle, rearranges shuffle ->
  forall di n chosen k shuffled g s1 w1 tr1 s2 w2 tr2 failed, ticks di (S k) ->
  step_run nbrs spread check recovery gain shuffle shuffled di n chosen k g = (s1, w1, tr1) ->
  timed_step (step_user nbrs spread check recovery gain shuffle) s1 w1 = (s2, w2, tr2, failed) ->
  Permutation (filter (fun a => negb (is_resistant (sw_status w1 a))) (virus_ids n)) (actors tr2) /\ failed = false.
Proof. intros AR nbrs spread check recovery gain shuffle H di n chosen. exact (next_acts_b nbrs spread check recovery gain shuffle H di n chosen). Qed.
Print Assumptions C189_who_acts_step.

(** C190.  With states the virus gets at most one edge further in each step. *)
Theorem C190_one_edge_per_step : forall (AR : Arith) nbrs spread check recovery gain shuffle, rearranges shuffle ->
  forall di n chosen k shuffled g s x tr, ticks di k ->
  virus_run nbrs spread check recovery gain shuffle shuffled di n chosen k g = (s, x, tr) ->
  forall a, state_id x a "infected" \/ vr_flag (fw_rest (fst x)) a = true -> within nbrs chosen k a.
Proof. intros AR nbrs spread check recovery gain shuffle H di n chosen. exact (near_a nbrs spread check recovery gain shuffle H di n chosen). Qed.
Print Assumptions C190_one_edge_per_step.
(** C190.  With a step it only gets to where a path leads. *)
Theorem C190_along_edges_step_partial : forall (AR : Arith) nbrs spread check recovery gain shuffle, rearranges shuffle ->
  forall di n chosen k shuffled g s w tr, ticks di k ->
  step_run nbrs spread check recovery gain shuffle shuffled di n chosen k g = (s, w, tr) ->
  forall a, sw_status w a = Infected -> exists j, within nbrs chosen j a.
Proof. intros AR nbrs spread check recovery gain shuffle H di n chosen. exact (near_b nbrs spread check recovery gain shuffle H di n chosen). Qed.
Print Assumptions C190_along_edges_step_partial.

(** A street of agents. *)
Definition street (a : aid) : list aid := [a - 1; a + 1].
Definition on_street (n : nat) (a : aid) : list aid := filter (fun b => (1 <=? b)%nat && (b <=? n)%nat) (street a).
Definition still (l : list aid) (g : draws) : draws * list aid := (g, l).
Definition half : draws := fun _ => Fin 500.
(** C190.  But with a step it can get from one end of a street to the other in one step, because agents are infected at once and those that
    have not acted in this step infect others. *)
Theorem C190_one_edge_per_step_refuted :
  exists nbrs n chosen g s w tr a, rearranges still /\ sample n chosen 1 /\ ticks (AR := exact) (Fin 1000) 1 /\
  step_run (AR := exact) nbrs (Fin 1000) (Fin 0) (Fin 0) (Fin 0) still false (Fin 1000) n chosen 1 g = (s, w, tr) /\
  sw_status w a = Infected /\ ~ within nbrs chosen 5 a /\ within nbrs chosen 6 a.
Proof.
  exists (on_street 7), 7, [1], half. eexists _, _, _, 7. split; [intros l g; apply Permutation_refl|].
  split. { split; [repeat constructor; intros []|]. split; [|reflexivity]. intros a [<-|[]]. apply in_seq. lia. }
  split. { apply ticks_exact; reflexivity. }
  split; [vm_compute; reflexivity|]. split; [reflexivity|].
  assert (G : forall k a, within (on_street 7) [1] k a -> a <= S k).
  { induction k as [|k IH]; cbn [within]; intros a H; [destruct H as [<-|[]]; lia|]. destruct H as [H|(b & H & I)]; [apply IH in H; lia|].
    apply IH in H. apply filter_In in I as [I _]. destruct I as [<-|[<-|[]]]; lia. }
  split; [intros H; apply G in H; lia|].
  assert (P : forall k, k <= 6 -> within (on_street 7) [1] k (S k)).
  { induction k as [|k IH]; intros L; [now left|]. right. exists (S k). split; [apply IH; lia|]. apply filter_In. split.
    - right. left. lia.
    - apply andb_true_iff. split; apply Nat.leb_le; lia. }
  apply P. lia.
Qed.
Print Assumptions C190_one_edge_per_step_refuted.

(** C191.  If the virus spreads for sure and nobody recovers, everyone at most [d] edges from the outbreak is infected after [2 * d] steps
    with states, and after [d] steps with a step. *)
Theorem C191_epidemic : forall (AR : Arith) nbrs spread check recovery gain shuffle, rearranges shuffle ->
  forall di n chosen one, keeps_unit one shuffle ->
  forall k shuffled g s x tr, ticks di k -> n_leb one spread = true -> n_leb recovery (Fin 0) = true ->
  (forall a b, In a (virus_ids n) -> In b (nbrs a) -> In b (virus_ids n)) -> (forall a, In a chosen -> In a (virus_ids n)) -> unit_draws one g ->
  virus_run nbrs spread check recovery gain shuffle shuffled di n chosen k g = (s, x, tr) ->
  forall d a, 2 * d <= k -> within nbrs chosen d a -> state_id x a "infected".
Proof. intros AR nbrs spread check recovery gain shuffle H di n chosen. exact (spreads_a nbrs spread check recovery gain shuffle H di n chosen). Qed.
Print Assumptions C191_epidemic.
Theorem C191_epidemic_step : forall (AR : Arith) nbrs spread check recovery gain shuffle, rearranges shuffle ->
  forall di n chosen one, keeps_unit one shuffle ->
  forall k shuffled g s w tr, ticks di k -> n_leb one spread = true -> n_leb recovery (Fin 0) = true ->
  (forall a b, In a (virus_ids n) -> In b (nbrs a) -> In b (virus_ids n)) -> (forall a, In a chosen -> In a (virus_ids n)) -> unit_draws one g ->
  step_run nbrs spread check recovery gain shuffle shuffled di n chosen k g = (s, w, tr) ->
  forall a, within nbrs chosen k a -> sw_status w a = Infected.
Proof. intros AR nbrs spread check recovery gain shuffle H di n chosen. exact (spreads_b nbrs spread check recovery gain shuffle H di n chosen). Qed.
Print Assumptions C191_epidemic_step.
(** C191.  Without recovery, the infected stay infected. *)
Theorem C191_no_recovery : forall (AR : Arith) nbrs spread check recovery gain shuffle, rearranges shuffle ->
  forall di n chosen one, keeps_unit one shuffle ->
  forall k j shuffled g s1 x1 tr1 s2 x2 tr2, ticks di (k + j) -> n_leb recovery (Fin 0) = true -> unit_draws one g ->
  virus_run nbrs spread check recovery gain shuffle shuffled di n chosen k g = (s1, x1, tr1) ->
  virus_run nbrs spread check recovery gain shuffle shuffled di n chosen (k + j) g = (s2, x2, tr2) ->
  forall a, state_id x1 a "infected" -> state_id x2 a "infected".
Proof. intros AR nbrs spread check recovery gain shuffle H di n chosen. exact (ill_a nbrs spread check recovery gain shuffle H di n chosen). Qed.
Print Assumptions C191_no_recovery.
Theorem C191_no_recovery_step : forall (AR : Arith) nbrs spread check recovery gain shuffle, rearranges shuffle ->
  forall di n chosen one, keeps_unit one shuffle ->
  forall k j shuffled g s1 w1 tr1 s2 w2 tr2, ticks di (k + j) -> n_leb recovery (Fin 0) = true -> unit_draws one g ->
  step_run nbrs spread check recovery gain shuffle shuffled di n chosen k g = (s1, w1, tr1) ->
  step_run nbrs spread check recovery gain shuffle shuffled di n chosen (k + j) g = (s2, w2, tr2) ->
  forall a, sw_status w1 a = Infected -> sw_status w2 a = Infected.
Proof. intros AR nbrs spread check recovery gain shuffle H di n chosen. exact (ill_b nbrs spread check recovery gain shuffle H di n chosen). Qed.
Print Assumptions C191_no_recovery_step.

(** C192.  When nobody is infected, nor has just been, nothing changes any more. *)
Theorem C192_extinction : forall (AR : Arith) nbrs spread check recovery gain shuffle, rearranges shuffle ->
  forall di n chosen k j shuffled g s1 x1 tr1 s2 x2 tr2, ticks di (k + j) ->
  virus_run nbrs spread check recovery gain shuffle shuffled di n chosen k g = (s1, x1, tr1) ->
  virus_run nbrs spread check recovery gain shuffle shuffled di n chosen (k + j) g = (s2, x2, tr2) ->
  (forall a, ~ state_id x1 a "infected" /\ vr_flag (fw_rest (fst x1)) a = false) -> forall a name, state_id x2 a name <-> state_id x1 a name.
Proof. intros AR nbrs spread check recovery gain shuffle H di n chosen. exact (extinct_a nbrs spread check recovery gain shuffle H di n chosen). Qed.
Print Assumptions C192_extinction.
Theorem C192_extinction_step : forall (AR : Arith) nbrs spread check recovery gain shuffle, rearranges shuffle ->
  forall di n chosen k j shuffled g s1 w1 tr1 s2 w2 tr2, ticks di (k + j) ->
  step_run nbrs spread check recovery gain shuffle shuffled di n chosen k g = (s1, w1, tr1) ->
  step_run nbrs spread check recovery gain shuffle shuffled di n chosen (k + j) g = (s2, w2, tr2) ->
  (forall a, sw_status w1 a <> Infected) -> forall a, sw_status w2 a = sw_status w1 a.
Proof. intros AR nbrs spread check recovery gain shuffle H di n chosen. exact (extinct_b nbrs spread check recovery gain shuffle H di n chosen). Qed.
Print Assumptions C192_extinction_step.

(** C193.  As long as someone is not resistant, the counter of the scheduler is the number of steps. *)
Theorem C193_counts_steps_partial : forall (AR : Arith) nbrs spread check recovery gain shuffle, rearranges shuffle ->
  forall di n chosen k shuffled g s x tr a, ticks di k ->
  virus_run nbrs spread check recovery gain shuffle shuffled di n chosen k g = (s, x, tr) ->
  In a (virus_ids n) -> ~ state_id x a "resistant" -> s_steps s = k.
Proof. intros AR nbrs spread check recovery gain shuffle H di n chosen. exact (steps_a nbrs spread check recovery gain shuffle H di n chosen). Qed.
Print Assumptions C193_counts_steps_partial.
Theorem C193_counts_steps_step_partial : forall (AR : Arith) nbrs spread check recovery gain shuffle, rearranges shuffle ->
  forall di n chosen k shuffled g s w tr a, ticks di k ->
  step_run nbrs spread check recovery gain shuffle shuffled di n chosen k g = (s, w, tr) ->
  In a (virus_ids n) -> sw_status w a <> Resistant -> s_steps s = k.
Proof. intros AR nbrs spread check recovery gain shuffle H di n chosen. exact (steps_b nbrs spread check recovery gain shuffle H di n chosen). Qed.
Print Assumptions C193_counts_steps_step_partial.
(** C193.  When everyone gets resistant it stops: with all infected, and sure checks, recovery and resistance, it never gets above 2, or 1. *)
Theorem C193_counts_steps_refuted : forall (AR : Arith) nbrs spread check recovery gain shuffle, rearranges shuffle ->
  forall di n chosen one, keeps_unit one shuffle ->
  forall k shuffled g s x tr, ticks di (S (S k)) -> n_leb one check = true -> n_leb one recovery = true -> n_leb one gain = true -> unit_draws one g ->
  (forall a, In a (virus_ids n) -> In a chosen) -> 0 < n ->
  virus_run nbrs spread check recovery gain shuffle shuffled di n chosen (S (S k)) g = (s, x, tr) -> s_steps s = 2 /\ s_queue s = [].
Proof. intros AR nbrs spread check recovery gain shuffle H di n chosen. exact (stuck_a nbrs spread check recovery gain shuffle H di n chosen). Qed.
Print Assumptions C193_counts_steps_refuted.
Theorem C193_counts_steps_step_refuted : forall (AR : Arith) nbrs spread check recovery gain shuffle, rearranges shuffle ->
  forall di n chosen one, keeps_unit one shuffle ->
  forall k shuffled g s w tr, ticks di (S k) -> n_leb one check = true -> n_leb one recovery = true -> n_leb one gain = true -> unit_draws one g ->
  (forall a, In a (virus_ids n) -> In a chosen) -> 0 < n ->
  step_run nbrs spread check recovery gain shuffle shuffled di n chosen (S k) g = (s, w, tr) -> s_steps s = 1 /\ s_queue s = [].
Proof. intros AR nbrs spread check recovery gain shuffle H di n chosen. exact (stuck_b nbrs spread check recovery gain shuffle H di n chosen). Qed.
Print Assumptions C193_counts_steps_step_refuted.

(** Amounts in thousandths.  Six agents on a street, two of them infected at first, with a shuffle that turns lists around and spends a draw. *)
Definition around (l : list aid) (g : draws) : draws * list aid := (fun i => g (S i), rev l).
Definition dice : draws := fun i => Fin ((Z.of_nat i * Z.of_nat i * 377 + Z.of_nat i * 91) mod 1000).
Lemma around_rearranges : rearranges around.
Proof. intros l g. apply Permutation_rev. Qed.
Lemma around_unit : keeps_unit (Fin 1000) around.
Proof. intros l g U i. apply U. Qed.
Lemma dice_unit : unit_draws (Fin 1000) dice.
Proof.
  intros i. unfold dice, n_leb, n_ltb, n_eqb.
  pose proof (Z.mod_pos_bound (Z.of_nat i * Z.of_nat i * 377 + Z.of_nat i * 91) 1000 ltac:(lia)) as U.
  split; [apply orb_true_iff; rewrite Z.ltb_lt, Z.eqb_eq|apply Z.ltb_lt]; lia.
Qed.
Lemma thousand_ticks k : ticks (AR := exact) (Fin 1000) k.
Proof. apply ticks_exact; reflexivity. Qed.
Lemma two_of_six : sample 6 [2; 5] (Nat.min 2 6).
Proof.
  split; [|split; [|reflexivity]].
  - repeat constructor; cbn; intuition discriminate.
  - intros a [<-|[<-|[]]]; apply in_seq; lia.
Qed.
Definition numbers_a (k : nat) : nat * nat * nat * nat :=
  let '(s, x, tr) := virus_run (AR := exact) (on_street 6) (Fin 400) (Fin 800) (Fin 500) (Fin 500) around true (Fin 1000) 6 [2; 5] k dice in
  (count_in "susceptible" s x, count_in "infected" s x, count_in "resistant" s x, s_steps s).
Definition numbers_b (k : nat) : nat * nat * nat * nat :=
  let '(s, w, tr) := step_run (AR := exact) (on_street 6) (Fin 400) (Fin 800) (Fin 500) (Fin 500) around true (Fin 1000) 6 [2; 5] k dice in
  (count_status is_susceptible s w, count_status is_infected s w, count_status is_resistant s w, s_steps s).
(** Agents get infected, recover and become resistant (C187, C188, C192). *)
Example C187_case : rearranges around /\ sample 6 [2; 5] (Nat.min 2 6) /\ numbers_a 0 = (4, 2, 0, 0) /\ numbers_b 0 = (4, 2, 0, 0).
Proof. split; [exact around_rearranges|split; [exact two_of_six|split; vm_compute; reflexivity]]. Qed.
Example C188_case : ticks (AR := exact) (Fin 1000) 32 /\
  map numbers_a [2; 4; 8] = [(3, 3, 0, 2); (4, 2, 0, 4); (2, 2, 2, 8)] /\ map numbers_b [2; 4; 8] = [(2, 4, 0, 2); (1, 5, 0, 4); (2, 0, 4, 8)].
Proof. split; [apply thousand_ticks|split; vm_compute; reflexivity]. Qed.
Definition flags_a (k : nat) : list aid :=
  let '(s, x, tr) := virus_run (AR := exact) (on_street 6) (Fin 400) (Fin 800) (Fin 500) (Fin 500) around true (Fin 1000) 6 [2; 5] k dice in
  filter (vr_flag (fw_rest (fst x))) (virus_ids 6).
Definition in_a (name : string) (k : nat) : list aid :=
  let '(s, x, tr) := virus_run (AR := exact) (on_street 6) (Fin 400) (Fin 800) (Fin 500) (Fin 500) around true (Fin 1000) 6 [2; 5] k dice in
  filter (fun a => in_state name (fw_agents (fst x) a)) (virus_ids 6).
Definition acts_a (k : nat) : list aid :=
  let '(s, x, tr) := virus_run (AR := exact) (on_street 6) (Fin 400) (Fin 800) (Fin 500) (Fin 500) around true (Fin 1000) 6 [2; 5] k dice in
  let '(_, _, tr', _) := timed_step (AR := exact) (virus_user (on_street 6) (Fin 400) (Fin 800) (Fin 500) (Fin 500) around) s x in actors tr'.
Definition in_b (p : status -> bool) (k : nat) : list aid :=
  let '(s, w, tr) := step_run (AR := exact) (on_street 6) (Fin 400) (Fin 800) (Fin 500) (Fin 500) around true (Fin 1000) 6 [2; 5] k dice in
  filter (fun a => p (sw_status w a)) (virus_ids 6).
Definition acts_b (k : nat) : list aid :=
  let '(s, w, tr) := step_run (AR := exact) (on_street 6) (Fin 400) (Fin 800) (Fin 500) (Fin 500) around true (Fin 1000) 6 [2; 5] k dice in
  let '(_, _, tr', _) := timed_step (AR := exact) (step_user (on_street 6) (Fin 400) (Fin 800) (Fin 500) (Fin 500) around) s w in actors tr'.
Example C188_flag_case : flags_a 1 = [3] /\ In 3 (in_a "susceptible" 1) /\ in_a "infected" 2 = [1; 2; 3].
Proof. split; [vm_compute; reflexivity|split; [vm_compute; auto|vm_compute; reflexivity]]. Qed.
(** C189: agent 1 became resistant in the eighth step; it acts in the ninth, but not in the tenth. *)
Example C189_case : map (in_a "resistant") [7; 8; 9] = [[2]; [1; 2]; [1; 2; 4]] /\ acts_a 0 = [6; 5; 4; 3; 2; 1] /\
  acts_a 8 = [6; 5; 4; 3; 1] /\ acts_a 9 = [3; 4; 5; 6].
Proof. repeat split; vm_compute; reflexivity. Qed.
Example C189_step_case : map (in_b is_resistant) [4; 5; 6] = [[]; [4]; [1; 4; 5]] /\ acts_b 5 = [1; 2; 3; 5; 6] /\ acts_b 6 = [6; 3; 2].
Proof. repeat split; vm_compute; reflexivity. Qed.
(** C190: agent 3 is marked in the first step and infected in the second. *)
Example C190_case : in_a "infected" 0 = [2; 5] /\ In 3 (flags_a 1) /\ In 3 (in_a "infected" 2) /\ ~ within (on_street 6) [2; 5] 0 3.
Proof. split; [vm_compute; reflexivity|]. split; [vm_compute; auto|]. split; [vm_compute; auto|]. intros [H|[H|[]]]; discriminate. Qed.
(** C192: in the version with a step nobody is infected after eight steps, although two agents are not resistant; and with states after twelve. *)
Example C192_case : in_b is_infected 8 = [] /\ in_b is_susceptible 8 = [3; 6] /\ in_a "infected" 12 = [] /\ flags_a 12 = [] /\ in_a "susceptible" 12 = [3; 6].
Proof. repeat split; vm_compute; reflexivity. Qed.
(** C191: a sure virus, in a street of five. *)
Definition sure_a (k : nat) : list aid :=
  let '(s, x, tr) := virus_run (AR := exact) (on_street 5) (Fin 1000) (Fin 800) (Fin 0) (Fin 500) around true (Fin 1000) 5 [2] k dice in
  filter (fun a => in_state "infected" (fw_agents (fst x) a)) (virus_ids 5).
Example C191_case : keeps_unit (Fin 1000) around /\ unit_draws (Fin 1000) dice /\
  (forall a b, In a (virus_ids 5) -> In b (on_street 5 a) -> In b (virus_ids 5)) /\ within (on_street 5) [2] 3 5 /\
  map sure_a [0; 1; 2; 3; 4; 5; 6] = [[2]; [1; 2]; [1; 2; 3]; [1; 2; 3]; [1; 2; 3; 4]; [1; 2; 3; 4]; [1; 2; 3; 4; 5]].
Proof.
  split; [exact around_unit|]. split; [exact dice_unit|]. split.
  { intros a b _ H. apply filter_In in H as [_ H]. apply andb_true_iff in H as [H G]. apply Nat.leb_le in H, G. apply in_seq. lia. }
  split; [|vm_compute; reflexivity]. right. exists 4. split; [|vm_compute; auto]. right. exists 3. split; [|vm_compute; auto].
  right. exists 2. split; [now left|vm_compute; auto].
Qed.
(** C193: everyone infected, everything sure. *)
Definition doomed_a (k : nat) : nat :=
  let '(s, x, tr) := virus_run (AR := exact) (on_street 3) (Fin 400) (Fin 1000) (Fin 1000) (Fin 1000) around true (Fin 1000) 3 [1; 2; 3] k dice in s_steps s.
Definition doomed_b (k : nat) : nat :=
  let '(s, w, tr) := step_run (AR := exact) (on_street 3) (Fin 400) (Fin 1000) (Fin 1000) (Fin 1000) around true (Fin 1000) 3 [1; 2; 3] k dice in s_steps s.
Example C193_case : map doomed_a [0; 1; 2; 3; 7] = [0; 1; 2; 2; 2] /\ map doomed_b [0; 1; 2; 3; 7] = [0; 1; 1; 1; 1] /\
  (forall a, In a (virus_ids 3) -> In a [1; 2; 3]) /\ n_leb (Fin 1000) (Fin 1000) = true.
Proof. split; [vm_compute; reflexivity|]. split; [vm_compute; reflexivity|]. split; [intros a H; exact H|reflexivity]. Qed.
