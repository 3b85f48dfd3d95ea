(** C194-C198: the small examples. *)
From Coq Require Import ZArith List Bool Arith String Permutation Lia.
From Verif Require Import Num TimedModel AgentModel FsmModel NoopSpec NoopProofs VirusModel VirusSpec DemoModel DemoSpec DemoProofs Binary64Model Binary64Proofs.
Import ListNotations.
Local Open Scope string_scope.
Local Open Scope list_scope.
Local Open Scope nat_scope.

(** C194.  The agent of random_delays says "Ping" at 0, and then "Pong" max(1, max_pongs) times, each after the drawn delay (or the default
    interval if 0 was drawn); until then it is alive and waits for the next instant, and after the last "Pong" it is dead and gone. *)
Theorem C194_ping_and_pongs : forall (AR : Arith) shuffle, inf_absorbs AR -> (forall a r, shuffle [a] r = (r, [a])) ->
  forall shuffled di m draws k s x tr, let pongs := Z.to_nat (Z.max 1 m) in instants di draws pongs ->
  ping_run shuffle shuffled di m draws (S k) = (s, x, tr) ->
  dr_log (fw_rest (fst x)) = game di draws (Nat.min k pongs) /\
  (k < pongs -> fa_alive (fw_agents (fst x) 1) = true /\ s_reg s = [1] /\ s_time s = instant di draws (S k) /\
     s_queue s = [(instant di draws (S k), [1])] /\ s_steps s = S k) /\
  (pongs <= k -> fa_alive (fw_agents (fst x) 1) = false /\ s_reg s = [] /\ s_time s = PInf /\ s_queue s = [] /\ s_steps s = S pongs).
Proof.
  intros AR shuffle HA HS shuffled di m draws k s x tr pongs HI E.
  pose proof (whole_game shuffle HS di m draws shuffled HI HA k s x tr E) as W. fold pongs in W. destruct (Nat.ltb_spec k pongs) as [L|L].
  - destruct W as (-> & A & _ & _ & G & _). rewrite Nat.min_l by lia. split; [exact G|]. split; [|lia]. intros _. rewrite A. auto.
  - destruct W as (Q & T & R & S & A & G). rewrite Nat.min_r by lia. split; [exact G|]. split; [lia|]. intros _. rewrite A. auto.
Qed.
Print Assumptions C194_ping_and_pongs.
(** The hypotheses on the numbers hold for exact numbers and for floats; the instants are finite for exact delays. *)
Theorem C194_infinity : inf_absorbs exact /\ inf_absorbs binary64.
Proof. split; intros z; reflexivity. Qed.
Print Assumptions C194_infinity.
Theorem C194_exact_instants : forall d delays k, (0 < d)%Z -> (forall i, 0 <= delays i)%Z -> @instants exact (Fin d) (fun i => Fin (delays i)) k.
Proof.
  intros d delays k D H. assert (G : forall j, exists z, @instant exact (Fin d) (fun i => Fin (delays i)) j = Fin z /\ (0 <= z)%Z /\ (0 < j -> (0 < z)%Z)).
  { induction j as [|j (z & E & A & B)]; [exists 0%Z; split; [reflexivity|lia]|]. cbn [instant]. rewrite E. unfold n_eqb. specialize (H j).
    destruct (Z.eqb_spec (delays j) 0); eexists; (split; [reflexivity|]); lia. }
  intros j _. destruct (G (S j)) as (z & E & A & B). exists z. split; [exact E|]. apply B. lia.
Qed.
Print Assumptions C194_exact_instants.
(** Delays 7, 0 and 3, an interval of 2 and three pongs. *)
Example C194_case : let '(s, x, _) := @ping_run exact (fun l r => (r, l)) true (Fin 2) 3 (fun i => Fin (nth i [7; 0; 3]%Z 1%Z)) 9 in
  dr_log (fw_rest (fst x)) = [(Fin 0, 1, "Ping"); (Fin 7, 1, "Pong"); (Fin 9, 1, "Pong"); (Fin 12, 1, "Pong")] /\ s_time s = PInf /\ s_steps s = 4.
Proof. vm_compute. auto. Qed.

(** C195.  In the example programmatic an agent has counted at most once per step: always for a chance of 1, never for a chance of 0. *)
Theorem C195_times_run : forall (AR : Arith) p shuffle one, rearranges shuffle -> keeps_unit one shuffle ->
  forall n shuffled di k draws s x tr, ticks di k -> unit_draws one draws -> neutral_run p shuffle shuffled di n k draws = (s, x, tr) ->
  (forall a, times_run x a <= k) /\ (forall a, ~ 1 <= a <= n -> times_run x a = 0) /\
  (n_leb one p = true -> forall a, 1 <= a <= n -> times_run x a = k) /\ (n_leb p (Fin 0) = true -> forall a, times_run x a = 0).
Proof.
  intros AR p shuffle one H1 H2 n sh di k draws s x tr T U E. destruct (any_order p shuffle one H1 H2 n sh di k draws s x tr T U E) as (l & A).
  destruct A as (_ & _ & _ & A1 & A2 & A3 & A4). split; [|auto]. intros a.
  destruct (le_lt_dec 1 a); [destruct (le_lt_dec a n)|]; [apply A1; lia|..]; unfold runs in A2; unfold times_run; rewrite A2; lia.
Qed.
Print Assumptions C195_times_run.
(** C195.  Without shuffling the agents use up the draws in turns: agent number i + 1 has counted its own draws below p, no others. *)
Theorem C195_times_run_exactly : forall (AR : Arith) p shuffle n di k draws s x tr, ticks di k -> neutral_run p shuffle false di n k draws = (s, x, tr) ->
  forall i, i < n -> times_run x (S i) = hits p draws n i k.
Proof. intros AR p shuffle n di k draws s x tr T E. apply (in_order p shuffle n draws di k s x tr T E). Qed.
Print Assumptions C195_times_run_exactly.
(** Two agents, a chance of 2 of 10, three steps; the ticks of the clock are those of NoopProofs. *)
Example C195_case : let '(_, x, _) := @neutral_run exact (Fin 2) (fun l g => (g, l)) false (Fin 1) 2 3 (fun i => Fin (nth i [1; 5; 1; 0; 9; 2]%Z 5%Z)) in
  times_run x 1 = 2 /\ times_run x 2 = 1 /\ @ticks exact (Fin 1) 3.
Proof. vm_compute. split; [reflexivity|]. split; [reflexivity|]. intros j L. destruct j as [|[|[|j]]]; [..|lia]; split; reflexivity. Qed.
Example C195_sure : (let '(_, x, _) := @neutral_run exact (Fin 10) (fun l g => (g, rev l)) true (Fin 1) 3 4 (fun i => Fin (Z.of_nat (i mod 10))) in
  map (times_run x) [0; 1; 2; 3; 4]) = [0; 4; 4; 4; 0].
Proof. vm_compute. reflexivity. Qed.
Example C195_sure_hypotheses : unit_draws (Fin 10) (fun i => Fin (Z.of_nat (i mod 10))) /\ rearranges (fun l g => (g, rev l)).
Proof.
  split; [|intros l g; apply Permutation_rev]. intros i. pose proof (Nat.mod_upper_bound i 10 ltac:(lia)) as H. revert H. generalize (i mod 10). intros r H.
  unfold n_leb, n_ltb, n_eqb. split; [destruct (Z.ltb_spec 0 (Z.of_nat r)), (Z.eqb_spec 0 (Z.of_nat r)); auto; lia|apply Z.ltb_lt; lia].
Qed.

(** C196.  The custom generator gives a graph of the nodes 0 to n - 1, without loops and double edges, with at least one and at most
    [n_edges] edges; it fails for less than two nodes. *)
Theorem C196_generator : forall n n_edges draws, 2 <= n ->
  exists g, mygenerator n n_edges draws = Some g /\ ug_nodes g = seq 0 n /\ simple g /\
    List.length (ug_edges g) <= n_edges /\ (0 < n_edges -> 1 <= List.length (ug_edges g)).
Proof. exact generator_ok. Qed.
Print Assumptions C196_generator.
Theorem C196_generator_fails : forall n n_edges draws, mygenerator n n_edges draws = None <-> n < 2 /\ 0 < n_edges.
Proof.
  intros n n_edges draws. split.
  - intros E. destruct (le_lt_dec 2 n) as [L|L].
    + destruct (generator_ok n n_edges draws L) as (g & E' & _). congruence.
    + split; [exact L|]. destruct n_edges; [discriminate E|lia].
  - intros [L K]. now apply generator_fails.
Qed.
Print Assumptions C196_generator_fails.
(** C196.  The edges are the pairs that were drawn. *)
Theorem C196_edges : forall n n_edges draws g u v, 2 <= n -> mygenerator n n_edges draws = Some g ->
  joined g u v <-> exists i, i < n_edges /\ same_pair (u, v) (drawn_pair n draws i).
Proof. intros n n_edges draws g u v L E. now apply (generator_joined n n_edges draws g L). Qed.
Print Assumptions C196_edges.
Example C196_case : mygenerator 4 4 (fun i => nth i [0; 2; 3; 0; 0; 2; 2; 1] 0) = Some (UGraph [0; 1; 2; 3] [(0, 3); (2, 1)]) /\
  mygenerator 1 1 (fun _ => 0) = None /\ mygenerator 1 0 (fun _ => 0) = Some (UGraph [0] []).
Proof. vm_compute. auto. Qed.

(** C197.  The number of edges is not [n_edges]: a pair that is drawn twice counts once. *)
Theorem C197_n_edges_refuted : ~ (forall n n_edges draws g, mygenerator n n_edges draws = Some g -> List.length (ug_edges g) = n_edges).
Proof. intros H. specialize (H 5 2 (fun _ => 0) _ eq_refl). discriminate H. Qed.
Print Assumptions C197_n_edges_refuted.
(** Every number of edges above n (n - 1) / 2 is missed by all draws, also if [n_edges] is not. *)
Theorem C197_too_many_edges : forall n n_edges draws g, n * (n - 1) < 2 * n_edges -> mygenerator n n_edges draws = Some g ->
  List.length (ug_edges g) < n_edges.
Proof.
  intros n n_edges draws g L E. destruct (le_lt_dec 2 n) as [M|M].
  - destruct (generator_ok n n_edges draws M) as (g' & E' & A & B & _). assert (g' = g) as -> by congruence. pose proof (simple_half g n B A). lia.
  - rewrite generator_fails in E by (nia || lia). discriminate.
Qed.
Print Assumptions C197_too_many_edges.
(** What holds: there are [n_edges] edges if and only if no pair is drawn twice. *)
Theorem C197_n_edges_partial : forall n n_edges draws g, 2 <= n -> mygenerator n n_edges draws = Some g ->
  List.length (ug_edges g) = n_edges <-> forall i j, i < j < n_edges -> ~ same_pair (drawn_pair n draws i) (drawn_pair n draws j).
Proof. intros n n_edges draws g L E. now apply (generator_count n n_edges draws g L). Qed.
Print Assumptions C197_n_edges_partial.
Example C197_case : forall draws, exists g, mygenerator 2 5 draws = Some g /\ List.length (ug_edges g) = 1.
Proof.
  intros draws. destruct (generator_ok 2 5 draws) as (g & E & A & B & C & D); [lia|]. exists g. split; [exact E|].
  pose proof (simple_half g 2 B A). specialize (D ltac:(lia)). lia.
Qed.

(** C198.  In the Torvalds example the node "Torvalds" is the one God, "balkian" is a developer and all others are beginners; without
    either of the two nodes the model cannot be built. *)
Theorem C198_skills : forall nodes l, NoDup nodes -> torvalds_init nodes = Some l ->
  l = map (fun x => Dev x (skill_of x)) nodes /\ god_developers l = 1.
Proof.
  intros nodes l N E. pose proof (torvalds_some nodes l N E) as ->. split; [reflexivity|]. apply gods; [exact N|].
  destruct (in_dec string_dec "Torvalds" nodes) as [I|I]; [exact I|]. assert (X : torvalds_init nodes = None) by (apply torvalds_none; tauto). congruence.
Qed.
Print Assumptions C198_skills.
Theorem C198_fails : forall nodes, NoDup nodes -> torvalds_init nodes = None <-> ~ (In "Torvalds" nodes /\ In "balkian" nodes).
Proof. exact torvalds_none. Qed.
Print Assumptions C198_fails.
Example C198_case : torvalds_init ["a"; "balkian"; "Torvalds"; "b"] = Some [Dev "a" "beginner"; Dev "balkian" "developer"; Dev "Torvalds" "God"; Dev "b" "beginner"].
Proof. reflexivity. Qed.
