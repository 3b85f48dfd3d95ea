(** Proofs about DemoModel. *)
From Coq Require Import ZArith List Bool Arith String Lia Permutation.
From Verif Require Import Num PyDict TimedModel TimedProofs AgentModel AgentProofs FsmModel FsmDieModel RoundProofs NoopSpec NoopProofs VirusModel VirusSpec VirusProofs DemoModel DemoSpec.
Import ListNotations.
Local Open Scope string_scope.
Local Open Scope list_scope.
Local Open Scope nat_scope.

(** * generator_sim.py *)
Lemma is_edge_spec g u v : is_edge g u v = true <-> joined g u v.
Proof.
  unfold is_edge, joined. rewrite existsb_exists. split.
  - intros ([x y] & I & H). apply orb_true_iff in H as [H|H]; apply andb_true_iff in H as [A B]; apply Nat.eqb_eq in A, B; cbn in A, B; subst; auto.
  - intros [I|I]; [exists (u, v)|exists (v, u)]; (split; [exact I|]); cbn; rewrite !Nat.eqb_refl; cbn; auto. now rewrite orb_true_r.
Qed.
Lemma pick_in l draws x d : pick l draws = Some (x, d) -> In x l.
Proof.
  unfold pick. destruct l as [|a l]; [discriminate|]. intros H. assert (E : x = nth (draws 0 mod List.length (a :: l)) (a :: l) 0) by congruence.
  rewrite E. apply nth_In. apply Nat.mod_upper_bound. discriminate.
Qed.
Lemma remove_first_in x y l : NoDup l -> In y (remove_first x l) <-> In y l /\ y <> x.
Proof.
  induction l as [|a l IH]; cbn; intros N; [tauto|]. apply NoDup_cons_iff in N as [N1 N2]. destruct (Nat.eqb_spec a x) as [->|NE].
  - split; [intros I; split; [auto|intros ->; auto]|intros [[->|I] J]; [congruence|exact I]].
  - cbn. rewrite (IH N2). intuition congruence.
Qed.
Lemma simple_add g u v : simple g -> In u (ug_nodes g) -> In v (ug_nodes g) -> u <> v -> simple (ug_add g u v).
Proof.
  intros [N H] Iu Iv NE. unfold ug_add. destruct (is_edge g u v) eqn:E; [split; auto|].
  assert (J : ~ joined g u v) by (intros J; apply is_edge_spec in J; congruence). unfold joined in J. split; cbn [ug_edges ug_nodes].
  - eapply Permutation_NoDup; [apply Permutation_cons_append|]. constructor; tauto.
  - intros x y I. apply in_app_iff in I as [I|[I|[]]].
    + destruct (H x y I) as (A & B & C & D). split; [exact A|]. split; [|auto]. intros K. apply in_app_iff in K as [K|[K|[]]]; [auto|].
      injection K as <- <-. tauto.
    + injection I as <- <-. split; [exact NE|]. split; [|auto]. intros K. apply in_app_iff in K as [K|[K|[]]]; [tauto|congruence].
Qed.
Lemma add_edges_some k : forall g draws, NoDup (ug_nodes g) -> 2 <= List.length (ug_nodes g) -> simple g ->
  exists g', add_edges k g draws = Some g' /\ ug_nodes g' = ug_nodes g /\ simple g' /\
    List.length (ug_edges g) <= List.length (ug_edges g') <= List.length (ug_edges g) + k /\ (0 < k -> 1 <= List.length (ug_edges g')).
Proof.
  induction k as [|k IH]; intros g draws N L S; cbn [add_edges]; [exists g; repeat (split; [solve [auto|lia]|]); lia|].
  assert (P1 : exists x d, pick (ug_nodes g) draws = Some (x, d)) by (unfold pick; destruct (ug_nodes g); [cbn in L; lia|eauto]).
  destruct P1 as (x & d & P1). rewrite P1. pose proof (pick_in _ _ _ _ P1) as Ix.
  assert (P2 : exists y d', pick (remove_first x (ug_nodes g)) d = Some (y, d')).
  { unfold pick. destruct (remove_first x (ug_nodes g)) as [|y l] eqn:E; [|eauto]. exfalso.
    destruct (ug_nodes g) as [|a [|b l]]; cbn in L; try lia. cbn in E. destruct (Nat.eqb_spec a x) as [->|NE]; [discriminate|].
    destruct (Nat.eqb b x); discriminate. }
  destruct P2 as (y & d' & P2). rewrite P2. apply pick_in in P2. apply (remove_first_in x y _ N) in P2 as [Iy NE].
  assert (NN : ug_nodes (ug_add g x y) = ug_nodes g) by (unfold ug_add; destruct (is_edge g x y); reflexivity).
  assert (LL : List.length (ug_edges g) <= List.length (ug_edges (ug_add g x y)) <= List.length (ug_edges g) + 1 /\ 1 <= List.length (ug_edges (ug_add g x y))).
  { unfold ug_add. destruct (is_edge g x y) eqn:E; cbn; [|rewrite app_length; cbn; lia]. split; [lia|]. apply is_edge_spec in E as [E|E]; destruct (ug_edges g); cbn in *; try tauto; lia. }
  destruct (IH (ug_add g x y) d') as (g' & E & A & B & C & D); [now rewrite NN|now rewrite NN|apply simple_add; auto|].
  exists g'. split; [exact E|]. split; [congruence|]. split; [exact B|]. split; [lia|]. intros _. lia.
Qed.
Lemma seq_simple n : simple (UGraph (seq 0 n) []).
Proof. split; [constructor|]. intros u v []. Qed.
Lemma generator_ok n n_edges draws : 2 <= n -> exists g, mygenerator n n_edges draws = Some g /\ ug_nodes g = seq 0 n /\ simple g /\
  List.length (ug_edges g) <= n_edges /\ (0 < n_edges -> 1 <= List.length (ug_edges g)).
Proof.
  intros L. destruct (add_edges_some n_edges (UGraph (seq 0 n) []) draws) as (g & E & A & B & C & D).
  - apply seq_NoDup.
  - cbn. now rewrite seq_length.
  - apply seq_simple.
  - exists g. split; [exact E|]. split; [exact A|]. split; [exact B|]. cbn in C. split; [lia|exact D].
Qed.
Lemma generator_fails n n_edges draws : n < 2 -> 0 < n_edges -> mygenerator n n_edges draws = None.
Proof.
  intros L K. destruct n_edges as [|k]; [lia|]. unfold mygenerator. destruct n as [|[|n]]; [reflexivity| |lia].
  cbn [add_edges ug_nodes seq]. unfold pick at 1. cbn [List.length]. rewrite Nat.mod_1_r. reflexivity.
Qed.
Lemma simple_half g n : simple g -> ug_nodes g = seq 0 n -> 2 * List.length (ug_edges g) <= n * (n - 1).
Proof.
  intros [N H] E. set (swap := fun e : nat * nat => (snd e, fst e)).
  set (L := ug_edges g ++ map swap (ug_edges g) ++ map (fun i => (i, i)) (seq 0 n)).
  assert (I : incl L (list_prod (seq 0 n) (seq 0 n))).
  { intros [u v] I. apply in_prod_iff. subst L. apply in_app_iff in I as [I|I]; [|apply in_app_iff in I as [I|I]].
    - destruct (H _ _ I) as (_ & _ & A & B). now rewrite E in *.
    - apply in_map_iff in I as ([x y] & EQ & I). injection EQ as <- <-. destruct (H _ _ I) as (_ & _ & A & B). now rewrite E in *.
    - apply in_map_iff in I as (i & EQ & I). injection EQ as <- <-. auto. }
  assert (D : NoDup L).
  { subst L. assert (NA : forall (l m : list (nat * nat)), NoDup l -> NoDup m -> (forall x, In x l -> ~ In x m) -> NoDup (l ++ m)).
    { induction l as [|x l IH]; intros m Nl Nm Dj; cbn; auto. apply NoDup_cons_iff in Nl as [N1 N2]. constructor.
      - intros J. apply in_app_iff in J as [J|J]; [auto|]. apply (Dj x); cbn; auto.
      - apply IH; auto. intros y J. apply Dj. now right. }
    apply NA; [exact N| |].
    - apply NA.
      + apply FinFun.Injective_map_NoDup; [|exact N]. intros [a b] [c d] X. unfold swap in X. cbn in X. congruence.
      + apply FinFun.Injective_map_NoDup; [|apply seq_NoDup]. intros a b. congruence.
      + intros e J K. apply in_map_iff in J as ([x y] & <- & J). apply in_map_iff in K as (i & EQ & K). injection EQ as <- <-. destruct (H _ _ J). congruence.
    - intros [u v] J K. apply in_app_iff in K as [K|K].
      + apply in_map_iff in K as ([x y] & EQ & K). injection EQ as <- <-. destruct (H _ _ J) as (_ & X & _). auto.
      + apply in_map_iff in K as (i & EQ & K). injection EQ as <- <-. destruct (H _ _ J). congruence. }
  pose proof (NoDup_incl_length D I) as X. subst L. rewrite prod_length, !app_length, !map_length, !seq_length in X. nia.
Qed.

Lemma nth_removed x n : forall a i, a <= x < a + n -> i < n - 1 -> nth i (remove_first x (seq a n)) 0 = if a + i <? x then a + i else S (a + i).
Proof.
  induction n as [|n IH]; intros a i L I; [lia|]. cbn [seq remove_first]. destruct (Nat.eqb_spec a x) as [->|NE].
  - rewrite seq_nth by lia. destruct (Nat.ltb_spec (x + i) x); lia.
  - destruct i as [|i]; cbn [nth].
    + rewrite Nat.add_0_r. destruct (Nat.ltb_spec a x); lia.
    + rewrite IH by lia. replace (S a + i) with (a + S i) by lia. reflexivity.
Qed.
Lemma length_removed x n : forall a, a <= x < a + n -> List.length (remove_first x (seq a n)) = n - 1.
Proof.
  induction n as [|n IH]; intros a L; [lia|]. cbn [seq remove_first]. destruct (Nat.eqb_spec a x) as [->|NE]; [rewrite seq_length; lia|].
  cbn [List.length]. rewrite IH by lia. destruct n; lia.
Qed.
Definition some_edges (n : nat) (draws : nat -> nat) (k : nat) (g : ugraph) : ugraph :=
  fold_left (fun g i => ug_add g (fst (drawn_pair n draws i)) (snd (drawn_pair n draws i))) (seq 0 k) g.
Lemma ug_add_nodes g u v : ug_nodes (ug_add g u v) = ug_nodes g.
Proof. unfold ug_add. now destruct (is_edge g u v). Qed.
Lemma fold_shift {A} (f f' : A -> nat -> A) k : (forall g i, f g (S i) = f' g i) -> forall a g, fold_left f (seq (S a) k) g = fold_left f' (seq a k) g.
Proof. intros H. induction k as [|k IH]; intros a g; [reflexivity|]. cbn [seq fold_left]. rewrite H. apply IH. Qed.
Lemma add_edges_pairs n k : 2 <= n -> forall g draws, ug_nodes g = seq 0 n -> add_edges k g draws = Some (some_edges n draws k g).
Proof.
  intros L. induction k as [|k IH]; intros g draws N; [reflexivity|]. cbn [add_edges]. rewrite N. unfold pick at 1.
  destruct (seq 0 n) as [|y l] eqn:S; [destruct n; [lia|discriminate S]|]. rewrite <- S. rewrite seq_length.
  set (x := nth (draws 0 mod n) (seq 0 n) 0). assert (X : x = draws 0 mod n) by (unfold x; rewrite seq_nth by (apply Nat.mod_upper_bound; lia); reflexivity).
  pose proof (Nat.mod_upper_bound (draws 0) n ltac:(lia)) as B. pose proof (Nat.mod_upper_bound (draws 1) (n - 1) ltac:(lia)) as B1.
  unfold pick. pose proof (length_removed x n 0 ltac:(lia)) as LR. destruct (remove_first x (seq 0 n)) as [|z l'] eqn:R; [cbn in LR; lia|]. rewrite <- R in *.
  rewrite LR. rewrite nth_removed by lia. rewrite IH by (now rewrite ug_add_nodes). f_equal. unfold some_edges. cbn [seq fold_left].
  rewrite (fold_shift _ (fun g i => ug_add g (fst (drawn_pair n (fun i => draws (Datatypes.S (Datatypes.S i))) i)) (snd (drawn_pair n (fun i => draws (Datatypes.S (Datatypes.S i))) i)))).
  - rewrite X. unfold drawn_pair. cbn [Nat.mul Nat.add fst snd]. reflexivity.
  - intros g0 i. unfold drawn_pair. replace (2 * Datatypes.S i) with (Datatypes.S (Datatypes.S (2 * i))) by lia.
    replace (Datatypes.S (Datatypes.S (2 * i)) + 1) with (Datatypes.S (Datatypes.S (2 * i + 1))) by lia. reflexivity.
Qed.
Lemma joined_add g u v a b : joined (ug_add g u v) a b <-> joined g a b \/ same_pair (a, b) (u, v).
Proof.
  unfold ug_add. destruct (is_edge g u v) eqn:E.
  - apply is_edge_spec in E. split; [auto|]. intros [H|[H|H]]; [exact H|..]; injection H as -> ->; auto. destruct E; [now right|now left].
  - unfold joined, same_pair. cbn [ug_edges fst snd]. rewrite !in_app_iff. cbn. intuition congruence.
Qed.
Lemma some_edges_S n draws k g : some_edges n draws (S k) g = ug_add (some_edges n draws k g) (fst (drawn_pair n draws k)) (snd (drawn_pair n draws k)).
Proof. unfold some_edges. rewrite seq_S, fold_left_app. reflexivity. Qed.
Lemma generator_joined n k draws g : 2 <= n -> mygenerator n k draws = Some g -> forall u v,
  joined g u v <-> exists i, i < k /\ same_pair (u, v) (drawn_pair n draws i).
Proof.
  intros L E. unfold mygenerator in E. rewrite (add_edges_pairs n k L) in E by reflexivity. injection E as <-. intros u v.
  induction k as [|k IH].
  - split; [intros [[]|[]]|intros (i & I & _); lia].
  - rewrite some_edges_S, joined_add, IH. rewrite <- surjective_pairing. split.
    + intros [(i & I & H)|H]; [exists i|exists k]; split; auto; lia.
    + intros (i & I & H). destruct (Nat.eq_dec i k) as [->|NE]; [now right|]. left. exists i. split; [lia|exact H].
Qed.
Lemma same_pair_sym e f : same_pair e f -> same_pair f e.
Proof. destruct e, f. unfold same_pair. cbn. intuition congruence. Qed.
Lemma generator_count n k draws g : 2 <= n -> mygenerator n k draws = Some g ->
  List.length (ug_edges g) = k <-> forall i j, i < j < k -> ~ same_pair (drawn_pair n draws i) (drawn_pair n draws j).
Proof.
  intros L. revert g. induction k as [|k IH]; intros g E.
  - unfold mygenerator in E. cbn in E. injection E as <-. cbn. split; [intros; lia|auto].
  - destruct (generator_ok n k draws L) as (g0 & E0 & _ & _ & M & _). specialize (IH g0 E0). pose proof (generator_joined n k draws g0 L E0) as J.
    assert (X : g = ug_add g0 (fst (drawn_pair n draws k)) (snd (drawn_pair n draws k))).
    { unfold mygenerator in E, E0. rewrite (add_edges_pairs n _ L) in E by reflexivity. rewrite (add_edges_pairs n _ L) in E0 by reflexivity. injection E0 as <-. rewrite <- some_edges_S. congruence. }
    specialize (J (fst (drawn_pair n draws k)) (snd (drawn_pair n draws k))). rewrite <- surjective_pairing in J.
    rewrite X. unfold ug_add. destruct (is_edge g0 _ _) eqn:Q.
    + apply is_edge_spec, J in Q as (i & I & Q). split; [lia|]. intros H. destruct (H i k ltac:(lia)). now apply same_pair_sym.
    + cbn [ug_edges]. rewrite app_length. cbn [List.length]. split.
      * intros H i j I. destruct (Nat.eq_dec j k) as [->|NE]; [|apply IH; lia]. intros P.
        assert (is_edge g0 (fst (drawn_pair n draws k)) (snd (drawn_pair n draws k)) = true); [|congruence]. apply is_edge_spec, J. exists i. split; [lia|].
        now apply same_pair_sym.
      * intros H. assert (List.length (ug_edges g0) = k); [|lia]. apply IH. intros i j I. apply H. lia.
Qed.

(** * torvalds_sim.py *)
Lemma one_gets_none x sk l : one_gets x sk l = None <-> ~ In x (map dv_node l).
Proof.
  induction l as [|d l IH]; cbn; [tauto|]. destruct (String.eqb_spec (dv_node d) x) as [->|NE].
  - split; [discriminate|]. intros H. destruct H. now left.
  - destruct (one_gets x sk l); split; try discriminate; intuition congruence.
Qed.
Lemma one_gets_some x sk : forall l l', NoDup (map dv_node l) -> one_gets x sk l = Some l' ->
  map dv_node l' = map dv_node l /\ l' = map (fun d => if String.eqb (dv_node d) x then Dev (dv_node d) sk else d) l.
Proof.
  induction l as [|d l IH]; cbn; intros l' N E; [discriminate|]. apply NoDup_cons_iff in N as [N1 N2].
  destruct (String.eqb_spec (dv_node d) x) as [EQ|NE].
  - injection E as <-. cbn. split; [reflexivity|]. f_equal. rewrite <- (map_id l) at 1. apply map_ext_in. intros e I.
    destruct (String.eqb_spec (dv_node e) x) as [EQ'|]; [|reflexivity]. destruct N1. rewrite EQ, <- EQ'. now apply in_map.
  - destruct (one_gets x sk l) as [l0|] eqn:E0; [|discriminate]. injection E as <-. destruct (IH l0 N2 eq_refl) as [A B]. cbn. now rewrite A, <- B.
Qed.
Lemma torvalds_some nodes l : NoDup nodes -> torvalds_init nodes = Some l -> l = map (fun x => Dev x (skill_of x)) nodes.
Proof.
  intros N E. unfold torvalds_init in E. assert (M : map dv_node (map (fun x => Dev x "beginner") nodes) = nodes) by (rewrite map_map; apply map_id).
  destruct (one_gets "Torvalds" "God" _) as [l1|] eqn:E1; [|discriminate]. apply one_gets_some in E1 as [A1 ->]; [|now rewrite M].
  apply one_gets_some in E as [A2 ->]; [|now rewrite A1, M]. rewrite !map_map. apply map_ext. intros x. cbn. unfold skill_of.
  destruct (String.eqb_spec x "Torvalds") as [->|NE]; [reflexivity|]. cbn. destruct (String.eqb x "balkian"); reflexivity.
Qed.
Lemma torvalds_none nodes : NoDup nodes -> torvalds_init nodes = None <-> ~ (In "Torvalds" nodes /\ In "balkian" nodes).
Proof.
  intros N. unfold torvalds_init. assert (M : map dv_node (map (fun x => Dev x "beginner") nodes) = nodes) by (rewrite map_map; apply map_id).
  destruct (one_gets "Torvalds" "God" _) as [l1|] eqn:E1.
  - assert (I : In "Torvalds" nodes). { destruct (in_dec string_dec "Torvalds" nodes) as [I|I]; [exact I|]. rewrite <- M in I. apply (one_gets_none _ "God") in I. congruence. }
    apply one_gets_some in E1 as [A1 ->]; [|now rewrite M]. rewrite one_gets_none, A1, M. tauto.
  - apply one_gets_none in E1. rewrite M in E1. tauto.
Qed.
Lemma gods nodes : NoDup nodes -> In "Torvalds" nodes -> god_developers (map (fun x => Dev x (skill_of x)) nodes) = 1.
Proof.
  unfold god_developers. assert (G : forall x, String.eqb (skill_of x) "God" = String.eqb x "Torvalds").
  { intros x. unfold skill_of. destruct (String.eqb_spec x "balkian") as [->|NE]; [reflexivity|]. destruct (String.eqb x "Torvalds"); reflexivity. }
  assert (Z : forall l, ~ In "Torvalds" l -> filter (fun d => String.eqb (dv_skill d) "God") (map (fun x => Dev x (skill_of x)) l) = []).
  { induction l as [|x l IH]; cbn; intros H; [reflexivity|]. rewrite G. destruct (String.eqb_spec x "Torvalds"); [tauto|]. apply IH. tauto. }
  induction nodes as [|x l IH]; cbn; intros N I; [tauto|]. apply NoDup_cons_iff in N as [N1 N2]. rewrite G. destruct (String.eqb_spec x "Torvalds") as [->|NE].
  - cbn. now rewrite Z.
  - apply IH; [exact N2|]. destruct I; [congruence|auto].
Qed.

(** * random_delays_sim.py *)
Section Ping.
Context {AR : Arith}.
Variable shuffle : list aid -> drest -> drest * list aid.
Hypothesis HSh : forall a r, shuffle [a] r = (r, [a]).
Variable di : num.
Variable m : Z.
Variable draws : nat -> num.
Variable shuffled : bool.
Notation pongs := (Z.to_nat (Z.max 1 m)).
Hypothesis HI : instants di draws pongs.
(** An infinite delay is infinite. *)
Hypothesis HA : forall z, n_add PInf (Fin z) = PInf.
Notation u := (ping_user shuffle).
Notation at_ := (instant di draws).

(** Steps of a lone agent. *)
Lemma lone_step s w : s_queue s = [(s_time s, [1])] -> forall w1 ops o, u_step u (set_queue s []) 1 w = (w1, ops, o) ->
  forall s1 tr, run_ops (set_queue s []) ops = (s1, tr) -> s_queue s1 = [] -> s_di s1 = s_di s -> s_time s1 = s_time s ->
  match o with
  | Exc => True
  | Dead => timed_step u s w = (set_time (set_steps s1 (S (s_steps s1))) PInf, w1, tr ++ [EvAct (s_time s) 1 o], false)
  | Ret r =>
      let when := n_add (or_num r (s_di s)) (s_time s) in
      (when = PInf -> timed_step u s w = (set_time (set_steps s1 (S (s_steps s1))) PInf, w1, tr ++ [EvAct (s_time s) 1 o], false)) /\
      (forall z, when = Fin z -> (0 < z)%Z ->
        timed_step u s w = (Sched when (S (s_steps s1)) [(when, [1])] (s_reg s1) (s_shuffle s1) (s_di s1), w1, tr ++ [EvAct (s_time s) 1 o], false))
  end.
Proof.
  intros Q w1 ops o E s1 tr R Q1 D1 T1. destruct o as [r| |]; [|..|exact I].
  - cbv zeta. assert (B : timed_step u s w = let '(s1', w1', tr', x) := run_bucket u (s_time s) [1] (set_queue s []) w in
      if x then (s1', w1', tr', true) else
      let s2 := set_steps s1' (S (s_steps s1')) in (match s_queue s2 with [] => set_time s2 PInf | (t, _) :: _ => set_time s2 t end, w1', tr', false)).
    { unfold timed_step. rewrite Q, n_ltb_irrefl. destruct (s_shuffle s); [|reflexivity]. cbn [u_shuffle ping_user agent_user].
      rewrite HSh. destruct w as [[ag r0] c]. reflexivity. }
    rewrite B. clear B. cbn [run_bucket]. rewrite E, R. rewrite D1. set (when := n_add (or_num r (s_di s)) (s_time s)). split.
    + intros ->. cbn. rewrite Q1. now rewrite app_nil_r.
    + intros z -> L. cbn [n_eqb negb]. rewrite app_nil_r. cbn [run_bucket]. unfold timed_schedule. rewrite Q1. cbn [insert_bucket set_queue s_queue set_steps set_time].
      assert (X : or_num (Some (Fin z)) (s_time s1) = Fin z). { unfold or_num, n_truthy, n_eqb. destruct (Z.eqb_spec z 0); [lia|reflexivity]. }
      rewrite X. unfold set_time, set_steps, set_queue. cbn. now rewrite D1.
  - assert (B : timed_step u s w = let '(s1', w1', tr', x) := run_bucket u (s_time s) [1] (set_queue s []) w in
      if x then (s1', w1', tr', true) else
      let s2 := set_steps s1' (S (s_steps s1')) in (match s_queue s2 with [] => set_time s2 PInf | (t, _) :: _ => set_time s2 t end, w1', tr', false)).
    { unfold timed_step. rewrite Q, n_ltb_irrefl. destruct (s_shuffle s); [|reflexivity]. cbn [u_shuffle ping_user agent_user].
      rewrite HSh. destruct w as [[ag r0] c]. reflexivity. }
    rewrite B. cbn [run_bucket]. rewrite E, R. cbn. rewrite Q1. now rewrite app_nil_r.
Qed.

Notation K := (KFsm (fst (meta ping_class))).
Definition dead_st : state dfun := State DDead "dead" false.
Lemma ping_act s w c : fw_agents w 1 = FAgent K true (Some ping_st) -> get_co c 1 = None ->
  exists w' c', u_step u s 1 (w, c) = ((w', c'), [], Ret (Some (dr_draws (fw_rest w) 0))) /\ get_co c' 1 = None /\
    fw_agents w' 1 = FAgent K true (Some pong_st) /\
    fw_rest w' = DRest (dr_left (fw_rest w)) (dr_log (fw_rest w) ++ [(s_time s, 1, "Ping")]) (fun i => dr_draws (fw_rest w) (S i)).
Proof.
  intros A C. cbn [u_step ping_user agent_user]. unfold agent_step, decorated. cbn [fst snd]. rewrite C. cbn [send step_gen].
  rewrite A. cbn [fa_kind fa_alive fa_cur negb]. unfold inside. cbn [c_start ping_code ping_st st_fun c_resume].
  unfold ping_fn. cbn [expo info run_fops fw_agents dr_draws dr_left dr_log]. rewrite A. cbn [fa_kind].
  eexists _, _. split; [reflexivity|]. split; [rewrite get_set_co; reflexivity|]. split; [cbn; now rewrite A|reflexivity].
Qed.
Lemma pong_act s w c : fw_agents w 1 = FAgent K true (Some pong_st) -> get_co c 1 = None ->
  let left := (dr_left (fw_rest w) 1%nat - 1)%Z in
  (1 <= left)%Z ->
  exists w' c', u_step u s 1 (w, c) = ((w', c'), [], Ret (Some (dr_draws (fw_rest w) 0))) /\ get_co c' 1 = None /\
    fw_agents w' 1 = FAgent K true (Some pong_st) /\ dr_left (fw_rest w') 1 = left /\
    dr_log (fw_rest w') = dr_log (fw_rest w) ++ [(s_time s, 1, "Pong")] /\ dr_draws (fw_rest w') = (fun i => dr_draws (fw_rest w) (S i)).
Proof.
  intros A C left L. cbn [u_step ping_user agent_user]. unfold agent_step, decorated. cbn [fst snd]. rewrite C. cbn [send step_gen].
  rewrite A. cbn [fa_kind fa_alive fa_cur negb]. unfold inside. cbn [c_start ping_code pong_st st_fun c_resume].
  unfold pong_fn. cbn [info dset_left dr_draws dr_left dr_log]. rewrite Nat.eqb_refl. fold left.
  replace (left <? 1)%Z with false by (symmetry; apply Z.ltb_ge; exact L). cbn [expo run_fops fw_agents dr_draws dr_left dr_log]. rewrite A. cbn [fa_kind].
  eexists _, _. split; [reflexivity|]. split; [rewrite get_set_co; reflexivity|]. split; [cbn; now rewrite A|]. cbn. repeat split; reflexivity.
Qed.
Lemma pong_die s w c z : s_time s = Fin z -> fw_agents w 1 = FAgent K true (Some pong_st) -> get_co c 1 = None -> (dr_left (fw_rest w) 1%nat - 1 < 1)%Z ->
  exists w' c', u_step u s 1 (w, c) = ((w', c'), [SRem 1], Ret (Some PInf)) /\
    fw_agents w' 1 = FAgent K false (Some dead_st) /\ dr_log (fw_rest w') = dr_log (fw_rest w) ++ [(s_time s, 1, "Pong")].
Proof.
  intros T A C L. cbn [u_step ping_user agent_user]. unfold agent_step, decorated. cbn [fst snd]. rewrite C. cbn [send step_gen].
  rewrite A. cbn [fa_kind fa_alive fa_cur negb]. unfold inside. cbn [c_start ping_code pong_st st_fun c_resume].
  unfold pong_fn. cbn [info dset_left dr_draws dr_left dr_log]. rewrite Nat.eqb_refl.
  replace (dr_left (fw_rest w) 1%nat - 1 <? 1)%Z with true by (symmetry; apply Z.ltb_lt; exact L).
  unfold fsm_die, state_at. change (dget "dead" (fst (meta ping_class))) with (Some dead_st). cbn [option_map run_fops].
  cbn [upd fw_agents]. rewrite A. cbn [Nat.eqb set_alive fa_kind fa_cur fa_alive].
  rewrite T. change (n_opp (Fin z)) with (Fin (- z)). rewrite HA.
  eexists _, _. split; [|split].
  - cbn. reflexivity.
  - reflexivity.
  - cbn. now rewrite T.
Qed.

Definition playing (j : nat) (s : sched) (x : fworld dfun drest * cors (frame dfun)) : Prop :=
  s = Sched (at_ (S j)) (S j) [(at_ (S j), [1])] [1] shuffled di /\ fw_agents (fst x) 1 = FAgent K true (Some pong_st) /\ get_co (snd x) 1 = None /\
  dr_left (fw_rest (fst x)) 1 = (m - Z.of_nat j)%Z /\ dr_log (fw_rest (fst x)) = game di draws j /\
  (forall i, dr_draws (fw_rest (fst x)) i = draws (S j + i)).
Definition over (s : sched) (x : fworld dfun drest * cors (frame dfun)) : Prop :=
  s_queue s = [] /\ s_time s = PInf /\ s_reg s = [] /\ s_steps s = S pongs /\ fw_agents (fst x) 1 = FAgent K false (Some dead_st) /\
  dr_log (fw_rest (fst x)) = game di draws pongs.
Lemma game_more j : game di draws (S j) = game di draws j ++ [(at_ (S j), 1, "Pong")].
Proof. unfold game. rewrite seq_S, map_app. reflexivity. Qed.
Lemma wait_or d : or_num (Some d) di = if n_eqb d (Fin 0) then di else d.
Proof. unfold or_num, n_truthy. destruct (n_eqb d (Fin 0)); reflexivity. Qed.
Lemma pongs_pos : 1 <= pongs.
Proof. lia. Qed.
Lemma playing_step j s x s' x' tr f : playing j s x -> j < pongs -> timed_step u s x = (s', x', tr, f) ->
  f = false /\ if j + 1 <? pongs then playing (S j) s' x' else over s' x'.
Proof.
  intros (-> & A & C & L & G & D) J E. destruct x as [w c]. cbn [fst snd] in *. destruct (HI j J) as (z & Hz & Pz).
  set (s := Sched _ _ _ _ _ _) in E.
  assert (Q : s_queue s = [(s_time s, [1])]) by reflexivity.
  destruct (Nat.ltb_spec (j + 1) pongs) as [M|M].
  - destruct (pong_act (set_queue s []) w c A C) as (w' & c' & U & C' & A' & L' & G' & D'); [lia|].
    pose proof (lone_step s (w, c) Q _ _ _ U (set_queue s []) [] eq_refl eq_refl eq_refl eq_refl) as X. cbv zeta in X. destruct X as [_ X].
    destruct (HI (S j) ltac:(lia)) as (z' & Hz' & Pz'). rewrite wait_or in X. rewrite D, Nat.add_0_r in X.
    change (n_add (if n_eqb (draws (S j)) (Fin 0) then s_di s else draws (S j)) (s_time s)) with (at_ (S (S j))) in X.
    rewrite (X z' Hz' Pz') in E. injection E as <- <- <- <-. split; [reflexivity|]. split; [reflexivity|]. cbn [fst snd]. split; [exact A'|]. split; [exact C'|].
    split; [rewrite L'; lia|]. split; [rewrite G', G, game_more; reflexivity|]. intros i. rewrite D'. rewrite D. f_equal. lia.
  - destruct (pong_die (set_queue s []) w c z Hz A C) as (w' & c' & U & A' & G'); [lia|].
    pose proof (lone_step s (w, c) Q _ _ _ U (reg_rem (set_queue s []) 1) [] eq_refl eq_refl eq_refl eq_refl) as X. cbv zeta in X. destruct X as [X _].
    rewrite X in E; [|cbn [or_num n_truthy n_eqb negb]; change (s_time s) with (at_ (S j)); rewrite Hz; apply HA].
    injection E as <- <- <- <-. split; [reflexivity|]. assert (PJ : pongs = S j) by lia. unfold over. rewrite PJ. split; [reflexivity|].
    split; [reflexivity|]. split; [reflexivity|]. split; [reflexivity|]. split; [exact A'|]. cbn [fst]. rewrite G', G, game_more. reflexivity.
Qed.
Lemma over_step s x s' x' tr f : over s x -> timed_step u s x = (s', x', tr, f) -> f = false /\ s' = s /\ x' = x.
Proof. intros (Q & _) E. unfold timed_step in E. rewrite Q in E. injection E as <- <- <- <-. auto. Qed.
Lemma playing_run k : forall j s x s' x' tr, playing j s x -> j < pongs -> run_hist u (repeat CStep k) s x = (s', x', tr) ->
  if j + k <? pongs then playing (j + k) s' x' else over s' x'.
Proof.
  assert (O : forall k s x s' x' tr, over s x -> run_hist u (repeat CStep k) s x = (s', x', tr) -> over s' x').
  { induction k0 as [|k0 IH]; intros s x s' x' tr H E; cbn [repeat run_hist run_cmd] in E; [injection E as <- <- <-; exact H|].
    destruct (timed_step u s x) as [[[s1 x1] tr1] f1] eqn:E1. destruct (run_hist u (repeat CStep k0) s1 x1) as [[s2 x2] tr2] eqn:E2.
    injection E as <- <- <-. destruct (over_step _ _ _ _ _ _ H E1) as (_ & -> & ->). eauto. }
  induction k as [|k IH]; intros j s x s' x' tr H J E; cbn [repeat run_hist run_cmd] in E.
  - injection E as <- <- <-. rewrite Nat.add_0_r. destruct (Nat.ltb_spec j pongs); [exact H|lia].
  - destruct (timed_step u s x) as [[[s1 x1] tr1] f1] eqn:E1. destruct (run_hist u (repeat CStep k) s1 x1) as [[s2 x2] tr2] eqn:E2.
    injection E as <- <- <-. destruct (playing_step _ _ _ _ _ _ _ H J E1) as [_ P]. destruct (Nat.ltb_spec (j + 1) pongs) as [M|M].
    + replace (j + S k) with (S j + k) by lia. eapply IH; eauto. lia.
    + destruct (Nat.ltb_spec (j + S k) pongs); [lia|]. eauto.
Qed.
Lemma whole_game k s x tr : ping_run shuffle shuffled di m draws (S k) = (s, x, tr) -> if k <? pongs then playing k s x else over s x.
Proof.
  intros E. unfold ping_run in E. set (w0 := FWorld _ _) in E. cbn [run_hist run_cmd run_op] in E.
  set (s0 := timed_add (timed_init shuffled di) 1 None) in E. change (repeat CStep (S k)) with (@CStep (fworld dfun drest * cors (frame dfun)) :: repeat CStep k) in E.
  cbn [run_hist run_cmd] in E.
  destruct (timed_step u s0 (w0, no_cors)) as [[[s1 x1] tr1] f1] eqn:E1. destruct (run_hist u (repeat CStep k) s1 x1) as [[s2 x2] tr2] eqn:E2. injection E as <- <- <-.
  assert (Q : s_queue s0 = [(s_time s0, [1])]) by reflexivity.
  destruct (ping_act (set_queue s0 []) w0 no_cors eq_refl eq_refl) as (w' & c' & U & C' & A' & R').
  pose proof (lone_step s0 (w0, no_cors) Q _ _ _ U (set_queue s0 []) [] eq_refl eq_refl eq_refl eq_refl) as X. cbv zeta in X. destruct X as [_ X].
  destruct (HI 0 pongs_pos) as (z & Hz & Pz). change (s_di s0) with di in X. rewrite wait_or in X.
  change (n_add (if n_eqb (dr_draws (fw_rest w0) 0) (Fin 0) then di else dr_draws (fw_rest w0) 0) (s_time s0)) with (at_ 1) in X.
  rewrite (X z Hz Pz) in E1. injection E1 as <- <- <- <-. apply (playing_run k 0 _ _ _ _ _) in E2; [exact E2| |exact pongs_pos].
  split; [reflexivity|]. cbn [fst snd]. split; [exact A'|]. split; [exact C'|]. rewrite R'. cbn. split; [lia|]. split; reflexivity.
Qed.
End Ping.

(** * programmatic_sim.py *)
Section Neutral.
Context {AR : Arith}.
Variable p : num.
Variable shuffle : list aid -> (nat -> num) -> (nat -> num) * list aid.
Notation u := (neutral_user p shuffle).
Definition neutral_agent : fagent dfun := FAgent (KFsm (fst (meta neutral_class))) true (Some neutral_st).
Definition calm (x : fworld dfun nrest * cors (frame dfun)) : Prop := forall a, fw_agents (fst x) a = neutral_agent /\ get_co (snd x) a = None.
Definition runs (x : fworld dfun nrest * cors (frame dfun)) : aid -> nat := nr_times (fw_rest (fst x)).
Definition rolls (x : fworld dfun nrest * cors (frame dfun)) : nat -> num := nr_draws (fw_rest (fst x)).
Lemma neutral_act s a x x' ops o : calm x -> u_step u s a x = (x', ops, o) ->
  calm x' /\ ops = [] /\ o = Ret None /\ fw_rest (fst x') = neutral_fn p a (fw_rest (fst x)).
Proof.
  intros C E. destruct x as [w c]. destruct (C a) as [A G]. cbn [fst snd] in *. cbn [u_step neutral_user agent_user] in E. unfold agent_step, decorated in E.
  cbn [fst snd] in E. rewrite G in E. cbn [send step_gen] in E. rewrite A in E. cbn [fa_kind fa_alive fa_cur negb neutral_agent] in E. unfold inside in E.
  cbn [c_start neutral_code neutral_st st_fun c_resume run_fops fw_agents] in E. rewrite A in E. cbn [fa_kind neutral_agent] in E.
  cbn in E. injection E as <- <- <-. split; [|auto]. intros b. cbn [fst snd]. destruct (C b) as [B1 B2]. cbn [fst snd] in *. split.
  - cbn. destruct (Nat.eqb_spec b a); [subst; rewrite ?A; reflexivity|exact B1].
  - rewrite !get_set_co. destruct (Nat.eqb b a); auto.
Qed.
Lemma neutral_shuffle l x x' l' : calm x -> u_shuffle u l x = (x', l') ->
  calm x' /\ runs x' = runs x /\ rolls x' = fst (shuffle l (rolls x)) /\ l' = snd (shuffle l (rolls x)).
Proof.
  intros C E. destruct x as [w c]. cbn in E. unfold runs, rolls. cbn [fst]. destruct (shuffle l (nr_draws (fw_rest w))) as [g l1]. injection E as <- <-. auto.
Qed.

(** Any order. *)
Section AnyOrder.
Variable one : num.
Hypothesis HSh : rearranges shuffle.
Hypothesis HK : keeps_unit one shuffle.
Variable n : nat.
Definition tallied (k : nat) (l : list aid) (x : fworld dfun nrest * cors (frame dfun)) : Prop :=
  calm x /\ Permutation (seq 1 n) l /\ unit_draws one (rolls x) /\ (forall a, 1 <= a <= n -> runs x a <= k) /\ (forall a, ~ 1 <= a <= n -> runs x a = 0) /\
  (n_leb one p = true -> forall a, 1 <= a <= n -> runs x a = k) /\ (n_leb p (Fin 0) = true -> forall a, runs x a = 0).
Definition midway (r0 : aid -> nat) (h : list ev) (x : fworld dfun nrest * cors (frame dfun)) : Prop :=
  calm x /\ unit_draws one (rolls x) /\ (forall t a o, In (EvAct t a o) h -> o = Ret None) /\ (forall a, r0 a <= runs x a <= r0 a + CounterSpec.activated a h) /\
  (n_leb one p = true -> forall a, runs x a = r0 a + CounterSpec.activated a h) /\ (n_leb p (Fin 0) = true -> forall a, runs x a = r0 a).
Lemma midway_step r0 h s a x x' ops o di : midway r0 h x -> u_step u s a x = (x', ops, o) ->
  (forall t, midway r0 (h ++ [EvAct t a o]) x') /\ ops = [] /\ regular di di o.
Proof.
  intros (C & U & R & M1 & M2 & M3) E. destruct (neutral_act _ _ _ _ _ _ C E) as (C' & -> & -> & F). split; [|split; [reflexivity|now left]].
  intros t. split; [exact C'|]. unfold runs, rolls in *. rewrite F. cbn [neutral_fn nr_times nr_draws].
  split; [intros i; apply U|]. split.
  { intros t0 b o0 I. apply in_app_iff in I as [I|[I|[]]]; [eapply R; eauto|congruence]. }
  assert (X : forall b, CounterSpec.activated b (h ++ [EvAct t a (Ret None)]) = CounterSpec.activated b h + if Nat.eqb b a then 1 else 0).
  { intros b. rewrite act_snoc. destruct (Nat.eq_dec b a), (Nat.eqb_spec b a); congruence. }
  split; [|split].
  - intros b. rewrite X. specialize (M1 b). destruct (Nat.eqb b a); cbn [andb]; [|lia]. destruct (prob _ _); lia.
  - intros L b. rewrite X. specialize (M2 L b). pose proof (roll_sure one p _ U L) as S. cbn [vroll fst] in S. rewrite S.
    destruct (Nat.eqb b a); cbn [andb]; lia.
  - intros L b. specialize (M3 L b). pose proof (roll_never one p _ U L) as S. cbn [vroll fst] in S. rewrite S. now rewrite andb_false_r.
Qed.
Lemma tallied_HP di k l x : tallied k l x -> exists J : list ev -> _ -> Prop, J [] x /\
  (forall h s a w w' ops o, J h w -> u_step u s a w = (w', ops, o) -> (forall t, J (h ++ [EvAct t a o]) w') /\ ops = [] /\ regular di di o) /\
  (forall h l w w' l', J h w -> u_shuffle u l w = (w', l') -> J h w' /\ Permutation l l') /\
  (forall t m w', NoDup l -> Permutation l (map fst m) -> J (round t m) w' -> tallied (S k) (stayers m) w') /\ (l = [] -> tallied (S k) [] x).
Proof.
  intros (C & PL & U & T1 & T2 & T3 & T4). exists (midway (runs x)). split; [|split; [|split; [|split]]].
  - split; [exact C|]. split; [exact U|]. split; [intros ? ? ? []|]. cbn. split; [intros; lia|]. split; intros; lia.
  - intros. eapply midway_step; eauto.
  - intros h l0 w w' l' (D & V & R & M1 & M2 & M3) E. destruct (neutral_shuffle _ _ _ _ D E) as (D' & N & G & ->). split; [|apply HSh].
    split; [exact D'|]. rewrite N, G. split; [now apply HK|]. auto.
  - intros t m w' ND PM (D & V & R & M1 & M2 & M3).
    assert (ST : stayers m = map fst m).
    { apply (all_stay []). apply Forall_forall. intros [a o] I. cbn.
      assert (o = Ret None) as ->; [|reflexivity]. apply (R t a). unfold round. apply in_map_iff. exists (a, o). auto. }
    rewrite ST. assert (Q : forall a, CounterSpec.activated a (round t m) = if (1 <=? a) && (a <=? n) then 1 else 0).
    { intros a. rewrite activated_round, <- (proj1 (Permutation_count_occ Nat.eq_dec _ _) (perm_trans PL PM)). apply NoopProofs.count_ids. }
    assert (Q1 : forall a, 1 <= a <= n -> CounterSpec.activated a (round t m) = 1).
    { intros a L. rewrite Q. now rewrite (proj2 (Nat.leb_le 1 a)), (proj2 (Nat.leb_le a n)) by lia. }
    assert (Q0 : forall a, ~ 1 <= a <= n -> CounterSpec.activated a (round t m) = 0).
    { intros a L. rewrite Q. destruct (Nat.leb_spec 1 a), (Nat.leb_spec a n); cbn; lia. }
    split; [exact D|]. split; [exact (perm_trans PL PM)|]. split; [exact V|]. split; [|split; [|split]].
    + intros a L. specialize (M1 a). specialize (T1 a L). rewrite (Q1 a L) in M1. lia.
    + intros a L. specialize (M1 a). specialize (T2 a L). rewrite (Q0 a L) in M1. lia.
    + intros H a L. rewrite (M2 H), (Q1 a L), (T3 H a L). lia.
    + intros H a. now rewrite (M3 H), (T4 H).
  - intros ->. assert (Z : n = 0). { apply Permutation_sym, Permutation_nil in PL. destruct n; [reflexivity|discriminate PL]. }
    split; [exact C|]. split; [exact PL|]. split; [exact U|]. split; [intros; lia|]. split; [exact T2|]. split; [intros; lia|exact T4].
Qed.
Lemma any_order sh di k draws s x tr : ticks di k -> unit_draws one draws -> neutral_run p shuffle sh di n k draws = (s, x, tr) -> exists l, tallied k l x.
Proof.
  intros T U E. unfold neutral_run in E. apply (whole_run u di k T tallied (tallied_HP di)) in E; [|lia|apply seq_NoDup|].
  - destruct E as (l & _ & H & _). now exists l.
  - split; [intros a; split; reflexivity|]. split; [reflexivity|]. split; [exact U|]. cbn. repeat split; intros; lia.
Qed.
End AnyOrder.

(** In the order of creation. *)
Section InOrder.
Variable n : nat.
Variable draws : nat -> num.
Variable di : num.
Definition inorder (k : nat) (s : sched) (x : fworld dfun nrest * cors (frame dfun)) : Prop :=
  s_queue s = single (tick di k) (seq 1 n) /\ s_shuffle s = false /\ s_di s = di /\ (1 <= n -> s_time s = tick di k) /\ calm x /\
  (forall i, rolls x i = draws (k * n + i)) /\ (forall i, i < n -> runs x (S i) = hits p draws n i k).
(** The agents [1] to [j] have run in this step. *)
Definition partway (k j : nat) (x : fworld dfun nrest * cors (frame dfun)) : Prop :=
  calm x /\ (forall i, rolls x i = draws (k * n + j + i)) /\ (forall i, i < n -> runs x (S i) = hits p draws n i (if i <? j then S k else k)).
Lemma partway_act k j s x x' ops o : j < n -> partway k j x -> u_step u s (S j) x = (x', ops, o) -> ops = [] /\ o = Ret None /\ partway k (S j) x'.
Proof.
  intros L (C & D & R) E. destruct (neutral_act _ _ _ _ _ _ C E) as (C' & -> & -> & F). split; [reflexivity|]. split; [reflexivity|]. split; [exact C'|].
  unfold runs, rolls in *. rewrite F. cbn [neutral_fn nr_times nr_draws]. split; [intros i; rewrite D; f_equal; lia|]. intros i Li.
  rewrite (D 0), (R i Li). unfold prob. destruct (Nat.eqb_spec (S i) (S j)) as [e|e].
  - assert (i = j) as -> by lia. cbn [andb]. rewrite Nat.ltb_irrefl. replace (j <? S j) with true by (symmetry; apply Nat.ltb_lt; lia).
    cbn [hits]. rewrite Nat.add_0_r. destruct (n_ltb _ _); lia.
  - cbn [andb]. destruct (Nat.ltb_spec i j), (Nat.ltb_spec i (S j)); try reflexivity; lia.
Qed.
Lemma partway_bucket k now when m : nonneg now = true -> n_add di now = when -> n_truthy when = true -> n_eqb when when = true -> n_eqb when PInf = false ->
  forall j s x s' x' tr f, j + m = n -> partway k j x -> s_di s = di -> s_queue s = single when (seq 1 j) ->
  run_bucket u now (seq (S j) m) s x = (s', x', tr, f) -> f = false /\ s' = set_queue s (single when (seq 1 n)) /\ partway k n x'.
Proof.
  intros NN A T R NP. induction m as [|m IH]; intros j s x s' x' tr f L P D Q E; cbn [seq run_bucket] in E.
  - assert (j = n) as -> by lia. injection E as <- <- <- <-. split; [reflexivity|]. split; [|exact P]. rewrite <- Q. now destruct s.
  - destruct (u_step u s (S j) x) as [[x1 ops] o] eqn:E1. destruct (partway_act k j s x x1 ops o ltac:(lia) P E1) as (-> & -> & P1).
    cbn [run_ops app] in E. rewrite D in E. cbn [or_num] in E. rewrite A, NP in E. cbn [negb] in E.
    destruct (run_bucket u now (seq (S (S j)) m) _ x1) as [[[s3 x3] tr3] f3] eqn:E3. injection E as <- <- <- <-.
    assert (Q2 : s_queue (timed_schedule s (S j) (Some when)) = single when (seq 1 (S j))).
    { unfold timed_schedule. cbn [set_queue s_queue or_num]. rewrite T, Q, seq_S. destruct (seq 1 j) as [|c l]; [reflexivity|].
      cbn [single insert_bucket fst snd]. rewrite R. reflexivity. }
    destruct (IH (S j) (timed_schedule s (S j) (Some when)) x1 _ _ _ _ ltac:(lia) P1 D Q2 E3) as (-> & -> & P3). auto.
Qed.
Lemma inorder_step K k s x s' x' tr f : ticks di K -> k < K -> inorder k s x -> timed_step u s x = (s', x', tr, f) -> inorder (S k) s' x'.
Proof.
  intros T LK (Q & Sh & D & Tm & C & G & R) E. destruct (ticks_tick di K T k LK) as (T1 & T2 & T3 & T4).
  destruct n as [|n0] eqn:En.
  { unfold timed_step in E. rewrite Q in E. cbn in E. injection E as <- <- <- <-. unfold inorder. rewrite En. split; [exact Q|]. split; [exact Sh|]. split; [exact D|].
    split; [intros; lia|]. split; [exact C|]. split; [intros; rewrite G; f_equal; lia|intros; lia]. }
  specialize (Tm ltac:(lia)). unfold timed_step in E. rewrite Q in E. cbn [single seq] in E. rewrite Tm, n_ltb_irrefl, Sh in E. change (1 :: seq 2 n0) with (seq 1 (S n0)) in E.
  destruct (run_bucket u (tick di k) (seq 1 (S n0)) (set_queue s []) x) as [[[s1 x1] tr1] f1] eqn:E1. rewrite <- En in E1.
  destruct (partway_bucket k (tick di k) (tick di (S k)) n T1 eq_refl T2 T3 T4 0 (set_queue s []) x s1 x1 tr1 f1) as (-> & -> & P); auto.
  { split; [exact C|]. split; [intros i; rewrite G; f_equal; subst; lia|]. intros i L. rewrite R by lia. now rewrite En. }
  rewrite En in E. injection E as <- <- <- <-. unfold inorder. rewrite En. split; [reflexivity|]. split; [exact Sh|]. split; [exact D|]. split; [intros; reflexivity|].
  destruct P as (P1 & P2 & P3). split; [exact P1|]. split.
  - intros i. rewrite P2. f_equal. subst. lia.
  - intros i L. rewrite P3 by lia. rewrite En. destruct (Nat.ltb_spec i (S n0)); [reflexivity|lia].
Qed.
Lemma in_order k s x tr : ticks di k -> neutral_run p shuffle false di n k draws = (s, x, tr) -> inorder k s x.
Proof.
  intros T E. unfold neutral_run in E. rewrite run_hist_app, (start_single u false di _ (seq 1 n) (seq_NoDup n 1)) in E. cbn [app run_hist run_cmd] in E.
  set (s0 := Sched _ _ _ _ _ _) in E. set (w0 := (FWorld _ _, _)) in E.
  destruct (run_hist u (repeat CStep k) s0 w0) as [[s1 x1] tr1] eqn:E1. injection E as <- <- <-.
  assert (G : forall m j s x s' x' tr, j + m = k -> inorder j s x -> run_hist u (repeat CStep m) s x = (s', x', tr) -> inorder k s' x').
  { induction m as [|m IH]; intros j s x s' x' tr0 L I E; cbn [repeat run_hist run_cmd] in E.
    - assert (j = k) as <- by lia. now injection E as <- <- <-.
    - destruct (timed_step u s x) as [[[s2 x2] tr2] f2] eqn:E2. destruct (run_hist u (repeat CStep m) s2 x2) as [[s3 x3] tr3] eqn:E3. injection E as <- <- <-.
      eapply (IH (S j)); [lia| |exact E3]. eapply (inorder_step k); eauto. lia. }
  eapply (G k 0); [lia| |exact E1]. split; [reflexivity|]. split; [reflexivity|]. split; [reflexivity|]. split; [reflexivity|].
  split; [intros a; split; reflexivity|]. split; [reflexivity|]. intros i _. reflexivity.
Qed.
End InOrder.
End Neutral.
