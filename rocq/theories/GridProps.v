(** C247 and C248: the mesa version of the wealth example (examples/mesa/wealth.py). *)
From Coq Require Import ZArith QArith List Bool Arith Lia Permutation.
From Verif Require Import PyDict WealthModel WealthSpec WealthProofs GridModel GridSpec GridProofs.
Import ListNotations.
Local Open Scope Z_scope.
Local Open Scope list_scope.

(** * C247: at each step everybody moves to a cell around *)
(** C247 is false on a grid of one cell: the first step raises an IndexError and nobody moves or gives anything. *)
Theorem C247_alone_refuted : forall (R : Type) (pick : R -> nat -> R * nat) draw shuffle n r,
  in_range draw -> reorders shuffle -> (0 < n)%nat ->
  exists m, new_model draw n 1 1 r = Some m /\
    let '(m', e) := model_step pick shuffle n 1 1 m in
    e = Some EIndex /\ w_pos (mm_world m') = w_pos (mm_world m) /\ w_wealth (mm_world m') = w_wealth (mm_world m).
Proof.
  intros R pick draw shuffle n r D S N. destruct (made draw n 1 1 r D ltac:(lia) ltac:(lia)) as (m & E & _ & _ & _ & I & O). exists m. split; [exact E|].
  destruct (sound_gini n m N O) as (g & G & _). unfold model_step. rewrite G.
  pose proof (S (w_rng (mm_world m)) (seq 0 n)) as P. destruct (shuffle (w_rng (mm_world m)) (seq 0 n)) as [r1 order]. cbn [snd] in P.
  rewrite acts_alone; [cbn; auto|exact I|]. intros ->. apply Permutation_sym, Permutation_nil in P. destruct n; [lia|discriminate].
Qed.
Print Assumptions C247_alone_refuted.

(** C247 on all other grids: the model can be run for any number of steps, everybody is always in a cell of the grid, and at each step
    everybody goes to another cell, at most one away in each direction. *)
Theorem C247_moves_partial : forall (R : Type) (pick : R -> nat -> R * nat) draw shuffle n width height r,
  in_range draw -> reorders shuffle -> (0 < n)%nat -> 0 < width -> 0 < height -> 1 < width * height ->
  exists m, new_model draw n width height r = Some m /\
    forall k, let '(mk, e) := model_run pick shuffle n width height k m in
      e = None /\ (forall a, (a < n)%nat -> inside width height (w_pos (mm_world mk) a)) /\
      let '(mk', e') := model_step pick shuffle n width height mk in
      e' = None /\ forall a, (a < n)%nat -> next_to_torus width height (w_pos (mm_world mk) a) (w_pos (mm_world mk') a).
Proof.
  intros R pick draw shuffle n width height r D S N W H WH. destruct (made draw n width height r D W H) as (m & E & _ & _ & _ & I & O). exists m. split; [exact E|].
  clear E. intros k. revert m I O. induction k as [|k IH]; intros m I O; cbn [model_run].
  - split; [reflexivity|]. split; [auto|]. destruct (step_moves_all pick shuffle n width height m S N O W H WH I) as (A & _ & B).
    destruct (model_step pick shuffle n width height m) as [m1 e1]. auto.
  - destruct (step_moves_all pick shuffle n width height m S N O W H WH I) as (A & B & _).
    destruct (step_sound pick shuffle n width height m S N O) as (_ & _ & _ & _ & _ & O' & _).
    destruct (model_step pick shuffle n width height m) as [m1 e1]. cbn [fst snd] in *. subst e1. exact (IH m1 B O').
Qed.
Print Assumptions C247_moves_partial.
(** What the cells around are, each once: on a torus of any size (as in wealth.py) and on a grid with borders (as in social_wealth.py). *)
Theorem C247_cells_partial : forall torus width height p, NoDup (around torus width height p) /\
  forall q, 0 < width -> 0 < height ->
  (In q (around torus width height p) <-> if torus then next_to_torus width height p q else next_to width height p q).
Proof.
  intros torus width height p. split; [apply around_nodup|]. intros q W H. destruct torus; [now apply around_torus|apply around_flat].
Qed.
Print Assumptions C247_cells_partial.

(** * C248: the recorded coefficients *)
(** C248: with at least one agent, on any grid and after any number of steps: the agents have one unit each on average and nobody owes
    anything; there is a coefficient for each step, which is that of the wealths before the step; all of them are in the range of the
    coefficient, and the first is 0. *)
Theorem C248_gini : forall (R : Type) (pick : R -> nat -> R * nat) draw shuffle n width height r,
  in_range draw -> reorders shuffle -> (0 < n)%nat -> 0 < width -> 0 < height ->
  exists m, new_model draw n width height r = Some m /\
    forall k, let run j := model_run pick shuffle n width height j m in
      total (w_wealth (mm_world (fst (run k)))) (seq 0 n) = Z.of_nat n /\
      (forall a, 0 <= w_wealth (mm_world (fst (run k))) a) /\
      (forall g, In g (mm_gini (fst (run k))) -> (0 <= g <= 1 - 1 / inject_Z (Z.of_nat n))%Q) /\
      (snd (run k) = None -> List.length (mm_gini (fst (run k))) = k) /\
      (forall i g, nth_error (mm_gini (fst (run k))) i = Some g ->
         gini (map (w_wealth (mm_world (fst (run i)))) (seq 0 n)) = Some g /\ (i = O -> g == 0)%Q /\
         nth_error (mm_wealth (fst (run k))) i = Some (map (fun a => (a, w_wealth (mm_world (fst (run i))) a)) (seq 0 n))).
Proof.
  intros R pick draw shuffle n width height r D SH N W H. destruct (made draw n width height r D W H) as (m & E & G & GW & One & I & Sd). exists m. split; [exact E|].
  intros k. cbv zeta. set (step := model_step pick shuffle n width height). set (run := fun j => model_run pick shuffle n width height j m).
  (* One step more. *)
  assert (Next : forall j, run (S j) = match run j with (m1, None) => step m1 | x => x end).
  { clear. intros j. subst run. revert m. induction j as [|j IH]; intros m.
    - cbn [model_run]. fold step. now destruct (step m) as [m1 [e|]].
    - change (model_run pick shuffle n width height (S (S j)) m) with (match step m with (m1, None) => model_run pick shuffle n width height (S j) m1 | x => x end).
      change (model_run pick shuffle n width height (S j) m) with (match step m with (m1, None) => model_run pick shuffle n width height j m1 | x => x end).
      destruct (step m) as [m1 [e|]]; [reflexivity|]. apply IH. }
  assert (Inv : forall j, sound n (fst (run j)) /\ (snd (run j) = None -> List.length (mm_gini (fst (run j))) = j) /\ (List.length (mm_gini (fst (run j))) <= j)%nat /\
            List.length (mm_wealth (fst (run j))) = List.length (mm_gini (fst (run j))) /\
            (forall g, In g (mm_gini (fst (run j))) -> (0 <= g <= 1 - 1 / inject_Z (Z.of_nat n))%Q) /\
            forall i g, nth_error (mm_gini (fst (run j))) i = Some g -> gini (map (w_wealth (mm_world (fst (run i)))) (seq 0 n)) = Some g /\
              nth_error (mm_wealth (fst (run j))) i = Some (map (fun a => (a, w_wealth (mm_world (fst (run i))) a)) (seq 0 n))).
  { induction j as [|j (IS & IL & ILe & IW & IB & IG)].
    - cbn. rewrite G, GW. split; [exact Sd|]. split; [reflexivity|]. split; [apply Nat.le_refl|]. split; [reflexivity|]. split; [intros g []|]. intros [|i] g; discriminate.
    - rewrite Next. destruct (run j) as [mj [e|]] eqn:Q; cbn [fst snd] in *.
      + split; [exact IS|]. split; [discriminate|]. split; [lia|]. auto.
      + destruct (step_sound pick shuffle n width height mj SH N IS) as (g & A & B & C & CW & F & _). fold step in C, CW, F. rewrite C, CW. split; [exact F|].
        rewrite !app_length. cbn [List.length]. rewrite IW, (IL eq_refl). split; [lia|]. split; [lia|]. split; [lia|]. split.
        * intros g' J. apply in_app_or in J. destruct J as [J|[<-|[]]]; auto.
        * intros i g' J. destruct (Nat.lt_ge_cases i j) as [L|L].
          -- rewrite nth_error_app1 in J by (rewrite (IL eq_refl); exact L). destruct (IG i g' J) as [X Y]. split; [exact X|].
             rewrite nth_error_app1 by (rewrite IW, (IL eq_refl); exact L). exact Y.
          -- rewrite nth_error_app2 in J by (rewrite (IL eq_refl); exact L). rewrite nth_error_app2 by (rewrite IW, (IL eq_refl); exact L).
             rewrite IW. rewrite (IL eq_refl) in *.
             destruct (i - j)%nat eqn:X; [|destruct n0; discriminate]. assert (i = j) as -> by lia. injection J as <-. rewrite Q. cbn [fst nth_error]. auto. }
  destruct (Inv k) as ((T & P) & L & _ & _ & B & F). split; [exact T|]. split; [exact P|]. split; [exact B|]. split; [exact L|].
  intros i g J. destruct (F i g J) as [X Y]. split; [exact X|]. split; [|exact Y]. intros ->. cbn in X.
  replace (map (w_wealth (mm_world m)) (seq 0 n)) with (repeat 1 n) in X.
  - destruct (gini_equal 1 n ltac:(lia) N) as (g' & E' & Z). rewrite E' in X. injection X as <-. exact Z.
  - clear -One. generalize 0%nat as k. induction n as [|q IH]; intros k; [reflexivity|]. cbn [repeat seq map]. now rewrite One, <- IH.
Qed.
Print Assumptions C248_gini.

(** Without agents the first step raises a ZeroDivisionError and nothing is recorded; without cells no agent can be placed. *)
Theorem C248_limits : forall (R : Type) (pick : R -> nat -> R * nat) draw shuffle n width height r,
  (n = O -> exists m, new_model draw n width height r = Some m /\
     forall k, model_run pick shuffle n width height (S k) m = (m, Some EZeroDivision) /\ mm_gini m = []) /\
  ((0 < n)%nat -> width <= 0 \/ height <= 0 -> new_model draw n width height r = None).
Proof.
  intros R pick draw shuffle n width height r. split.
  - intros ->. eexists. split; [reflexivity|]. intros k. split; reflexivity.
  - intros N Z. unfold new_model. destruct n as [|q]; [lia|]. cbn [seq place_all].
    replace ((width <=? 0) || (height <=? 0)) with true; [reflexivity|]. symmetry. apply orb_true_iff. rewrite !Z.leb_le. exact Z.
Qed.
Print Assumptions C248_limits.

(** Three agents on a grid of four by two cells; the generator counts. *)
Definition g_pick (r : nat) (k : nat) : nat * nat := (S r, Nat.modulo (r * r) k).
Definition g_draw (r : nat) (b : Z) : nat * Z := (S r, (Z.of_nat r) mod b).
Definition g_shuffle (r : nat) (l : list nat) : nat * list nat := (S r, if Nat.even r then rev l else l).
Example g_fair : in_range g_draw /\ reorders g_shuffle.
Proof.
  split; [intros r b B; apply Z.mod_pos_bound; exact B|]. intros r l. unfold g_shuffle. cbn [snd]. destruct (Nat.even r); [apply Permutation_rev|apply Permutation_refl].
Qed.
Definition shown (x : mmodel nat * option gexn) : list (Z * Z) * list Z * list Q * option gexn :=
  (map (w_pos (mm_world (fst x))) [0; 1; 2]%nat, map (w_wealth (mm_world (fst x))) [0; 1; 2]%nat, map Qred (mm_gini (fst x)), snd x).
Example C248_case : exists m, new_model g_draw 3 4 2 0%nat = Some m /\
  shown (m, None) = ([(0, 1); (2, 1); (0, 1)], [1; 1; 1], [], None) /\
  shown (model_run g_pick g_shuffle 3 4 2 1 m) = ([(3, 1); (3, 1); (1, 1)], [1; 1; 1], [0%Q], None) /\
  shown (model_run g_pick g_shuffle 3 4 2 3 m) = ([(3, 1); (1, 1); (1, 0)], [2; 0; 1], [0%Q; 0%Q; (4 # 9)%Q], None).
Proof. eexists. split; [reflexivity|]. split; [reflexivity|]. split; vm_compute; reflexivity. Qed.
Example C247_case : around true 4 2 (0, 1) = [(3, 0); (3, 1); (0, 0); (1, 0); (1, 1)] /\ around false 4 2 (0, 1) = [(0, 0); (1, 0); (1, 1)] /\
  List.length (around true 3 3 (0, 0)) = 8%nat /\ around true 1 1 (0, 0) = [].
Proof. repeat split. Qed.
