(** Theorems about the data frames of an environment (soil/environment.py:125-139) and their drawing (soil/analysis.py:7-27). *)
From Coq Require Import ZArith List Bool Arith String Sorting.Sorted Lia.
From Verif Require Import Num PyDict TimedModel RunModel DfModel DfSpec DfProofs.
Import ListNotations.
Local Open Scope string_scope.
Local Open Scope list_scope.

Section Props.
Context {V : Type}.
Variable veqb : V -> V -> bool.

(** ** C235: [model_df] has a row for each collection, in order, under its time (or its number), with what each reporter gave. *)
(** Refuted: once a reporter is added after a collection, all frames of the model fail, for ever; and so does [model_df] with a reporter called
    step. *)
Theorem C235_late_reporter_refuted : forall mr ar sns1 sns2 name steps, NoDup mr -> NoDup ar -> sns1 <> [] ->
  model_df steps (fold_left dcollect sns2 (add_rep (collected (V := V) mr ar sns1) name KUser)) = DRaise EValue.
Proof. intros. unfold model_df. rewrite late_reporter by assumption. reflexivity. Qed.
Theorem C235_reporter_called_step_refuted : forall mr ar (sns : list (snap V)), NoDup mr -> NoDup ar -> In "step" mr ->
  model_df false (collected mr ar sns) = DRaise EValue.
Proof.
  intros mr ar sns N1 N2 I. unfold model_df. rewrite collected_frame by assumption. cbn [dbind f_cols].
  rewrite (proj2 (dhas_in _ "step")); [reflexivity|]. rewrite cols_keys. apply all_reps_keys. auto.
Qed.
(** What does hold: with all reporters there before the first collection, none of them called step or time. *)
Theorem C235_model_df_partial : forall mr ar (sns : list (snap V)), NoDup mr -> NoDup ar -> ~ In "step" mr -> ~ In "time" mr ->
  exists f g, model_df false (collected mr ar sns) = DOk f /\ model_df true (collected mr ar sns) = DOk g /\
    f_name f = Some "time" /\ f_index f = map (fun sn => CTime (sn_time sn)) sns /\
    column f "step" = Some (map CCount (seq 0 (List.length sns))) /\ column f "time" = None /\
    f_index g = map CCount (seq 0 (List.length sns)) /\ column g "time" = Some (map (fun sn => CTime (sn_time sn)) sns) /\
    (forall n, In n mr -> column f n = Some (map (fun sn => CUser (sn_model sn n)) sns) /\ column g n = column f n) /\
    (~ In "agent_count" mr -> column f "agent_count" = Some (map (fun sn => CCount (List.length (sn_agents sn))) sns) /\ column g "agent_count" = column f "agent_count").
Proof.
  intros mr ar sns N1 N2 S T. eexists. eexists. split; [apply model_df_ok; assumption|].
  split; [unfold model_df; rewrite collected_frame by assumption; reflexivity|].
  unfold column. cbn [f_name f_index f_cols dget]. rewrite col_time by exact T. rewrite map_map.
  split; [reflexivity|]. split; [reflexivity|]. split; [reflexivity|]. split.
  { change (eqb "time" "step") with false. cbv iota. apply dget_fresh. rewrite ddel_keys by (rewrite cols_keys; apply all_reps_nodup, N1). intros [H _]. congruence. }
  split; [reflexivity|]. split; [rewrite cols_get, all_reps_time by exact T; rewrite col_time, map_map by exact T; reflexivity|].
  assert (G : forall n k, n <> "step" -> n <> "time" -> dget n (all_reps mr) = Some k ->
            (if eqb n "step" then Some (map CCount (seq 0 (List.length sns))) else dget n (ddel "time" (cols (all_reps mr) (col_of (all_reps mr) sns)))) =
            Some (map (fun sn => report sn n k) sns) /\ dget n (cols (all_reps mr) (col_of (all_reps mr) sns)) = Some (map (fun sn => report sn n k) sns)).
  { intros n k H1 H2 H3. rewrite (proj2 (eqb_neq n "step") H1). rewrite ddel_get by exact H2. rewrite cols_get, H3. unfold col_of. rewrite H3. auto. }
  split.
  - intros n I. destruct (G n KUser) as [A B]; [intros ->; contradiction | intros ->; contradiction | apply all_reps_user; assumption|].
    rewrite A, B. auto.
  - intros H. destruct (G "agent_count" KCount) as [A B]; [discriminate | discriminate | apply all_reps_count, H|]. rewrite A, B. auto.
Qed.

(** ** C236: [agent_df] has a row for each agent at each collection, under the time of the collection, with what each reporter gave. *)
(** Refuted: if there are no agents at the first collections (agents are added to the environment once it is there), each row stands under the time
    of an earlier collection. *)
Theorem C236_shifted_refuted : forall mr ar sns0 sns1, NoDup mr -> NoDup ar -> ar <> [] -> ~ In "time" mr ->
  regular (sns0 ++ sns1) -> Forall (fun sn : snap V => sn_agents sn = []) sns0 -> peopled sns1 -> sns1 <> [] ->
  agent_df veqb false (collected mr ar (sns0 ++ sns1)) =
    DOk (AFrame ("time", "agent_id") ar (flat_map (fun p => rows_at ar (fst p) (snd p)) (combine sns1 (map sn_time (sns0 ++ sns1))))).
Proof. exact (agent_df_shift veqb). Qed.
(** And there is no frame at all if two collections had the same time, which is so once nothing is left to do. *)
Theorem C236_same_time_refuted : forall mr ar sns1 a sns2 b sns3, NoDup mr -> NoDup ar -> ~ In "time" mr -> n_eqb (sn_time a) (sn_time b) = true ->
  forall af, agent_df veqb false (collected mr ar (sns1 ++ a :: sns2 ++ b :: sns3)) <> DOk af.
Proof. exact (agent_df_same_time veqb). Qed.
Theorem C236_after_the_end_refuted : forall {AR : Arith} {W : Type} (u : user W) (see : W -> snap V) s w mr ar sns,
  NoDup mr -> NoDup ar -> ~ In "time" mr -> s_queue s = [] -> s_time s <> NaN ->
  let snap_of s w := Snap (s_steps s) (s_time s) (s_reg s) (sn_model (see w)) (sn_agent (see w)) in
  exists s' w', timed_step u s w = (s', w', [], false) /\
    forall af, agent_df veqb false (collected mr ar (sns ++ [snap_of s w; snap_of s' w'])) <> DOk af.
Proof.
  intros AR W u see s w mr ar sns N1 N2 T Q Nn. cbv zeta. exists s, w. split; [unfold timed_step; rewrite Q; reflexivity|].
  apply (agent_df_same_time veqb mr ar sns _ []); auto. cbn [sn_time]. apply n_eqb_refl, Nn.
Qed.
(** What does hold: if there are agents at every collection, and the collections are after different numbers of steps and at different times. *)
Theorem C236_agent_df_partial : forall mr ar sns, NoDup mr -> NoDup ar -> ar <> [] -> ~ In "time" mr ->
  regular sns -> peopled sns -> sns <> [] ->
  agent_df veqb false (collected mr ar sns) = DOk (AFrame ("time", "agent_id") ar (flat_map (fun sn : snap V => rows_at ar sn (sn_time sn)) sns)).
Proof.
  intros mr ar sns N1 N2 Ne T R P N. pose proof (agent_df_shift veqb mr ar [] sns N1 N2 Ne T R (Forall_nil _) P N) as A. cbn [app] in A.
  rewrite combine_self in A. exact A.
Qed.
(** By numbers of steps there is less to ask for. *)
Theorem C236_by_steps_partial : forall mr ar sns, NoDup mr -> NoDup ar -> ar <> [] -> NoDup (map sn_steps sns) ->
  (exists sn : snap V, In sn sns /\ sn_agents sn <> []) ->
  exists af, agent_df veqb true (collected mr ar sns) = DOk af /\ af_cols af = ar /\
    af_rows af = flat_map (fun sn => map (fun a => (CCount (sn_steps sn), a, map (fun r => Some (sn_agent sn a r)) ar)) (sn_agents sn)) sns.
Proof.
  intros mr ar sns N1 N2 Ne N3 E. unfold agent_df. rewrite agent_vars_ok by assumption. cbn [dbind]. eexists. split; [reflexivity|]. cbn [af_cols af_rows].
  split; [apply (collected_inv mr ar sns N1 N2)|]. clear. induction sns as [|sn sns IH]; [reflexivity|]. cbn [flat_map]. rewrite map_app, IH. f_equal.
  unfold raw_rows. rewrite map_map. reflexivity.
Qed.

(** A reporter that is added after some collections: what they collected stays, without a value for it; and if it is the first one they
    have no rows. *)
Theorem C236_late_reporter_partial : forall mr ar sns1 name sns2, NoDup mr -> NoDup ar -> ~ In name ar -> NoDup (map sn_steps (sns1 ++ sns2)) ->
  (exists sn : snap V, In sn sns2 /\ sn_agents sn <> []) ->
  exists af, agent_df veqb true (fold_left dcollect sns2 (add_arep (collected mr ar sns1) name)) = DOk af /\ af_cols af = ar ++ [name] /\
    af_rows af =
      match ar with
      | [] => []
      | _ => flat_map (fun sn => map (fun a => (CCount (sn_steps sn), a, map (fun r => Some (sn_agent sn a r)) ar ++ [None])) (sn_agents sn)) sns1
      end ++
      flat_map (fun sn => map (fun a => (CCount (sn_steps sn), a, map (fun r => Some (sn_agent sn a r)) (ar ++ [name]))) (sn_agents sn)) sns2.
Proof.
  intros mr ar sns1 name sns2 N1 N2 I N3 (sn & J & Ne). rewrite map_app in N3.
  destruct (collected_inv mr ar sns1 N1 N2) as (_ & B & _). cbv zeta in B. set (c := collected mr ar sns1) in *.
  assert (A : dc_areps (add_arep c name) = ar ++ [name]).
  { cbn [add_arep dc_areps]. rewrite B. destruct (existsb (String.eqb name) ar) eqn:E; [|reflexivity]. apply existsb_exists in E. destruct E as (x & E & F).
    apply String.eqb_eq in F. rewrite F in I. contradiction. }
  assert (Q : dc_recs c = match ar with [] => [] | _ => map (fun sn => (sn_steps sn, recs_of ar sn)) sns1 end).
  { destruct ar as [|r0 ar'] eqn:E.
    - unfold c, collected. destruct (new_facts (V := V) mr [] N1 N2) as (_ & _ & C & D). revert C D. generalize (new_dcol (V := V) mr []) as c0.
      clear. induction sns1 as [|sn sns1 IH]; intros c0 C D; [exact D|]. cbn [fold_left]. apply IH; cbn [dcollect dc_areps dc_recs]; [exact C|]. now rewrite C.
    - rewrite <- E in *. unfold c. rewrite <- E. apply (collected_rows mr ar sns1 N1 N2); [rewrite E; discriminate|]. exact (proj1 (NoDup_app_parts _ _ N3)). }
  assert (K : dc_recs (fold_left dcollect sns2 (add_arep c name)) = dc_recs c ++ map (fun sn => (sn_steps sn, recs_of (ar ++ [name]) sn)) sns2).
  { rewrite collects_recs; rewrite ?A; [reflexivity| | |].
    - intros E. apply app_eq_nil in E. destruct E. discriminate.
    - exact (proj2 (NoDup_app_parts _ _ N3)).
    - intros x X Y. cbn [add_arep dc_recs] in Y. rewrite Q in Y. assert (Z : In (sn_steps x) (map sn_steps sns1)).
      { destruct ar; [destruct Y|]. rewrite map_map in Y. exact Y. }
      clear -Z X N3. apply in_split in Z. destruct Z as (l1 & l2 & Z). rewrite Z, <- app_assoc in N3. cbn in N3. apply NoDup_remove_2 in N3.
      apply N3. rewrite !in_app_iff. right. right. now apply in_map. }
  assert (M : dc_areps (fold_left dcollect sns2 (add_arep c name)) = ar ++ [name]).
  { rewrite <- A. generalize (add_arep c name) as x. clear. induction sns2 as [|s l IH]; intros x; [reflexivity|]. cbn [fold_left]. now rewrite IH. }
  set (c' := fold_left dcollect sns2 (add_arep c name)) in *.
  assert (R : agent_rows c' = match ar with [] => [] | _ => flat_map (fun sn => map (fun a => (sn_steps sn, a, map (fun r => Some (sn_agent sn a r)) ar ++ [None])) (sn_agents sn)) sns1 end
                ++ flat_map (fun sn => map (fun a => (sn_steps sn, a, map (fun r => Some (sn_agent sn a r)) (ar ++ [name]))) (sn_agents sn)) sns2).
  { unfold agent_rows. rewrite K, M, Q, flat_map_app. f_equal.
    - assert (G : flat_map (fun p => map (fun r => (fst p, fst r, map Some (snd r) ++ repeat None (List.length (ar ++ [name]) - List.length (snd r)))) (snd p))
                    (map (fun sn => (sn_steps sn, recs_of ar sn)) sns1) =
                  flat_map (fun sn => map (fun a => (sn_steps sn, a, map (fun r => Some (sn_agent sn a r)) ar ++ [None])) (sn_agents sn)) sns1).
      { clear. induction sns1 as [|sn l IH]; [reflexivity|]. cbn [map flat_map fst snd]. rewrite IH. f_equal. unfold recs_of. rewrite map_map. apply map_ext.
        intros a. cbn [fst snd]. rewrite map_length, app_length. cbn [List.length]. replace (List.length ar + 1 - List.length ar) with 1 by lia. now rewrite map_map. }
      destruct ar; [reflexivity|]. exact G.
    - clear. induction sns2 as [|sn l IH]; [reflexivity|]. cbn [map flat_map fst snd]. rewrite IH. f_equal. unfold recs_of. rewrite map_map. apply map_ext.
      intros a. cbn [fst snd]. rewrite map_length, Nat.sub_diag. cbn [repeat]. now rewrite app_nil_r, map_map. }
  assert (U : agent_vars_rows c' = DOk (agent_rows c')).
  { unfold agent_vars_rows. rewrite M. destruct (sn_agents sn) as [|a l] eqn:Sn; [congruence|].
    assert (X : In (sn_steps sn, a, map (fun r => Some (sn_agent sn a r)) (ar ++ [name])) (agent_rows c')).
    { rewrite R, in_app_iff. right. apply in_flat_map. exists sn. split; [exact J|]. rewrite Sn. now left. }
    destruct (agent_rows c') eqn:Z; [destruct X|].
    replace (existsb _ (dc_recs c')) with true; [destruct ar; reflexivity|]. symmetry. apply existsb_exists. exists (sn_steps sn, recs_of (ar ++ [name]) sn). split.
    - rewrite K, in_app_iff. right. apply in_map_iff. now exists sn.
    - cbn [snd]. apply existsb_exists. exists (a, map (sn_agent sn a) (ar ++ [name])). split; [unfold recs_of; rewrite Sn; now left|]. cbn [snd]. rewrite map_length. apply Nat.eqb_refl. }
  unfold agent_df. rewrite U. cbn [dbind]. eexists. split; [reflexivity|]. cbn [af_cols af_rows]. split; [exact M|]. rewrite R, map_app. f_equal.
  - assert (G : forall (g : snap V -> nat -> list (option V)) l, map (fun r => (@CCount V (fst (fst r)), snd (fst r), snd r)) (flat_map (fun sn => map (fun a => (sn_steps sn, a, g sn a)) (sn_agents sn)) l)
      = flat_map (fun sn => map (fun a => (CCount (sn_steps sn), a, g sn a)) (sn_agents sn)) l).
    { clear. intros g. induction l as [|x l IH]; [reflexivity|]. cbn [flat_map]. rewrite map_app, IH, map_map. reflexivity. }
    destruct ar; [reflexivity|]. apply (G (fun sn a => map (fun r => Some (sn_agent sn a r)) (s :: ar) ++ [None])).
  - clear. induction sns2 as [|x l IH]; [reflexivity|]. cbn [flat_map]. rewrite map_app, IH, map_map. reflexivity.
Qed.

(** ** C237: [plot] draws all the variables of the model that are not ignored, and how many agents have each value. *)
(** Refuted: with [steps=True] it always fails, whatever is ignored, unless a frame is given. *)
Theorem C237_plot_by_steps_refuted : forall mr ar adf (sns : list (snap V)) ignore, NoDup mr -> NoDup ar ->
  exists e, plot veqb (collected mr ar sns) adf None true ignore = DRaise e.
Proof. exact (plot_steps_raises veqb). Qed.
(** What does hold: over time, with collections as for C236. *)
Theorem C237_plot_partial : forall mr ar (sns : list (snap V)), NoDup mr -> NoDup ar -> ~ In "time" mr -> ~ In "step" mr -> regular sns -> peopled sns -> sns <> [] ->
  exists d, plot veqb (collected mr ar sns) None None false ["agent_count"] = DOk d /\
    dr_x d = map (fun sn => CTime (sn_time sn)) sns /\
    (forall n, dget n (dr_lines d) = if in_dec string_dec n (remove string_dec "agent_count" mr) then Some (map (fun sn => CUser (sn_model sn n)) sns) else None) /\
    match dr_counts d with
    | None => ar = []
    | Some k => forall sn v, In sn sns -> k (CTime (sn_time sn)) v = cells_with veqb ar sn v
    end.
Proof. exact (plot_ok veqb). Qed.
(** Frames that are given, by numbers of steps: every cell is counted, those without a value are not; without rows nothing is counted. *)
Theorem C237_given_partial : forall c (f : frame V) (af : aframe V) (steps : bool) ignore,
  (forall n, In n (ignore ++ [if steps then "time" else "step"]) -> column f n <> None) ->
  NoDup (map fst (af_rows af)) -> (forall r, In r (af_rows af) -> exists i, fst (fst r) = CCount i) ->
  exists d, plot veqb c (Some af) (Some f) steps ignore = DOk d /\ dr_x d = f_index f /\
    (forall n, dget n (dr_lines d) = if in_dec string_dec n (ignore ++ [if steps then "time" else "step"]) then None else column f n) /\
    match dr_counts d with
    | None => af_rows af = []
    | Some k => af_rows af <> [] /\ forall i v, k (CCount i) v = List.length (filter (fun x => Nat.eqb i (fst x) && veqb v (snd x)) (filled af))
    end.
Proof.
  intros c f af steps ignore H N C. unfold plot. cbn [dbind]. set (ig := ignore ++ _) in *.
  replace (forallb _ ig) with true.
  2:{ symmetry. apply forallb_forall. intros n I. apply H in I. unfold column in I. rewrite dhas_get. now destruct (dget n (f_cols f)). }
  set (lines := filter _ _).
  assert (L : forall n, dget n lines = if in_dec string_dec n ig then None else column f n).
  { intros n. subst lines. rewrite (dget_filter _ (fun k => negb (existsb (String.eqb k) ig))). unfold column. destruct (in_dec string_dec n ig) as [I|I].
    - replace (existsb (String.eqb n) ig) with true; [reflexivity|]. symmetry. apply existsb_exists. exists n. split; [exact I|apply String.eqb_refl].
    - replace (existsb (String.eqb n) ig) with false; [reflexivity|]. symmetry. apply not_true_iff_false. intros E. apply existsb_exists in E.
      destruct E as (x & E & F). apply String.eqb_eq in F. now subst. }
  unfold draw_agents.
  assert (D : same_entry veqb (af_rows af) = false).
  { apply same_entry_false. intros l1 r l2 r' l3 E X Y. destruct (C r) as (i & I); [rewrite E; apply in_or_app; right; now left|].
    destruct (C r') as (j & J); [rewrite E; apply in_or_app; right; right; apply in_or_app; right; now left|]. rewrite I, J in X. cbn in X. apply Nat.eqb_eq in X. subst j.
    rewrite E, map_app in N. cbn [map] in N. apply NoDup_remove_2 in N. apply N. rewrite in_app_iff. right. rewrite map_app, in_app_iff. right. left.
    destruct r as [[? ?] ?], r' as [[? ?] ?]. cbn in *. congruence. }
  rewrite D. destruct (af_rows af) as [|r0 rows] eqn:E.
  - eexists. split; [reflexivity|]. cbn [dr_x dr_lines dr_counts]. now repeat split.
  - eexists. split; [reflexivity|]. cbn [dr_x dr_lines dr_counts]. split; [reflexivity|]. split; [exact L|]. split; [discriminate|]. intros i v.
    unfold counts_of, filled. rewrite E in *. revert C. clear. generalize (r0 :: rows) as l. clear. induction l as [|r l IH]; intros C; [reflexivity|]. cbn [flat_map].
    rewrite !filter_app, !app_length, IH by (intros x I; apply C; now right). f_equal. destruct (C r) as (j & J); [now left|]. rewrite J. cbn [cell_eqb].
    induction (snd r) as [|x xs IHx]; [destruct (Nat.eqb i j); reflexivity|].
    destruct (Nat.eqb i j) eqn:Q; cbn [filter flat_map List.length app] in *; destruct x as [y|]; cbn [app filter fst snd] in *;
      rewrite ?Q in *; cbn [andb] in *; try (destruct (veqb v y)); cbn [List.length] in *; congruence.
Qed.
End Props.

(** A case: three collections; the first finds nobody in [late]. *)
Definition sn_case (i : nat) (t : Z) (l : list nat) : snap nat :=
  Snap i (Fin t) l (fun n => 10 * i + String.length n) (fun a n => 100 * i + a).
Definition all_case : list (snap nat) := [sn_case 0 0 [1; 2]; sn_case 1 5 [1; 2]; sn_case 2 7 [2]].
Definition late_case : list (snap nat) := [sn_case 0 0 []; sn_case 1 5 [1; 2]; sn_case 2 7 [2]].
Example C235_case : model_df false (collected ["abc"] ["s"] all_case) =
  DOk (Frame (Some "time") [CTime (Fin 0); CTime (Fin 5); CTime (Fin 7)]
    [("step", [CCount 0; CCount 1; CCount 2]); ("abc", [CUser 3; CUser 13; CUser 23]); ("agent_count", [CCount 2; CCount 2; CCount 1])]).
Proof. reflexivity. Qed.
Example C236_hypotheses : regular all_case /\ peopled all_case /\ regular late_case /\ peopled (tl late_case).
Proof.
  repeat split; repeat constructor; cbn; try lia; try discriminate; try (intros H; intuition discriminate).
Qed.
Example C236_case : agent_df Nat.eqb false (collected ["abc"] ["s"] all_case) =
  DOk (AFrame ("time", "agent_id") ["s"]
    [(CTime (Fin 0), 1, [Some 1]); (CTime (Fin 0), 2, [Some 2]); (CTime (Fin 5), 1, [Some 101]); (CTime (Fin 5), 2, [Some 102]); (CTime (Fin 7), 2, [Some 202])]).
Proof. reflexivity. Qed.
(** The rows that were collected at 5 stand under 0, the ones of 7 under 5. *)
Example C236_shifted_case : agent_df Nat.eqb false (collected ["abc"] ["s"] late_case) =
  DOk (AFrame ("time", "agent_id") ["s"] [(CTime (Fin 0), 1, [Some 101]); (CTime (Fin 0), 2, [Some 102]); (CTime (Fin 5), 2, [Some 202])]).
Proof. reflexivity. Qed.
(** The reporter s is added after the first collection. *)
Definition grown_case : dcol nat := fold_left dcollect (tl all_case) (add_arep (collected ["abc"] ["r"] [sn_case 0 0 [1; 2]]) "s").
Example C236_late_reporter_case : exists af f d k, agent_df Nat.eqb true grown_case = DOk af /\ model_df true grown_case = DOk f /\
  af_rows af = [(CCount 0, 1, [Some 1; None]); (CCount 0, 2, [Some 2; None]); (CCount 1, 1, [Some 101; Some 101]); (CCount 1, 2, [Some 102; Some 102]);
                (CCount 2, 2, [Some 202; Some 202])] /\
  plot Nat.eqb grown_case (Some af) (Some f) true ["agent_count"] = DOk d /\ dr_counts d = Some k /\
  k (CCount 0) 1 = 1 /\ k (CCount 1) 101 = 2 /\ k (CCount 1) 1 = 0.
Proof. do 4 eexists. repeat split. Qed.
Example C237_case : exists d k, plot Nat.eqb (collected ["abc"] ["s"] all_case) None None false ["agent_count"] = DOk d /\
  dr_lines d = [("abc", [CUser 3; CUser 13; CUser 23])] /\ dr_counts d = Some k /\ k (CTime (Fin 5)) 101 = 1 /\ k (CTime (Fin 5)) 1 = 0.
Proof. eexists. eexists. repeat split. Qed.

Print Assumptions C235_late_reporter_refuted.
Print Assumptions C235_reporter_called_step_refuted.
Print Assumptions C235_model_df_partial.
Print Assumptions C236_shifted_refuted.
Print Assumptions C236_same_time_refuted.
Print Assumptions C236_after_the_end_refuted.
Print Assumptions C236_agent_df_partial.
Print Assumptions C236_by_steps_partial.
Print Assumptions C237_plot_by_steps_refuted.
Print Assumptions C237_plot_partial.
Print Assumptions C236_late_reporter_partial.
Print Assumptions C237_given_partial.
