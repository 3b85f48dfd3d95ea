(** Proofs about the runs of simulations. *)
From Coq Require Import ZArith List Bool Arith String Ascii Permutation Lia.
From Coq Require DecimalString DecimalNat DecimalFacts.
From Verif Require Import PyDict SimModel SimSpec.
Import ListNotations.
Local Open Scope string_scope.
Local Open Scope list_scope.

(** * The matrix *)
Section Matrix.
Context {A : Type}.
Notation mat := (dict string (list A)).

Lemma nth_error_flat_map {X Y} (f : X -> list Y) n l i :
  0 < n -> (forall x, In x l -> List.length (f x) = n) ->
  nth_error (flat_map f l) i =
    match nth_error l (i / n) with Some x => nth_error (f x) (i mod n) | None => None end.
Proof.
  intros Hn. revert i. induction l as [|x l IH]; intros i H; simpl.
  - destruct i; destruct (_ / n); reflexivity.
  - destruct (Nat.lt_ge_cases i n) as [L|G].
    + rewrite nth_error_app1 by (rewrite H; simpl; auto).
      rewrite Nat.div_small, Nat.mod_small by auto. reflexivity.
    + rewrite nth_error_app2 by (rewrite H; simpl; auto).
      rewrite H by (simpl; auto). rewrite IH by (intros; apply H; simpl; auto).
      assert (i / n = S ((i - n) / n)) as ->.
      { replace i with ((i - n) + 1 * n) at 1 by lia. rewrite Nat.div_add by lia. lia. }
      assert (i mod n = (i - n) mod n) as ->.
      { replace i with ((i - n) + 1 * n) at 1 by lia. now rewrite Nat.mod_add by lia. }
      reflexivity.
Qed.

Lemma flat_map_length_const {X Y} (f : X -> list Y) n l :
  (forall x, In x l -> List.length (f x) = n) -> List.length (flat_map f l) = List.length l * n.
Proof.
  induction l as [|x l IH]; intros H; simpl; [reflexivity|].
  rewrite app_length, IH, H; simpl; auto. intros. apply H. simpl. auto.
Qed.

Lemma product_length (m : mat) : List.length (product (dvalues m)) = total m.
Proof.
  induction m as [|[k l] m IH]; [reflexivity|]. simpl.
  rewrite (flat_map_length_const _ (total m)); [reflexivity|].
  intros. now rewrite map_length.
Qed.

Lemma total_skipn (m : mat) j k l : nth_error m j = Some (k, l) ->
  exists P, total m = P * (List.length l * total (skipn (S j) m)).
Proof.
  revert j. induction m as [|[k' l'] m IH]; intros [|j] H; try discriminate.
  - injection H as -> ->. exists 1. simpl. lia.
  - destruct (IH j H) as [P E]. exists (List.length l' * P).
    change (skipn (S (S j)) ((k', l') :: m)) with (skipn (S j) m).
    cbn [total fold_right snd]. fold (total m). rewrite E. ring.
Qed.

Lemma mod_div_mod i P n t : 0 < P -> 0 < n -> 0 < t ->
  (i mod (P * (n * t)) / t) mod n = (i / t) mod n.
Proof.
  intros HP Hn Ht.
  replace (P * (n * t)) with (t * (n * P)) by ring.
  rewrite Nat.mod_mul_r by nia.
  replace (i mod t + t * ((i / t) mod (n * P))) with (i mod t + ((i / t) mod (n * P)) * t) by lia.
  rewrite Nat.div_add by lia. rewrite (Nat.div_small (i mod t)) by (apply Nat.mod_upper_bound; lia).
  rewrite Nat.add_0_l, Nat.mod_mul_r by lia.
  rewrite (Nat.mul_comm n), Nat.mod_add by lia. apply Nat.mod_mod. lia.
Qed.

Lemma nth_choice_mod (m : mat) i c :
  0 < total m -> nth_choice m (i mod total m) c -> nth_choice m i c.
Proof.
  intros T [L H]. split; auto. intros j k l N. destruct (H j k l N) as (v&E1&E2).
  exists v. split; auto. destruct (total_skipn m j k l N) as [P EP].
  rewrite EP in E2, T.
  rewrite mod_div_mod in E2; auto; nia.
Qed.

Lemma product_nth (m : mat) i : i < total m ->
  exists vs, nth_error (product (dvalues m)) i = Some vs /\
    nth_choice m i (combine (dkeys m) vs).
Proof.
  revert i. induction m as [|[k l] m IH]; intros i L.
  - exists []. simpl in L. assert (i = 0) as -> by lia. split; [reflexivity|].
    split; [reflexivity|]. intros [|j] ? ?; discriminate.
  - cbn [total fold_right snd] in L. fold (total m) in L.
    assert (0 < total m) as TP by nia.
    destruct (IH (i mod total m)) as (vs&E&C); [apply Nat.mod_upper_bound; lia|].
    assert (i / total m < List.length l) as DL by (apply Nat.div_lt_upper_bound; nia).
    destruct (nth_error l (i / total m)) as [v|] eqn:EV;
      [|apply nth_error_None in EV; lia].
    exists (v :: vs). split.
    + simpl. rewrite (nth_error_flat_map _ (total m)); auto.
      * rewrite EV. rewrite nth_error_map, E. reflexivity.
      * intros. now rewrite map_length, product_length.
    + cbn [dkeys map fst combine]. apply nth_choice_mod in C; auto.
      destruct C as [CL CH]. split; [simpl; f_equal; exact CL|].
      intros [|j] k' l' N.
      * injection N as <- <-. exists v. split; [reflexivity|].
        cbn [skipn]. rewrite Nat.mod_small; auto.
      * apply (CH j k' l' N).
Qed.

Lemma product_lengths {X} (ls : list (list X)) vs :
  In vs (product ls) -> List.length vs = List.length ls.
Proof.
  revert vs. induction ls as [|l ls IH]; intros vs H; simpl in H.
  - destruct H as [<-|[]]. reflexivity.
  - apply in_flat_map in H as (x&_&H). apply in_map_iff in H as (vs'&<-&H).
    simpl. f_equal. auto.
Qed.

Lemma keys_combine {K X} (ks : list K) (vs : list X) :
  List.length vs = List.length ks -> map fst (combine ks vs) = ks.
Proof.
  revert vs. induction ks as [|k ks IH]; intros [|v vs] H; try discriminate; simpl; auto.
  f_equal. apply IH. simpl in H. lia.
Qed.

Lemma matrix_choices (m : mat) : dwf m ->
  choices m (map (fun vs => dict_of (combine (dkeys m) vs)) (product (dvalues m))).
Proof.
  intros WF. split; [now rewrite map_length, product_length|].
  intros i L. destruct (product_nth m i L) as (vs&E&C).
  exists (combine (dkeys m) vs). split; auto.
  rewrite nth_error_map, E. simpl. f_equal. apply dict_of_nodup.
  unfold dwf, dkeys. rewrite keys_combine; auto.
  apply nth_error_In in E. apply product_lengths in E. rewrite E.
  unfold dvalues, dkeys. now rewrite !map_length.
Qed.

(** The list of combinations is determined, complete and without repetitions. *)
Lemma nth_error_ext {X} (a b : list X) :
  (forall j, nth_error a j = nth_error b j) -> a = b.
Proof.
  revert b. induction a as [|x a IH]; intros [|y b] H; auto.
  - specialize (H 0). discriminate.
  - specialize (H 0). discriminate.
  - f_equal; [specialize (H 0); now injection H|]. apply IH. intros j. apply (H (S j)).
Qed.

Lemma nth_choice_det (m : mat) i c c' : nth_choice m i c -> nth_choice m i c' -> c = c'.
Proof.
  intros [L H] [L' H']. apply nth_error_ext. intros j.
  destruct (nth_error m j) as [[k l]|] eqn:E.
  - destruct (H j k l E) as (v&E1&E2), (H' j k l E) as (v'&E1'&E2'). congruence.
  - apply nth_error_None in E. rewrite (proj2 (nth_error_None c j)), (proj2 (nth_error_None c' j)); auto; lia.
Qed.

Lemma choices_det (m : mat) cs cs' : choices m cs -> choices m cs' -> cs = cs'.
Proof.
  intros [L H] [L' H']. apply nth_error_ext. intros i.
  destruct (Nat.lt_ge_cases i (total m)) as [I|I].
  - destruct (H i I) as (c&E&C), (H' i I) as (c'&E'&C'). rewrite E, E'. f_equal.
    eapply nth_choice_det; eauto.
  - rewrite (proj2 (nth_error_None cs i)), (proj2 (nth_error_None cs' i)); auto; lia.
Qed.

Lemma product_picks (m : mat) vs : In vs (product (dvalues m)) <->
  picks m (combine (dkeys m) vs) /\ List.length vs = List.length m.
Proof.
  revert vs. induction m as [|[k l] m IH]; intros vs; simpl.
  - split; [intros [<-|[]]; split; [constructor|reflexivity]|].
    intros [_ H]. destruct vs; [auto|discriminate].
  - rewrite in_flat_map. split.
    + intros (x&I&H). apply in_map_iff in H as (vs'&<-&H). apply IH in H as [P L].
      split; [|simpl; f_equal; auto]. constructor; auto.
    + intros [P L]. destruct vs as [|v vs]; [discriminate|]. inversion P; subst.
      exists v. simpl in *. split; [tauto|]. apply in_map_iff. exists vs. split; auto.
      apply IH. split; auto.
Qed.

Lemma picks_combine (m : mat) c : picks m c ->
  exists vs, c = combine (dkeys m) vs /\ List.length vs = List.length m.
Proof.
  intros P. exists (map snd c). induction P as [|[k l] [k' v] m c [E _] P IH]; simpl.
  - auto.
  - simpl in E. subst. destruct IH as [IH1 IH2]. split; [f_equal; auto|f_equal; auto].
Qed.

Lemma choices_complete (m : mat) cs : dwf m -> choices m cs ->
  (forall c, In c cs <-> picks m c) /\
  (Forall (fun kl => NoDup (snd kl)) m -> NoDup cs).
Proof.
  intros WF C.
  rewrite (choices_det m cs _ C (matrix_choices m WF)).
  assert (forall vs, In vs (product (dvalues m)) ->
     dict_of (combine (dkeys m) vs) = combine (dkeys m) vs) as DO.
  { intros vs I. apply dict_of_nodup. apply product_lengths in I. unfold dwf, dkeys.
    rewrite keys_combine; auto. rewrite I. unfold dvalues. now rewrite !map_length. }
  split.
  - intros c. rewrite in_map_iff. split.
    + intros (vs&<-&I). rewrite DO by auto. now apply product_picks in I.
    + intros P. destruct (picks_combine m c P) as (vs&->&L).
      assert (In vs (product (dvalues m))) as I by (apply product_picks; auto).
      exists vs. auto.
  - intros ND.
    assert (NoDup (product (dvalues m))) as NP.
    { clear -ND. induction ND as [|[k l] m N ND IH]; simpl; [repeat constructor; auto|].
      simpl in N. induction N as [|x l NI N IHl]; simpl; [constructor|].
      assert (forall (a b : list (list A)), NoDup a -> NoDup b ->
        (forall y, In y a -> ~ In y b) -> NoDup (a ++ b)) as NA.
      { clear. induction a as [|y a IH]; intros b Ha Hb D; simpl; auto.
        inversion Ha; subst. constructor.
        - rewrite in_app_iff. intros [?|?]; [auto|]. apply (D y); simpl; auto.
        - apply IH; auto. intros. apply D. simpl. auto. }
      apply NA; auto.
      - clear -IH. induction IH as [|v ls H IH IH2]; simpl; constructor; auto.
        rewrite in_map_iff. intros (v'&E&I). injection E as ->. auto.
      - intros y I1 I2. apply in_map_iff in I1 as (y1&<-&_).
        apply in_flat_map in I2 as (x'&I&I2). apply in_map_iff in I2 as (y2&E&_).
        injection E as -> _. auto. }
    assert (forall l, (forall vs, In vs l -> In vs (product (dvalues m))) -> NoDup l ->
      NoDup (map (fun vs => dict_of (combine (dkeys m) vs)) l)) as K.
    { induction l as [|vs l IH]; intros S N; simpl; constructor; inversion N; subst.
      - rewrite in_map_iff. intros (vs'&E&I). rewrite !DO in E by (apply S; simpl; auto).
        assert (vs' = vs) as ->; [|auto].
        assert (List.length vs' = List.length (dkeys m)) as L1.
        { rewrite (product_lengths (dvalues m)) by (apply S; simpl; auto).
          unfold dvalues, dkeys. now rewrite !map_length. }
        assert (List.length vs = List.length (dkeys m)) as L2.
        { rewrite (product_lengths (dvalues m)) by (apply S; simpl; auto).
          unfold dvalues, dkeys. now rewrite !map_length. }
        clear -E L1 L2. revert vs vs' E L1 L2.
        induction (dkeys m) as [|k ks IH]; intros [|v vs] [|v' vs'] E L1 L2; try discriminate; auto.
        injection E as -> E. f_equal. apply IH; auto.
      - apply IH; auto. intros. apply S. simpl. auto. }
    apply K; auto.
Qed.
End Matrix.

(** * Runs *)
Section Runs.
Context {V R E W : Type}.
Notation config := (config V R).
Notation sim := (sim V R).
Notation args := (args V R).
Notation tev := (tev V R E).
Notation st := (st R W).
Notation item := (item V R E).
Variable build : args -> W -> st * option E.
Variable exporter : call V R E -> W -> W * bool.
Variable pool_order : list nat -> W -> list nat.
Variable picklable : nat -> bool.
Variable int_of : V -> option Z.
Variable soil_debug : bool.

Notation run := (run build exporter pool_order picklable int_of soil_debug).
Notation run_configs := (run_configs build exporter pool_order picklable int_of soil_debug).
Notation run_config := (run_config build exporter pool_order picklable int_of soil_debug).
Notation pooled := (pooled int_of soil_debug).
Notation group := (group int_of soil_debug).

(** The dictionaries of the simulation are dictionaries. *)
Definition wf_sim (s : sim) : Prop := dwf (parameters s) /\ dwf (matrix s).
(** A pool finishes each of its tasks once. *)
Definition fair_pool : Prop := forall js w, Permutation (pool_order js w) js.
(** No callback of an exporter raises. *)
Definition good_exporters : Prop := forall c w, snd (exporter c w) = false.

Lemma filter_id {X} (f : X -> bool) l : (forall x, In x l -> f x = true) -> filter f l = l.
Proof.
  induction l as [|x l IH]; intros H; simpl; auto. rewrite H by (simpl; auto).
  f_equal. apply IH. intros. apply H. simpl. auto.
Qed.

Lemma filter_filter {X} (f g : X -> bool) l :
  filter f (filter g l) = filter (fun x => g x && f x) l.
Proof.
  induction l as [|x l IH]; simpl; auto. destruct (g x); simpl; auto.
  destruct (f x); simpl; now rewrite IH.
Qed.

Lemma ddel_filter {X} (k : string) (d : dict string X) : dwf d ->
  ddel k d = filter (fun kv => negb (String.eqb (fst kv) k)) d.
Proof.
  unfold dwf. induction d as [|[k' v] d IH]; intros N; simpl; auto.
  simpl in N. inversion N; subst.
  change (eqb k k') with (String.eqb k k'). rewrite (String.eqb_sym k k').
  destruct (String.eqb_spec k' k) as [->|NE]; simpl.
  - symmetry. apply filter_id. intros [k2 v2] I. simpl.
    destruct (String.eqb_spec k2 k) as [->|]; auto.
    exfalso. apply H1. apply in_map_iff. exists (k, v2). auto.
  - f_equal. apply IH. auto.
Qed.

Lemma ddel_dwf {X} (k : string) (d : dict string X) : dwf d -> dwf (ddel k d).
Proof. apply ddel_wf. Qed.

Lemma passed_ddel (p : config) : dwf p ->
  ddel "model_reporters" (ddel "agent_reporters" (ddel "num_processes" p)) = passed p.
Proof.
  intros WF.
  rewrite (ddel_filter "model_reporters") by auto using ddel_dwf.
  rewrite (ddel_filter "agent_reporters") by auto using ddel_dwf.
  rewrite (ddel_filter "num_processes") by auto.
  rewrite !filter_filter. unfold passed. apply filter_ext. intros [k v]. simpl.
  destruct (String.eqb k "num_processes"), (String.eqb k "agent_reporters"), (String.eqb k "model_reporters"); reflexivity.
Qed.

Lemma call_all_ok cs w w' tr b : call_all exporter cs w = (w', tr, b) ->
  if b then
    (exists n, tr = map TCall (firstn n cs)) /\ exists c w, snd (exporter c w) = true
  else tr = map TCall cs.
Proof.
  revert w w' tr b. induction cs as [|c cs IH]; intros w w' tr b H; simpl in H.
  - injection H as <- <- <-. reflexivity.
  - destruct (exporter c w) as [w1 x] eqn:EC. destruct x.
    + injection H as <- <- <-. split; [exists 1; reflexivity|].
      exists c, w. now rewrite EC.
    + destruct (call_all exporter cs w1) as [[w2 tr2] x2] eqn:EA.
      injection H as <- <- <-. apply IH in EA. destruct x2.
      * destruct EA as [(n&->) G]. split; auto. exists (S n). reflexivity.
      * now rewrite EA.
Qed.

Lemma exporters_do_ok (s : sim) f (x x' : st) tr b :
  exporters_do exporter s f x = (x', tr, b) ->
  st_mr x' = st_mr x /\ st_ar x' = st_ar x /\
  if b then
    (exists n, tr = map (fun i => TCall (f i)) (seq 0 n)) /\ exists c w, snd (exporter c w) = true
  else tr = map (fun i => TCall (f i)) (seq 0 (n_exporters s)).
Proof.
  unfold exporters_do. destruct (call_all _ _ _) as [[w1 tr1] b1] eqn:EC.
  intros H. injection H as <- <- <-. simpl. repeat split.
  apply call_all_ok in EC. destruct b1.
  - destruct EC as [(n&->) G]. split; auto. exists (Nat.min n (n_exporters s)).
    rewrite firstn_map, map_map. f_equal.
    clear. generalize 0. revert n. induction (n_exporters s) as [|m IH]; intros [|n] k; simpl; auto.
    f_equal. apply IH.
  - now rewrite EC, map_map.
Qed.

Lemma run_model_ok (s : sim) p j (x x' : st) tr r : dwf p ->
  run_model build s (ddel "num_processes" p) j x = (x', tr, r) ->
  (tr = [] /\ r = None) \/
  exists it, i_conf it = p /\ i_nr it = j /\ well_built s it /\
    i_res it = r /\ tr = [TRun (i_args it) r].
Proof.
  intros WF. unfold run_model.
  destruct (existsb _ ["self"; _]); [intros H; injection H as <- <- <-; auto|].
  destruct (reps_of _ _); [|intros H; injection H as <- <- <-; auto].
  destruct (reps_of _ _); [|intros H; injection H as <- <- <-; auto].
  destruct (existsb _ _); [intros H; injection H as <- <- <-; auto|].
  destruct (build _ _) as [x1 r1] eqn:EB. intros H. injection H as <- <- <-. right.
  eexists (Item p j (Args _ _ _ _ _) r1). repeat split; simpl; auto.
  now rewrite passed_ddel.
Qed.

(** The last thing seen of a run that raised. *)
Definition broken (s : sim) (tl : list tev) : Prop :=
  tl = [] \/ (exists a, tl = [TRun a None]) \/
  ((exists c w, snd (exporter c w) = true) /\
   exists a e p n, tl = TRun a (Some e) :: map (fun i => TCall (XIter i e p)) (seq 0 n)).

Definition oblock (s : sim) := @block V R E (n_exporters s).

Lemma serial_ok (s : sim) p js (x x' : st) tr r : dwf p ->
  serial (run_model build s (ddel "num_processes" p)) (export exporter s p) js x = (x', tr, r) ->
  match r with
  | Some es => exists its,
      tr = flat_map (oblock s) its /\ es = results its /\ map i_nr its = js /\
      Forall (fun it => i_conf it = p /\ well_built s it) its /\
      Forall (fun it => i_res it <> None) its
  | None => exists its tl, tr = flat_map (oblock s) its ++ tl /\ broken s tl /\
      Forall (fun it => i_conf it = p /\ well_built s it) its
  end.
Proof.
  intros WF. revert x x' tr r. induction js as [|j js IH]; intros x x' tr r H; simpl in H.
  - injection H as <- <- <-. exists []. repeat split; auto.
  - destruct (run_model _ _ _ _ _) as [[x1 tr1] r1] eqn:E1.
    apply run_model_ok in E1; auto. destruct r1 as [e|].
    + destruct E1 as [[_ ?]|(it&C1&C2&C3&C4&->)]; [discriminate|].
      destruct (export _ _ _ _ _) as [[x2 tr2] b] eqn:E2.
      unfold export in E2. apply exporters_do_ok in E2 as (_&_&E2). destruct b.
      * injection H as <- <- <-. destruct E2 as [(n&->) G].
        exists [], ([TRun (i_args it) (Some e)] ++ map (fun i => TCall (XIter i e p)) (seq 0 n)).
        repeat split; auto. right. right. split; auto. exists (i_args it), e, p, n. reflexivity.
      * destruct (serial _ _ _ _) as [[x3 tr3] r3] eqn:E3. apply IH in E3.
        injection H as <- <- <-.
        assert (oblock s it = TRun (i_args it) (Some e) :: tr2) as EB.
        { unfold oblock, block. rewrite C4, C1, E2. reflexivity. }
        destruct r3 as [es|].
        -- destruct E3 as (its&->&->&<-&F1&F2). exists (it :: its). cbn [flat_map map].
           rewrite EB, C2. unfold results. cbn [flat_map]. rewrite C4. repeat split; auto.
           constructor; auto. congruence.
        -- destruct E3 as (its&tl&->&B&F). exists (it :: its), tl. cbn [flat_map map].
           rewrite EB. cbn [app]. rewrite <- ?app_assoc. repeat split; auto.
    + injection H as <- <- <-. destruct E1 as [[-> _]|(it&C1&C2&C3&C4&->)].
      * exists [], []. repeat split; auto. now left.
      * exists [], [TRun (i_args it) None]. repeat split; auto. right. left. eauto.
Qed.

Lemma pool_ok (s : sim) p x0 js (x x' : st) tr r : dwf p ->
  pool (run_model build s (ddel "num_processes" p)) (export exporter s p) picklable x0 js x = (x', tr, r) ->
  match r with
  | Some es => exists its,
      tr = flat_map (oblock s) its /\ es = results its /\
      Forall (fun it => i_conf it = p /\ well_built s it) its /\
      (Forall (fun j => snd (fst (run_model build s (ddel "num_processes" p) j x0)) <> []) js ->
       map i_nr its = js)
  | None => exists its tl, tr = flat_map (oblock s) its ++ tl /\ broken s tl /\
      Forall (fun it => i_conf it = p /\ well_built s it) its
  end.
Proof.
  intros WF. revert x x' tr r. induction js as [|j js IH]; intros x x' tr r H; simpl in H.
  - injection H as <- <- <-. exists []. repeat split; auto.
  - destruct (negb (picklable j)).
    { injection H as <- <- <-. exists [], []. repeat split; auto. now left. }
    destruct (run_model _ _ _ _ _) as [[x1 tr1] r1] eqn:E1.
    assert (E1' := E1). apply run_model_ok in E1; auto. destruct r1 as [e|].
    + destruct E1 as [[_ ?]|(it&C1&C2&C3&C4&->)]; [discriminate|].
      destruct (export _ _ _ _ _) as [[x2 tr2] b] eqn:E2.
      unfold export in E2. apply exporters_do_ok in E2 as (_&_&E2). destruct b.
      * injection H as <- <- <-. destruct E2 as [(n&->) G].
        exists [], ([TRun (i_args it) (Some e)] ++ map (fun i => TCall (XIter i e p)) (seq 0 n)).
        repeat split; auto. right. right. split; auto. exists (i_args it), e, p, n. reflexivity.
      * destruct (pool _ _ _ _ _ _) as [[x3 tr3] r3] eqn:E3. apply IH in E3.
        injection H as <- <- <-.
        assert (oblock s it = TRun (i_args it) (Some e) :: tr2) as EB.
        { unfold oblock, block. rewrite C4, C1, E2. reflexivity. }
        destruct r3 as [es|].
        -- destruct E3 as (its&->&->&F1&F2). exists (it :: its). cbn [flat_map map].
           rewrite EB, C2. unfold results. cbn [flat_map]. rewrite C4. repeat split; auto.
           intros F. inversion F; subst. f_equal. auto.
        -- destruct E3 as (its&tl&->&B&F). exists (it :: its), tl. cbn [flat_map map].
           rewrite EB. cbn [app]. rewrite <- ?app_assoc. repeat split; auto.
    + destruct (pool _ _ _ _ _ _) as [[x3 tr3] r3] eqn:E3. apply IH in E3.
      injection H as <- <- <-. destruct E1 as [[-> _]|(it&C1&C2&C3&C4&->)].
      * destruct r3 as [es|].
        -- destruct E3 as (its&->&->&F1&F2). exists its. repeat split; auto.
           intros F. inversion F; subst. rewrite E1' in H1. simpl in H1. congruence.
        -- exact E3.
      * assert (oblock s it = [TRun (i_args it) None]) as EB.
        { unfold oblock, block. rewrite C4. reflexivity. }
        destruct r3 as [es|].
        -- destruct E3 as (its&->&->&F1&F2). exists (it :: its). cbn [flat_map map].
           rewrite EB, C2. unfold results. cbn [flat_map]. rewrite C4. repeat split; auto.
           intros F. inversion F; subst. f_equal. auto.
        -- destruct E3 as (its&tl&->&B&F). exists (it :: its), tl. cbn [flat_map map].
           rewrite EB. cbn [app]. rewrite <- ?app_assoc. repeat split; auto.
Qed.

Lemma dhas_ddel_other {X} (k k' : string) (d : dict string X) : dwf d -> k <> k' ->
  dget k (ddel k' d) = dget k d.
Proof. intros WF NE. rewrite dget_del; auto. now rewrite (proj2 (eqb_neq k k') NE). Qed.

Lemma run_model_accepts (s : sim) p j (x : st) : dwf p -> acceptable p ->
  snd (fst (run_model build s (ddel "num_processes" p) j x)) <> [].
Proof.
  intros WF [A1 A2]. unfold run_model.
  assert (forall k, k <> "num_processes" -> In k ["self"; "iteration_id"; "id"; "seed"; "dir_path"; "logger"; "tables"] ->
    dhas k (ddel "num_processes" p) = false) as NK.
  { intros k NE I. rewrite dhas_get, dhas_ddel_other by auto.
    specialize (A1 k I). rewrite <- dhas_in, dhas_get in A1. destruct (dget k p); congruence. }
  assert (forall k, In k ["agent_reporters"; "model_reporters"] -> k <> "num_processes" ->
    reps_of k (ddel "num_processes" p) <> None) as NR.
  { intros k I NE. unfold reps_of. rewrite dhas_ddel_other by auto.
    destruct (dget k p) as [[v|d]|] eqn:G; try discriminate. now apply A2 in G. }
  cbn [existsb].
  rewrite (NK "self"), (NK "iteration_id"), (NK "id"), (NK "seed"), (NK "dir_path"), (NK "logger"), (NK "tables")
    by (try discriminate; simpl; tauto).
  cbn [orb].
  destruct (reps_of "agent_reporters" _) eqn:RA; [|exfalso; eapply NR; [| |exact RA]; [simpl; tauto|discriminate]].
  destruct (reps_of "model_reporters" _) eqn:RM; [|exfalso; eapply NR; [| |exact RM]; [simpl; tauto|discriminate]].
  destruct (build _ _). simpl. discriminate.
Qed.

Lemma ddel_absent {X} (k : string) (d : dict string X) : dget k d = None -> ddel k d = d.
Proof.
  induction d as [|[k' v] d IH]; simpl; auto. destruct (eqb k k'); [discriminate|].
  intros H. f_equal. auto.
Qed.

Lemma run_config_ok (s : sim) p (x x' : st) tr r : fair_pool -> dwf p ->
  run_config s p x = (x', tr, r) ->
  match r with
  | Some es => exists its, tr = flat_map (oblock s) its /\ es = results its /\ group s p its
  | None => exists its tl, tr = flat_map (oblock s) its ++ tl /\ broken s tl /\
      Forall (fun it => i_conf it = p /\ well_built s it) its
  end.
Proof.
  intros FP WF. unfold SimModel.run_config.
  assert (forall x, exists its tl, [] = flat_map (oblock s) its ++ tl /\ broken s tl /\
      Forall (fun it => i_conf it = x /\ well_built s it) its) as NO.
  { intros. exists [], []. repeat split; auto. now left. }
  destruct (existsb _ _); [intros H; injection H as <- <- <-; auto|].
  set (np := match dget "num_processes" p with
    | None => Some 1%Z | Some (PVal v) => int_of v | Some (PReps _) => None end).
  destruct np as [n|] eqn:NP; [|intros H; injection H as <- <- <-; auto].
  destruct ((1 <? n)%Z && negb soil_debug) eqn:PD.
  - apply andb_true_iff in PD as [LT ND]. apply Z.ltb_lt in LT. apply negb_true_iff in ND.
    assert (pooled p) as PO.
    { split; auto. unfold np in NP. destruct (dget "num_processes" p) as [[v|d]|] eqn:G; try discriminate.
      - eauto.
      - injection NP as <-. lia. }
    destruct (dry_run s) eqn:DR.
    + intros H. injection H as <- <- <-. destruct (is_nil (seq 0 (iterations s))).
      * exists []. repeat split; auto. unfold SimSpec.group. rewrite DR. auto.
      * apply NO.
    + intros H. apply pool_ok in H; auto. destruct r as [es|]; auto.
      destruct H as (its&->&->&F1&F2). exists its. repeat split; auto.
      rewrite DR. split; [|tauto]. intros AC. rewrite F2; [apply FP|].
      rewrite Forall_forall. intros j _. now apply run_model_accepts.
  - destruct (dry_run s) eqn:DR.
    + intros H. injection H as <- <- <-. exists []. repeat split; auto. rewrite DR. auto.
    + intros H. apply serial_ok in H; auto. destruct r as [es|]; auto.
      destruct H as (its&->&->&F1&F2&F3). exists its. repeat split; auto.
      rewrite DR, F1. split; auto.
Qed.

Lemma run_configs_ok (s : sim) ps (x x' : st) tr r : fair_pool -> Forall dwf ps ->
  run_configs s ps x = (x', tr, r) ->
  match r with
  | Some es => exists gs, tr = flat_map (oblock s) (List.concat gs) /\ es = results (List.concat gs) /\
      Forall2 (group s) ps gs
  | None => exists its tl, tr = flat_map (oblock s) its ++ tl /\ broken s tl /\
      Forall (fun it => In (i_conf it) ps /\ well_built s it) its
  end.
Proof.
  intros FP. revert x x' tr r. induction ps as [|p ps IH]; intros x x' tr r WF H; simpl in H.
  - injection H as <- <- <-. exists []. repeat split; auto.
  - inversion WF; subst. destruct (SimModel.run_config _ _ _ _ _ _ _ _ _) as [[x1 tr1] r1] eqn:E1.
    apply run_config_ok in E1; auto. destruct r1 as [es1|].
    + destruct (SimModel.run_configs _ _ _ _ _ _ _ _ _) as [[x2 tr2] r2] eqn:E2. injection H as <- <- <-.
      apply IH in E2; auto. destruct E1 as (its&->&->&G). destruct r2 as [es2|].
      * destruct E2 as (gs&->&->&GS). exists (its :: gs). cbn [List.concat]. simpl.
        rewrite flat_map_app. unfold results. rewrite flat_map_app. repeat split; auto.
      * destruct E2 as (its2&tl&->&B&F). exists (its ++ its2), tl. simpl.
        rewrite flat_map_app, app_assoc. repeat split; auto. apply Forall_app. split.
        -- destruct G as [G _]. eapply Forall_impl; [|exact G]. simpl. intros it [-> ?]. auto.
        -- eapply Forall_impl; [|exact F]. simpl. intros it [? ?]. auto.
    + injection H as <- <- <-. destruct E1 as (its&tl&->&B&F). exists its, tl. repeat split; auto.
      eapply Forall_impl; [|exact F]. simpl. intros it [-> ?]. auto.
Qed.

Lemma choice_keys {A} (m : dict string (list A)) i c : nth_choice m i c -> dkeys c = dkeys m.
Proof.
  intros [L H]. unfold dkeys. apply nth_error_ext. intros j. rewrite !nth_error_map.
  destruct (nth_error m j) as [[k l]|] eqn:EM.
  - destruct (H j k l EM) as (v&->&_). reflexivity.
  - apply nth_error_None in EM. now rewrite (proj2 (nth_error_None c j)) by lia.
Qed.

Lemma collect_params_ok (s : sim) : wf_sim s ->
  configurations s (collect_params s) /\ Forall dwf (collect_params s).
Proof.
  intros [WP WM]. unfold collect_params. split.
  - destruct (matrix s) as [|kl m] eqn:EM.
    + exists []. rewrite EM. split; [auto|]. simpl. rewrite app_nil_r.
      destruct (parameters s); reflexivity.
    + eexists. rewrite EM. split; [right; split; [discriminate|apply matrix_choices; auto]|].
      cbn [is_nil]. destruct (parameters s) as [|kv ps]; cbn [is_nil app]; [|reflexivity].
      destruct (map _ _); reflexivity.
  - assert (Forall dwf (map (fun values => dict_of (combine (dkeys (matrix s)) values))
                      (product (dvalues (matrix s))))) as F.
    { rewrite Forall_forall. intros c I. apply In_nth_error in I as (i&N).
      destruct (matrix_choices _ WM) as [L H].
      assert (i < total (matrix s)) as LT by (rewrite <- L; apply nth_error_Some; congruence).
      destruct (H i LT) as (c'&N'&C'). assert (c' = c) as -> by congruence.
      unfold dwf. erewrite choice_keys; eauto. }
    assert (Forall dwf ((if is_nil (parameters s) then [] else [parameters s]) ++
      (if is_nil (matrix s) then [] else map (fun values => dict_of (combine (dkeys (matrix s)) values))
                      (product (dvalues (matrix s)))))) as F2.
    { apply Forall_app. split; [destruct (is_nil (parameters s)); auto|destruct (is_nil (matrix s)); auto]. }
    cbv zeta. destruct (is_nil (_ ++ _)); auto. repeat constructor.
Qed.

(** C22. *)
Lemma run_lifecycle (s : sim) (w : W) (x : st) tr es : wf_sim s -> fair_pool ->
  run s w = (x, tr, Some es) ->
  exists cs gs,
    configurations s cs /\ Forall2 (group s) cs gs /\
    es = results (List.concat gs) /\
    tr = map (fun i => TCall (XNew i)) (seq 0 (n_exporters s)) ++
         map (fun i => TCall (XStart i)) (seq 0 (n_exporters s)) ++
         flat_map (block (n_exporters s)) (List.concat gs) ++
         map (fun i => TCall (XEnd i)) (seq 0 (n_exporters s)).
Proof.
  intros WS FP H. unfold SimModel.run in H.
  destruct (exporters_do _ _ XNew _) as [[x1 tr1] b1] eqn:E1.
  apply exporters_do_ok in E1 as (_&_&E1). destruct b1; [discriminate|].
  destruct (exporters_do _ _ XStart _) as [[x2 tr2] b2] eqn:E2.
  apply exporters_do_ok in E2 as (_&_&E2). destruct b2; [discriminate|].
  destruct (collect_params_ok s WS) as [CP CW].
  destruct (SimModel.run_configs _ _ _ _ _ _ _ _ _) as [[x3 tr3] r3] eqn:E3.
  apply run_configs_ok in E3; auto. destruct r3 as [es3|]; [|discriminate].
  destruct (exporters_do _ _ XEnd _) as [[x4 tr4] b4] eqn:E4.
  apply exporters_do_ok in E4 as (_&_&E4). destruct b4; [discriminate|].
  injection H as <- <- <-. destruct E3 as (gs&->&->&GS).
  exists (collect_params s), gs. rewrite E1, E2, E4. auto.
Qed.

(** C23. *)
Lemma run_broken (s : sim) (w : W) (x : st) tr : wf_sim s -> fair_pool -> good_exporters ->
  run s w = (x, tr, None) ->
  exists its tl,
    tr = map (fun i => TCall (XNew i)) (seq 0 (n_exporters s)) ++
         map (fun i => TCall (XStart i)) (seq 0 (n_exporters s)) ++
         flat_map (block (n_exporters s)) its ++ tl /\
    Forall (well_built s) its /\
    (tl = [] \/ exists a, tl = [TRun a None]).
Proof.
  intros WS FP GE H. unfold SimModel.run in H.
  destruct (exporters_do _ _ XNew _) as [[x1 tr1] b1] eqn:E1.
  apply exporters_do_ok in E1 as (_&_&E1). destruct b1.
  { destruct E1 as [_ (c&w'&X)]. rewrite GE in X. discriminate. }
  destruct (exporters_do _ _ XStart _) as [[x2 tr2] b2] eqn:E2.
  apply exporters_do_ok in E2 as (_&_&E2). destruct b2.
  { destruct E2 as [_ (c&w'&X)]. rewrite GE in X. discriminate. }
  destruct (collect_params_ok s WS) as [CP CW].
  destruct (SimModel.run_configs _ _ _ _ _ _ _ _ _) as [[x3 tr3] r3] eqn:E3.
  apply run_configs_ok in E3; auto. destruct r3 as [es3|].
  - destruct (exporters_do _ _ XEnd _) as [[x4 tr4] b4] eqn:E4.
    apply exporters_do_ok in E4 as (_&_&E4). destruct b4; [|discriminate].
    destruct E4 as [_ (c&w'&X)]. rewrite GE in X. discriminate.
  - injection H as <- <-. destruct E3 as (its&tl&->&B&F).
    exists its, tl. rewrite E1, E2. split; [reflexivity|]. split.
    { eapply Forall_impl; [|exact F]. simpl. tauto. }
    destruct B as [->|[?|[(c&w'&X) _]]]; auto. rewrite GE in X. discriminate.
Qed.

(** C29. *)
Definition good_reps (p : config) : Prop := forall key d, dget key p = Some (PReps d) -> dwf d.

(** The model class may add reporters to the dictionaries that it is given, but does not
    remove or replace any. *)
Definition keeps_reporters : Prop := forall a w x r, build a w = (x, r) ->
  (forall n v, dget n (a_agent_reporters a) = Some v -> dget n (st_ar x) = Some v) /\
  (forall n v, dget n (a_model_reporters a) = Some v -> dget n (st_mr x) = Some v).

Lemma carries_more key (base : dict string R) (ps : list config) d d' :
  (forall n v, dget n d = Some v -> dget n d' = Some v) ->
  carries key base ps d -> carries key base ps d'.
Proof. intros K C n. specialize (C n). destruct (brought key n ps); auto. Qed.

Lemma carries_update key (base : dict string R) (ps : list config) p q d dr :
  good_reps p -> dwf p -> dget key q = dget key p -> reps_of key q = Some dr -> carries key base ps d ->
  carries key base (ps ++ [p]) (dupdate d dr).
Proof.
  intros GR WF EQ RE C n. specialize (C n). unfold brought in *. rewrite fold_left_app. simpl.
  unfold reps_of in RE. rewrite EQ in RE. destruct (dget key p) as [[v|dd]|] eqn:G; try discriminate.
  - injection RE as ->. apply GR in G. rewrite (dget_update_wf n d dr) by auto.
    destruct (dget n dr) as [r'|]; auto.
  - injection RE as <-. rewrite dupdate_nil. auto.
Qed.

Lemma ran_app (a b : list tev) : ran (a ++ b) = ran a ++ ran b.
Proof. apply flat_map_app. Qed.

Lemma ran_calls (f : nat -> call V R E) l : ran (map (fun i => TCall (f i)) l) = [].
Proof. induction l; simpl; auto. Qed.

Definition reporters_ok (s : sim) (ps : list config) (ar mr : dict string R) : Prop :=
  carries "agent_reporters" (agent_reporters s) ps ar /\
  carries "model_reporters" (model_reporters s) ps mr.

Lemma run_model_reporters (s : sim) p ps j (x x' : st) tr e : keeps_reporters -> dwf p -> good_reps p ->
  run_model build s (ddel "num_processes" p) j x = (x', tr, Some e) ->
  reporters_ok s ps (st_ar x) (st_mr x) ->
  reporters_ok s (ps ++ [p]) (st_ar x') (st_mr x') /\
  exists a r, ran tr = [(a, r)] /\
    reporters_ok s (ps ++ [p]) (a_agent_reporters a) (a_model_reporters a).
Proof.
  intros KR WF GR. unfold run_model.
  destruct (existsb _ ["self"; _]); [discriminate|].
  destruct (reps_of "agent_reporters" _) as [ars|] eqn:RA; [|discriminate].
  destruct (reps_of "model_reporters" _) as [mrs|] eqn:RM; [|discriminate].
  destruct (existsb _ _); [discriminate|].
  destruct (build _ _) as [x1 r1] eqn:EB. intros H [C1 C2]. injection H as <- <- ->.
  apply KR in EB as [K1 K2]. simpl in K1, K2.
  assert (reporters_ok s (ps ++ [p]) (dupdate (st_ar x) ars) (dupdate (st_mr x) mrs)) as [D1 D2].
  { split; [eapply (carries_update _ _ _ p _ _ _ GR WF _ RA C1)|eapply (carries_update _ _ _ p _ _ _ GR WF _ RM C2)].
    Unshelve. all: apply dhas_ddel_other; auto; discriminate. }
  split; [split; eapply carries_more; eauto|]. simpl. eexists _, _. split; [reflexivity|].
  simpl. split; auto.
Qed.

Lemma serial_reporters (s : sim) p js ps (x x' : st) tr es : keeps_reporters -> dwf p -> good_reps p ->
  serial (run_model build s (ddel "num_processes" p)) (export exporter s p) js x = (x', tr, Some es) ->
  reporters_ok s ps (st_ar x) (st_mr x) ->
  reporters_ok s (ps ++ repeat p (List.length js)) (st_ar x') (st_mr x') /\
  List.length (ran tr) = List.length js /\
  forall k a r, nth_error (ran tr) k = Some (a, r) ->
    reporters_ok s (ps ++ repeat p (S k)) (a_agent_reporters a) (a_model_reporters a).
Proof.
  intros KR WF GR. revert ps x x' tr es. induction js as [|j js IH]; intros ps x x' tr es H C; simpl in H.
  - injection H as <- <- <-. simpl. rewrite app_nil_r. repeat split; try apply C.
    all: destruct k; discriminate.
  - destruct (run_model _ _ _ _ _) as [[x1 tr1] [e|]] eqn:E1; [|discriminate].
    eapply run_model_reporters in E1 as (C1&a1&r1&T1&J1); eauto.
    destruct (export _ _ _ _ _) as [[x2 tr2] b] eqn:E2.
    unfold export in E2. apply exporters_do_ok in E2 as (M1&M2&E2). destruct b; [discriminate|].
    destruct (serial _ _ _ _) as [[x3 tr3] [es3|]] eqn:E3; [|discriminate].
    injection H as <- <- <-. rewrite <- M1, <- M2 in C1.
    destruct (IH (ps ++ [p]) _ _ _ _ E3 C1) as (I1&I2&I3).
    rewrite <- !app_assoc in I1. split; [exact I1|].
    rewrite !ran_app, E2, ran_calls, T1. simpl. split; [f_equal; auto|].
    intros [|k] a r N.
    + injection N as <- <-. exact J1.
    + simpl in N. apply I3 in N. rewrite <- app_assoc in N. exact N.
Qed.

Lemma run_configs_reporters (s : sim) cs ps (x x' : st) tr es : keeps_reporters ->
  Forall (fun p => dwf p /\ good_reps p /\ ~ pooled p) cs -> dry_run s = false ->
  run_configs s cs x = (x', tr, Some es) ->
  reporters_ok s ps (st_ar x) (st_mr x) ->
  let confs := flat_map (fun p => repeat p (iterations s)) cs in
  reporters_ok s (ps ++ confs) (st_ar x') (st_mr x') /\
  List.length (ran tr) = List.length confs /\
  forall k a r, nth_error (ran tr) k = Some (a, r) ->
    reporters_ok s (ps ++ firstn (S k) confs) (a_agent_reporters a) (a_model_reporters a).
Proof.
  intros KR F DR. revert ps x x' tr es. induction cs as [|p cs IH]; intros ps x x' tr es H C; simpl in H.
  - injection H as <- <- <-. simpl. rewrite app_nil_r. repeat split; try apply C.
    all: destruct k; discriminate.
  - inversion F as [|? ? (WF&GR&NP) F2]; subst.
    destruct (SimModel.run_config _ _ _ _ _ _ _ _ _) as [[x1 tr1] r1] eqn:E1.
    destruct r1 as [es1|]; [|discriminate].
    destruct (SimModel.run_configs _ _ _ _ _ _ _ _ _) as [[x2 tr2] r2] eqn:E2.
    destruct r2 as [es2|]; [|discriminate]. injection H as <- <- <-.
    assert (serial (run_model build s (ddel "num_processes" p)) (export exporter s p)
      (seq 0 (iterations s)) x = (x1, tr1, Some es1)) as ES.
    { unfold SimModel.run_config in E1. destruct (existsb _ _); [discriminate|].
      destruct (match dget "num_processes" p with None => Some 1%Z | Some (PVal v) => int_of v | Some (PReps _) => None end) as [n|] eqn:NN; [|discriminate].
      rewrite DR in E1. destruct ((1 <? n)%Z && negb soil_debug) eqn:PD; [|exact E1].
      exfalso. apply NP. apply andb_true_iff in PD as [LT ND]. apply Z.ltb_lt in LT.
      apply negb_true_iff in ND. split; auto.
      destruct (dget "num_processes" p) as [[v|d]|]; try discriminate; [eauto|]. injection NN as <-. lia. }
    eapply serial_reporters in ES as (C1&L1&J1); eauto. rewrite seq_length in *.
    destruct (IH F2 (ps ++ repeat p (iterations s)) _ _ _ _ E2 C1) as (C2&L2&J2).
    cbn [flat_map]. cbv zeta. rewrite app_assoc. split; [exact C2|].
    rewrite ran_app, !app_length, L1, L2, repeat_length. split; [reflexivity|].
    intros k a r N. destruct (Nat.lt_ge_cases k (iterations s)) as [LT|GE].
    + rewrite nth_error_app1 in N by lia. apply J1 in N.
      rewrite firstn_app, repeat_length.
      replace (S k - iterations s) with 0 by lia. rewrite firstn_O, app_nil_r.
      assert (firstn (S k) (repeat p (iterations s)) = repeat p (S k)) as ->; [|exact N].
      assert (iterations s = S k + (iterations s - S k)) as -> by lia.
      rewrite repeat_app, firstn_app, repeat_length, Nat.sub_diag, firstn_O, app_nil_r.
      apply firstn_all2. rewrite repeat_length. lia.
    + rewrite nth_error_app2 in N by lia. apply J2 in N. rewrite L1 in N.
      rewrite firstn_app, firstn_all2 by (rewrite repeat_length; lia).
      rewrite repeat_length.
      replace (S k - iterations s) with (S (k - iterations s)) by lia.
      rewrite app_assoc. exact N.
Qed.

Lemma configurations_det (s : sim) cs cs' : configurations s cs -> configurations s cs' -> cs = cs'.
Proof.
  intros (ms&[[M1 ->]|[M1 C1]]&->) (ms'&[[M2 ->]|[M2 C2]]&->); auto; try congruence.
  now rewrite (choices_det _ _ _ C1 C2).
Qed.

Lemma run_reporters (s : sim) cs (w : W) (x : st) tr es : wf_sim s -> keeps_reporters ->
  configurations s cs -> Forall (fun p => good_reps p /\ ~ pooled p) cs -> dry_run s = false ->
  run s w = (x, tr, Some es) ->
  let confs := flat_map (fun p => repeat p (iterations s)) cs in
  reporters_ok s confs (st_ar x) (st_mr x) /\
  List.length (ran tr) = List.length confs /\
  forall k a r, nth_error (ran tr) k = Some (a, r) ->
    reporters_ok s (firstn (S k) confs) (a_agent_reporters a) (a_model_reporters a).
Proof.
  intros WS KR CS F DR H. unfold SimModel.run in H.
  destruct (collect_params_ok s WS) as [CP CW].
  rewrite (configurations_det s _ _ CS CP) in *.
  destruct (exporters_do _ _ XNew _) as [[x1 tr1] b1] eqn:E1.
  apply exporters_do_ok in E1 as (M1&A1&E1). destruct b1; [discriminate|].
  destruct (exporters_do _ _ XStart _) as [[x2 tr2] b2] eqn:E2.
  apply exporters_do_ok in E2 as (M2&A2&E2). destruct b2; [discriminate|].
  destruct (SimModel.run_configs _ _ _ _ _ _ _ _ _) as [[x3 tr3] r3] eqn:E3.
  destruct r3 as [es3|]; [|discriminate].
  destruct (exporters_do _ _ XEnd _) as [[x4 tr4] b4] eqn:E4.
  apply exporters_do_ok in E4 as (M4&A4&E4). destruct b4; [discriminate|].
  injection H as <- <- <-.
  eapply (run_configs_reporters s _ []) in E3; auto.
  - cbv zeta in *. rewrite M4, A4. rewrite !ran_app, E1, E2, E4, !ran_calls, app_nil_r. exact E3.
  - rewrite Forall_forall in *. intros p I. split; auto.
  - rewrite A2, A1, M2, M1. split; intros n; simpl; auto.
Qed.

(** C26. *)
Definition seeded (s : sim) (ar : args * option E) : Prop :=
  exists j, a_id (fst ar) = str_nat j /\
    a_seed (fst ar) = (seed s ++ "_iteration_" ++ str_nat j)%string.

Lemma run_model_seeded (s : sim) p j (x : st) :
  Forall (seeded s) (ran (snd (fst (run_model build s p j x)))).
Proof.
  unfold run_model. destruct (existsb _ _); [constructor|].
  destruct (reps_of _ _); [|constructor]. destruct (reps_of _ _); [|constructor].
  destruct (existsb _ _); [constructor|]. destruct (build _ _). simpl.
  repeat constructor. exists j. split; reflexivity.
Qed.

Lemma exporters_do_ran (s : sim) f (x : st) : ran (snd (fst (exporters_do exporter s f x))) = [].
Proof.
  destruct (exporters_do exporter s f x) as [[x' tr] b] eqn:E0.
  apply exporters_do_ok in E0 as (_&_&E0). simpl. destruct b.
  - destruct E0 as [(n&->) _]. apply ran_calls.
  - rewrite E0. apply ran_calls.
Qed.

Lemma serial_seeded (s : sim) p q js (x : st) :
  Forall (seeded s) (ran (snd (fst (serial (run_model build s q) (export exporter s p) js x)))).
Proof.
  revert x. induction js as [|j js IH]; intros x; simpl; [constructor|].
  pose proof (run_model_seeded s q j x) as K1.
  destruct (run_model _ _ _ _ _) as [[x1 tr1] [e|]]; [|exact K1].
  pose proof (exporters_do_ran s (fun i => XIter i e p) x1) as K2. unfold export.
  destruct (exporters_do _ _ _ _) as [[x2 tr2] []]; simpl in *.
  - rewrite ran_app, K2, app_nil_r. exact K1.
  - specialize (IH x2). unfold export in IH. destruct (serial _ _ _ _) as [[x3 tr3] r3]. simpl in *.
    rewrite !ran_app, K2. apply Forall_app. auto.
Qed.

Lemma pool_seeded (s : sim) p q x0 js (x : st) :
  Forall (seeded s) (ran (snd (fst (pool (run_model build s q) (export exporter s p) picklable x0 js x)))).
Proof.
  revert x. induction js as [|j js IH]; intros x; simpl; [constructor|].
  destruct (negb (picklable j)); [constructor|].
  pose proof (run_model_seeded s q j x0) as K1.
  destruct (run_model _ _ _ _ _) as [[x1 tr1] [e|]].
  - pose proof (exporters_do_ran s (fun i => XIter i e p) x) as K2. unfold export.
    destruct (exporters_do _ _ _ _) as [[x2 tr2] []]; simpl in *.
    + rewrite ran_app, K2, app_nil_r. exact K1.
    + specialize (IH x2). unfold export in IH. destruct (pool _ _ _ _ _ _) as [[x3 tr3] r3]. simpl in *.
      rewrite !ran_app, K2. apply Forall_app. auto.
  - specialize (IH x). destruct (pool _ _ _ _ _ _) as [[x3 tr3] r3]. simpl in *.
    rewrite ran_app. apply Forall_app. auto.
Qed.

Lemma run_configs_seeded (s : sim) ps (x : st) :
  Forall (seeded s) (ran (snd (fst (run_configs s ps x)))).
Proof.
  revert x. induction ps as [|p ps IH]; intros x; simpl; [constructor|].
  assert (Forall (seeded s) (ran (snd (fst (run_config s p x))))) as K.
  { unfold SimModel.run_config. destruct (existsb _ _); [constructor|].
    destruct (match dget "num_processes" p with None => Some 1%Z | Some (PVal v) => int_of v | Some (PReps _) => None end); [|constructor].
    destruct (_ && _), (dry_run s); try constructor; [apply pool_seeded|apply serial_seeded]. }
  destruct (SimModel.run_config _ _ _ _ _ _ _ _ _) as [[x1 tr1] [es|]]; [|exact K].
  specialize (IH x1). destruct (SimModel.run_configs _ _ _ _ _ _ _ _ _) as [[x2 tr2] r2]. simpl in *.
  rewrite ran_app. apply Forall_app. auto.
Qed.

Lemma run_seeded (s : sim) (w : W) : Forall (seeded s) (ran (snd (fst (run s w)))).
Proof.
  unfold SimModel.run. set (x0 := St _ _ _).
  pose proof (exporters_do_ran s XNew x0) as K1.
  destruct (exporters_do _ _ XNew _) as [[x1 tr1] []]; simpl in *; [rewrite K1; constructor|].
  pose proof (exporters_do_ran s XStart x1) as K2.
  destruct (exporters_do _ _ XStart _) as [[x2 tr2] []]; simpl in *; [rewrite ran_app, K1, K2; constructor|].
  pose proof (run_configs_seeded s (collect_params s) x2) as K3.
  destruct (SimModel.run_configs _ _ _ _ _ _ _ _ _) as [[x3 tr3] [es|]]; simpl in *;
    [|rewrite !ran_app, K1, K2; exact K3].
  pose proof (exporters_do_ran s XEnd x3) as K4.
  destruct (exporters_do _ _ XEnd _) as [[x4 tr4] b4]; simpl in *.
  rewrite !ran_app, K1, K2, K4, app_nil_r. exact K3.
Qed.

(** C24. *)
Lemma pool_returns (s : sim) p x0 js (x : st) : good_exporters ->
  (forall j, picklable j = true) ->
  exists x' tr es,
    pool (run_model build s (ddel "num_processes" p)) (export exporter s p) picklable x0 js x = (x', tr, Some es).
Proof.
  intros GE PK. revert x. induction js as [|j js IH]; intros x; simpl; [eauto|].
  rewrite PK. simpl. destruct (run_model _ _ _ _ _) as [[x1 tr1] r1]. destruct r1 as [e|].
  - destruct (export _ _ _ _ _) as [[x2 tr2] b] eqn:E2.
    unfold export in E2. apply exporters_do_ok in E2 as (_&_&E2). destruct b.
    { destruct E2 as [_ (c&w'&X)]. rewrite GE in X. discriminate. }
    destruct (IH x2) as (x3&tr3&es&->). simpl. eauto.
  - destruct (IH x) as (x3&tr3&es&->). eauto.
Qed.

Lemma good_exporters_do (s : sim) f (x : st) : good_exporters ->
  exists x' tr, exporters_do exporter s f x = (x', tr, false).
Proof.
  intros GE. destruct (exporters_do exporter s f x) as [[x' tr] b] eqn:E0.
  assert (E1 := E0). apply exporters_do_ok in E1 as (_&_&E1). destruct b; eauto.
  destruct E1 as [_ (c&w'&X)]. rewrite GE in X. discriminate.
Qed.

Lemma pooled_run_returns (s : sim) cs (w : W) : wf_sim s -> good_exporters ->
  (forall j, picklable j = true) -> dry_run s = false ->
  configurations s cs ->
  Forall (fun p => pooled p /\ ~ In "func" (dkeys p) /\ ~ In "iterable" (dkeys p)) cs ->
  exists x tr es, run s w = (x, tr, Some es).
Proof.
  intros WS GE PK DR CS F. unfold SimModel.run.
  destruct (collect_params_ok s WS) as [CP CW].
  rewrite (configurations_det s _ _ CS CP) in F.
  destruct (good_exporters_do s XNew (St (model_reporters s) (agent_reporters s) w) GE) as (x1&tr1&->).
  destruct (good_exporters_do s XStart x1 GE) as (x2&tr2&->).
  assert (forall ps x, Forall (fun p => pooled p /\ ~ In "func" (dkeys p) /\ ~ In "iterable" (dkeys p)) ps ->
    exists x' tr es, run_configs s ps x = (x', tr, Some es)) as K.
  { induction ps as [|p ps IH]; intros x FF; simpl; [eauto|].
    destruct (Forall_inv FF) as [[ND (v&n&G1&G2&G3)] [N1 N2]]. pose proof (Forall_inv_tail FF) as FF2.
    assert (exists x' tr es, run_config s p x = (x', tr, Some es)) as (x'&tr&es&->).
    { unfold SimModel.run_config. simpl.
      rewrite <- dhas_in in N1, N2. destruct (dhas "func" p); [congruence|].
      destruct (dhas "iterable" p); [congruence|]. simpl. rewrite G1, G2.
      apply Z.ltb_lt in G3. rewrite G3, ND, DR. simpl. now apply pool_returns. }
    destruct (IH x' FF2) as (x3&tr3&es3&->). simpl. eauto. }
  destruct (K _ x2 F) as (x3&tr3&es3&->).
  destruct (good_exporters_do s XEnd x3 GE) as (x4&tr4&->). eauto.
Qed.
End Runs.

(** * run_parallel *)
Section RunParallel.
Context {S T A B : Type}.
Variable func : A -> S -> S * list T * option B.
Variable body : B -> S -> S * list T * bool.
Variable shipped : A -> bool.
Hypothesis body_ok : forall e x, snd (body e x) = false.

Lemma pool_results x0 js x : (forall j, In j js -> shipped j = true) ->
  snd (pool func body shipped x0 js x) =
  Some (flat_map (fun j => match snd (func j x0) with Some e => [e] | None => [] end) js).
Proof.
  revert x. induction js as [|j js IH]; intros x SH; simpl; auto.
  rewrite SH by (simpl; auto). simpl. destruct (func j x0) as [[x1 tr1] [e|]]; simpl.
  - destruct (body e x) as [[x2 tr2] b] eqn:EB.
    assert (b = false) as -> by (specialize (body_ok e x); rewrite EB in body_ok; auto).
    specialize (IH x2). destruct (pool _ _ _ x0 js x2) as [[x3 tr3] r3]. simpl in *.
    rewrite IH by auto. reflexivity.
  - specialize (IH x). destruct (pool _ _ _ x0 js x) as [[x3 tr3] r3]. simpl in *.
    rewrite IH by auto. reflexivity.
Qed.
End RunParallel.

(** * Seeds *)
Lemma str_nat_inj i j : str_nat i = str_nat j -> i = j.
Proof.
  unfold str_nat. intros H.
  apply (f_equal DecimalString.NilZero.uint_of_string) in H.
  assert (forall n, Nat.to_uint n <> Decimal.Nil) as NN.
  { intros n. rewrite <- DecimalNat.Unsigned.of_to at 1.
    rewrite DecimalNat.Unsigned.to_of. apply DecimalFacts.unorm_nonnil. }
  rewrite !DecimalString.NilZero.usu in H by apply NN.
  injection H as H. now apply DecimalNat.Unsigned.to_uint_inj.
Qed.

Lemma list_ascii_app a b :
  list_ascii_of_string (a ++ b)%string = list_ascii_of_string a ++ list_ascii_of_string b.
Proof. induction a; simpl; auto. now f_equal. Qed.

Lemma list_ascii_inj a b : list_ascii_of_string a = list_ascii_of_string b -> a = b.
Proof.
  intros H. apply (f_equal string_of_list_ascii) in H.
  now rewrite !string_of_list_ascii_of_string in H.
Qed.

Lemma uint_no_underscore d : ~ In "_"%char (list_ascii_of_string (DecimalString.NilEmpty.string_of_uint d)).
Proof. induction d; simpl; auto; intros [?|?]; auto; discriminate. Qed.

Lemma str_nat_no_underscore n : ~ In "_"%char (list_ascii_of_string (str_nat n)).
Proof.
  unfold str_nat, DecimalString.NilZero.string_of_uint. destruct (Nat.to_uint n) eqn:E; 
    try (rewrite <- E; apply uint_no_underscore).
  simpl. intros [?|[]]. discriminate.
Qed.

Lemma split_at_first {X} (c : X) (a1 a2 b1 b2 : list X) :
  ~ In c a1 -> ~ In c a2 -> a1 ++ c :: b1 = a2 ++ c :: b2 -> a1 = a2 /\ b1 = b2.
Proof.
  revert a2. induction a1 as [|x a1 IH]; intros [|y a2] N1 N2 H; simpl in *.
  - injection H. auto.
  - injection H as -> _. tauto.
  - injection H as -> _. tauto.
  - injection H as -> H. apply IH in H as [-> ->]; auto.
Qed.

Lemma iteration_seed_inj s i s' j :
  iteration_seed s (str_nat i) = iteration_seed s' (str_nat j) -> s = s' /\ i = j.
Proof.
  unfold iteration_seed. intros H. apply (f_equal list_ascii_of_string) in H.
  rewrite !list_ascii_app in H. apply (f_equal (@rev ascii)) in H. rewrite !rev_app_distr in H.
  set (sep := rev (list_ascii_of_string "_iteration_")) in *.
  change sep with ("_"%char :: tl sep) in H. rewrite <- !app_assoc in H. cbn [app] in H.
  apply split_at_first in H as [H1 H2].
  - apply app_inv_head in H2. split.
    + apply list_ascii_inj. now rewrite <- (rev_involutive (list_ascii_of_string s)), H2, rev_involutive.
    + apply str_nat_inj, list_ascii_inj.
      now rewrite <- (rev_involutive (list_ascii_of_string (str_nat i))), H1, rev_involutive.
  - rewrite <- in_rev. apply str_nat_no_underscore.
  - rewrite <- in_rev. apply str_nat_no_underscore.
Qed.

Lemma bytes_inj_length b b' : List.length b = List.length b' ->
  from_bytes_little b = from_bytes_little b' -> b = b'.
Proof.
  revert b'. induction b as [|c b IH]; intros [|c' b'] L H; try discriminate; auto.
  cbn [from_bytes_little] in H. pose proof (N_ascii_bounded c). pose proof (N_ascii_bounded c').
  assert (N_of_ascii c = N_of_ascii c' /\ from_bytes_little b = from_bytes_little b') as [E1 E2] by lia.
  f_equal.
  - now rewrite <- (ascii_N_embedding c), E1, ascii_N_embedding.
  - apply IH; auto.
Qed.

Definition nul : ascii := ascii_of_N 0.

Lemma bytes_zero b : from_bytes_little b = 0%N -> forall c, In c b -> c = nul.
Proof.
  induction b as [|c b IH]; cbn [from_bytes_little In]; intros H x I; [tauto|].
  assert (N_of_ascii c = 0%N /\ from_bytes_little b = 0%N) as [E1 E2] by lia.
  destruct I as [<-|I]; auto. unfold nul. now rewrite <- E1, ascii_N_embedding.
Qed.

Lemma bytes_inj b b' : last b (ascii_of_N 1) <> nul -> last b' (ascii_of_N 1) <> nul ->
  from_bytes_little b = from_bytes_little b' -> b = b'.
Proof.
  assert (forall b, b <> [] -> from_bytes_little b = 0%N -> last b (ascii_of_N 1) = nul) as Z.
  { intros bb NE H0. apply (bytes_zero _ H0). destruct (exists_last NE) as (l&x&->).
    rewrite last_last. apply in_app_iff. simpl. auto. }
  revert b'. induction b as [|c b IH]; intros [|c' b'] L L' H; auto.
  - exfalso. apply L'. apply Z; [discriminate|auto].
  - exfalso. apply L. apply Z; [discriminate|auto].
  - cbn [from_bytes_little] in H. pose proof (N_ascii_bounded c). pose proof (N_ascii_bounded c').
    assert (N_of_ascii c = N_of_ascii c' /\ from_bytes_little b = from_bytes_little b') as [E1 E2] by lia.
    f_equal.
    + now rewrite <- (ascii_N_embedding c), E1, ascii_N_embedding.
    + apply IH; auto.
      * destruct b; [discriminate|exact L].
      * destruct b'; [discriminate|exact L'].
Qed.

Lemma uint_last d : d <> Decimal.Nil ->
  last (list_ascii_of_string (DecimalString.NilEmpty.string_of_uint d)) "0"%char <> nul /\
  list_ascii_of_string (DecimalString.NilEmpty.string_of_uint d) <> [].
Proof.
  intros NE. split; [|destruct d; [congruence|discriminate..]].
  clear NE. assert (forall c, In c (list_ascii_of_string (DecimalString.NilEmpty.string_of_uint d)) -> c <> nul) as K.
  { induction d; simpl; intros x I; [tauto|..]; destruct I as [<-|I]; auto; discriminate. }
  destruct (list_ascii_of_string _) as [|c l] eqn:E; [discriminate|].
  apply K. destruct (exists_last (l:=c::l)) as (l'&x&->); [discriminate|].
  rewrite last_last. apply in_app_iff. simpl. auto.
Qed.

Lemma seed_last s n : last (list_ascii_of_string (iteration_seed s (str_nat n))) (ascii_of_N 1) <> nul.
Proof.
  unfold iteration_seed. rewrite list_ascii_app, list_ascii_app, app_assoc.
  assert (forall d, last (list_ascii_of_string (str_nat n)) d <> nul /\ list_ascii_of_string (str_nat n) <> []) as K.
  { intros d. unfold str_nat, DecimalString.NilZero.string_of_uint.
    destruct (Nat.to_uint n) eqn:E; [split; discriminate|..];
      (destruct (uint_last (Nat.to_uint n)) as [L N]; [rewrite E; discriminate|];
       rewrite E in L, N; split; auto; 
       match goal with |- last ?l _ <> _ => destruct (exists_last N) as (l'&x&EL); rewrite EL in *; now rewrite last_last in * end). }
  destruct (K "0"%char) as [L N]. destruct (exists_last N) as (l'&x&EL). rewrite EL in *.
  rewrite app_assoc, last_last. rewrite last_last in L. exact L.
Qed.

Lemma int_seed_iterations s i s' j :
  int_seed (iteration_seed s (str_nat i)) = int_seed (iteration_seed s' (str_nat j)) -> s = s' /\ i = j.
Proof.
  unfold int_seed. intros H. apply bytes_inj in H; try apply seed_last.
  apply list_ascii_inj in H. now apply iteration_seed_inj.
Qed.

Section Corollaries.
Context {V R E W : Type}.
Notation config := (config V R).
Notation sim := (sim V R).
Notation tev := (tev V R E).

Lemma ran_cons a r (l : list tev) : ran (TRun a r :: l) = (a, r) :: ran l.
Proof. reflexivity. Qed.

Lemma ran_blocks n (its : list (item V R E)) :
  ran (flat_map (block n) its) = map (fun it => (i_args it, i_res it)) its.
Proof.
  induction its as [|it its IH]; cbn [flat_map map]; auto.
  rewrite ran_app, IH. unfold block.
  destruct (i_res it) as [e|]; auto. rewrite ran_cons, (ran_calls (fun i => XIter i e (i_conf it))). reflexivity.
Qed.

Lemma configurations_choices (s : sim) cs : dwf (matrix s) ->
  parameters s = [] -> matrix s <> [] -> Forall (fun kl => snd kl <> []) (matrix s) ->
  configurations s cs -> choices (matrix s) cs.
Proof.
  intros WF P M NE (ms&[[M' _]|[_ C]]&->); [contradiction|]. rewrite P.
  destruct ms as [|c ms]; auto. exfalso. destruct C as [L _]. simpl in L.
  clear -NE L. assert (0 < total (matrix s)); [|lia]. clear L.
  induction NE as [|[k l] m N NE IH]; simpl; [lia|]. simpl in N. destruct l; [congruence|simpl; nia].
Qed.
End Corollaries.

Lemma matrix_explored {V R E W} build exporter pool_order picklable int_of soil_debug
  (s : sim V R) (w : W) x (tr : list (tev V R E)) es :
  wf_sim s -> fair_pool pool_order ->
  parameters s = [] -> matrix s <> [] -> Forall (fun kl => snd kl <> []) (matrix s) ->
  run build exporter pool_order picklable int_of soil_debug s w = (x, tr, Some es) ->
  exists cs gs,
    (List.length cs = total (matrix s) /\
     (forall i c, nth_error cs i = Some c -> nth_choice (matrix s) i c) /\
     (forall c, In c cs <-> picks (matrix s) c) /\
     (Forall (fun kl => NoDup (snd kl)) (matrix s) -> NoDup cs)) /\
    Forall2 (group int_of soil_debug s) cs gs /\
    ran tr = map (fun it => (i_args it, i_res it)) (List.concat gs).
Proof.
  intros WS FP P M NE H. apply run_lifecycle in H as (cs&gs&C&G&_&->); auto.
  exists cs, gs. apply configurations_choices in C; auto; try apply WS.
  split; [|split; [exact G|]].
  - split; [apply C|]. split; [|apply choices_complete; auto; apply WS].
    intros i c N. destruct C as [L C].
    assert (i < total (matrix s)) as LT by (rewrite <- L; apply nth_error_Some; congruence).
    destruct (C i LT) as (c'&N'&?). congruence.
  - rewrite !ran_app, !ran_calls, ran_blocks, app_nil_r. reflexivity.
Qed.
