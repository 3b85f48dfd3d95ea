(** Proofs about templates. *)
From Coq Require Import List Bool Arith String Lia.
From Verif Require Import PyDict TemplateModel TemplateSpec.
Import ListNotations.

Lemma rank_bound lens : forall choice, valid lens choice -> rank lens choice < number lens.
Proof.
  induction lens as [|n lens IH]; intros choice H; inversion H as [|n' c l choice' L F]; subst; simpl; [lia|].
  specialize (IH _ F). nia.
Qed.
Lemma rank_surj lens : forall q, q < number lens -> exists choice, valid lens choice /\ rank lens choice = q.
Proof.
  induction lens as [|n lens IH]; intros q H; simpl in *.
  - exists []. split; [constructor|lia].
  - assert (number lens <> 0) as N by nia.
    destruct (IH (q mod number lens)) as (choice & V & R). { now apply Nat.mod_upper_bound. }
    exists (q / number lens :: choice). split.
    + constructor; auto. apply Nat.div_lt_upper_bound; lia.
    + simpl. rewrite R. rewrite (Nat.div_mod q (number lens) N) at 3. lia.
Qed.

Lemma flat_map_length {A B} (f : A -> list B) n l : (forall a, In a l -> List.length (f a) = n) ->
  List.length (flat_map f l) = List.length l * n.
Proof.
  induction l as [|a l IH]; simpl; intros H; auto. rewrite app_length, IH, (H a); auto.
Qed.
Lemma flat_map_nth {A B} (f : A -> list B) n l : forall i j a, (forall a, In a l -> List.length (f a) = n) ->
  nth_error l i = Some a -> j < n -> nth_error (flat_map f l) (i * n + j) = nth_error (f a) j.
Proof.
  induction l as [|b l IH]; intros i j a H E J; destruct i; simpl in *; try discriminate.
  - injection E as ->. rewrite nth_error_app1; auto. rewrite (H a); auto.
  - rewrite nth_error_app2; rewrite (H b) by auto; [|lia].
    replace (n + i * n + j - n) with (i * n + j) by lia. apply IH; auto.
Qed.

Section Template.
Context {V : Type}.
Implicit Types (l : list (list V)).

Lemma product_length l : List.length (product l) = number (map (@List.length V) l).
Proof.
  induction l as [|vs l IH]; simpl; auto.
  rewrite (flat_map_length _ (List.length (product l))).
  - now rewrite IH.
  - intros v _. apply map_length.
Qed.
Lemma product_nth l : forall choice, valid (map (@List.length V) l) choice ->
  exists x, nth_error (product l) (rank (map (@List.length V) l) choice) = Some x
    /\ List.length x = List.length l
    /\ forall k vs c, nth_error l k = Some vs -> nth_error choice k = Some c -> nth_error x k = nth_error vs c.
Proof.
  induction l as [|vs l IH]; intros choice H; simpl in H; inversion H as [|n c l' choice' L F]; subst; simpl.
  - exists []. split; auto. split; auto. intros [|k]; discriminate.
  - destruct (IH _ F) as (x & E & Lx & N).
    destruct (nth_error vs c) as [v|] eqn:Ev; [|apply nth_error_None in Ev; lia].
    exists (v :: x). split.
    + rewrite (flat_map_nth _ (number (map (@List.length V) l)) vs c _ v); auto.
      * now apply map_nth_error.
      * intros a _. now rewrite map_length, product_length.
      * now apply rank_bound.
    + split; [simpl; lia|]. intros [|k] us d Ek Ed; simpl in *.
      * injection Ek as <-. injection Ed as <-. auto.
      * eapply N; eauto.
Qed.
Lemma product_lengths l x : In x (product l) -> List.length x = List.length l.
Proof.
  revert x. induction l as [|vs l IH]; simpl; intros x H.
  - destruct H as [<-|[]]. reflexivity.
  - apply in_flat_map in H. destruct H as (v & _ & H). apply in_map_iff in H.
    destruct H as (y & <- & H). simpl. now rewrite (IH y H).
Qed.

Lemma combine_get (names : list string) : forall (xs : list V) k i, NoDup names ->
  nth_error names k = Some i -> List.length xs = List.length names ->
  dget i (combine names xs) = nth_error xs k.
Proof.
  induction names as [|n names IH]; intros xs k i N E L; destruct k; simpl in *; try discriminate.
  - injection E as ->. destruct xs as [|x xs]; [discriminate|]. simpl. now rewrite eqb_refl.
  - destruct xs as [|x xs]; [discriminate|]. simpl. inversion N as [|n' names' N1 N2]; subst.
    assert (i <> n) as D. { intros ->. apply N1. eapply nth_error_In; eauto. }
    apply eqb_neq in D. simpl in D. rewrite D. apply IH; auto.
Qed.
Lemma combine_keys (names : list string) (xs : list V) : List.length xs = List.length names ->
  map fst (combine names xs) = names.
Proof.
  revert xs. induction names as [|n names IH]; intros [|x xs] L; simpl in *; try discriminate; auto.
  f_equal. auto.
Qed.

Lemma params_shape (lists : dict string (list V)) bound_names samples :
  List.length (all_params lists bound_names samples)
    = number (map (fun p => List.length (snd p)) lists) * List.length samples.
Proof.
  unfold all_params. rewrite map_length, (flat_map_length _ (List.length samples)).
  - rewrite product_length, map_map. reflexivity.
  - intros c _. apply map_length.
Qed.
Lemma params_each (lists : dict string (list V)) bound_names samples :
  separate lists bound_names -> complete bound_names samples ->
  forall choice j s, valid (map (fun p => List.length (snd p)) lists) choice -> nth_error samples j = Some s ->
  exists p, nth_error (all_params lists bound_names samples)
      (rank (map (fun p => List.length (snd p)) lists) choice * List.length samples + j) = Some p
    /\ assigns lists bound_names choice s p.
Proof.
  intros Sep Com choice j s Va Es.
  rewrite <- (map_map snd (@List.length V)) in *.
  destruct (product_nth (map snd lists) choice Va) as (x & Ex & Lx & Nx). rewrite map_length in Lx.
  assert (j < List.length samples) as Hj. { apply nth_error_Some. congruence. }
  pose proof (Com s (nth_error_In _ _ Es)) as Ls.
  assert (List.length (x ++ s) = List.length (dkeys lists ++ bound_names)) as L.
  { rewrite !app_length. unfold dkeys. rewrite map_length. lia. }
  assert (dict_of (combine (dkeys lists ++ bound_names) (x ++ s)) = combine (dkeys lists ++ bound_names) (x ++ s)) as D.
  { apply dict_of_nodup. rewrite combine_keys; auto. }
  exists (combine (dkeys lists ++ bound_names) (x ++ s)). split.
  - unfold all_params. rewrite <- D. apply (map_nth_error (fun x => dict_of (combine (dkeys lists ++ bound_names) x))).
    rewrite (flat_map_nth (fun c => map (fun s => c ++ s) samples) (List.length samples) _ _ _ x); auto.
    + exact (map_nth_error (fun s => x ++ s) _ _ Es).
    + intros a _. apply map_length.
  - split; [|split].
    + intros k vs i c Ek Ec.
      assert (k < List.length lists) as Hk. { apply nth_error_Some. congruence. }
      rewrite (combine_get _ _ k); auto.
      * rewrite nth_error_app1 by lia. eapply Nx; eauto. exact (map_nth_error snd _ _ Ek).
      * rewrite nth_error_app1 by (unfold dkeys; rewrite map_length; lia). exact (map_nth_error fst _ _ Ek).
    + intros k i Ek. rewrite (combine_get _ _ (List.length lists + k)); auto.
      * rewrite nth_error_app2 by lia. f_equal. lia.
      * rewrite nth_error_app2 by (unfold dkeys; rewrite map_length; lia).
        unfold dkeys. rewrite map_length. rewrite <- Ek. f_equal. lia.
    + intros i. unfold dkeys at 1. rewrite combine_keys by auto. apply in_app_iff.
Qed.
Lemma params_all (lists : dict string (list V)) bound_names samples q :
  q < List.length (all_params lists bound_names samples) ->
  exists choice j s, valid (map (fun p => List.length (snd p)) lists) choice /\ nth_error samples j = Some s
    /\ q = rank (map (fun p => List.length (snd p)) lists) choice * List.length samples + j.
Proof.
  rewrite params_shape. intros H. assert (List.length samples <> 0) as N by nia.
  destruct (rank_surj (map (fun p => List.length (snd p)) lists) (q / List.length samples)) as (choice & Va & R).
  { apply Nat.div_lt_upper_bound; auto. lia. }
  pose proof (Nat.mod_upper_bound q _ N) as M.
  destruct (nth_error samples (q mod List.length samples)) as [s|] eqn:Es.
  2:{ apply nth_error_None in Es. lia. }
  exists choice, (q mod List.length samples), s. split; auto. split; auto.
  rewrite R. rewrite (Nat.div_mod q _ N) at 1. lia.
Qed.
End Template.

Lemma number_zero lens : In 0 lens -> number lens = 0.
Proof. induction lens as [|n lens IH]; simpl; [tauto|]. intros [->|H]; [reflexivity|]. rewrite IH; auto. Qed.
Lemma params_keys {V} (lists : dict string (list V)) bound_names samples p :
  separate lists bound_names -> complete bound_names samples ->
  In p (all_params lists bound_names samples) -> dkeys p = dkeys lists ++ bound_names.
Proof.
  intros Sep Com H. unfold all_params in H. apply in_map_iff in H. destruct H as (x & <- & H).
  apply in_flat_map in H. destruct H as (c & Hc & H). apply in_map_iff in H. destruct H as (s & <- & Hs).
  apply product_lengths in Hc. rewrite map_length in Hc.
  assert (List.length (c ++ s) = List.length (dkeys lists ++ bound_names)) as L.
  { rewrite !app_length. unfold dkeys. rewrite map_length. rewrite (Com s Hs). lia. }
  rewrite dict_of_nodup; rewrite ?combine_keys; auto. unfold dkeys at 1. now apply combine_keys.
Qed.
Lemma flat_map_single {A B} (f : A -> list B) l : (forall a, In a l -> exists b, f a = [b]) ->
  List.length (flat_map f l) = List.length l
  /\ forall i a, nth_error l i = Some a -> exists b, f a = [b] /\ nth_error (flat_map f l) i = Some b.
Proof.
  induction l as [|a l IH]; simpl; intros H.
  - split; auto. intros [|i]; discriminate.
  - destruct (H a) as (b & E); auto. rewrite E. destruct IH as [A1 A2]; auto. split.
    + simpl. now rewrite A1.
    + intros [|i] a' Ei; simpl in *; auto. injection Ei as <-. now exists b.
Qed.

Section Expand.
Context {V B M O T C : Type}.
Variables (morris : M) (n100 : O).
Variable sample : M -> list string -> list B -> O -> option (list (list V)).
Variable render : T -> dict string V -> string.
Variable load : string -> list C.
Variable has_name : C -> option bool.
Variable v0 : V.
Notation expand := (expand_template morris n100 sample render load has_name v0).

Lemma expand_all t bounds lists smp (samples : list (list V)) c0 :
  sample (match smp with Some (Sampler (Some m) _) => m | _ => morris end) (dkeys bounds) (map snd bounds)
    (match smp with Some s => s_options s | None => n100 end) = Some samples ->
  separate lists (dkeys bounds) -> complete (dkeys bounds) samples ->
  (forall i vs, In (i, vs) lists -> vs <> []) -> samples <> [] ->
  load (render t (map (fun k => (k, v0)) (dkeys lists ++ dkeys bounds))) = [c0] -> has_name c0 = Some false ->
  (forall p, exists c, load (render t p) = [c]) ->
  exists docs cfg, expand (Config (Some t) (Some (Vars (Some bounds) (Some lists))) smp) = (map Doc docs, None, cfg)
    /\ List.length docs = number (map (fun p => List.length (snd p)) lists) * List.length samples
    /\ forall choice j s, valid (map (fun p => List.length (snd p)) lists) choice -> nth_error samples j = Some s ->
       exists p c, assigns lists (dkeys bounds) choice s p /\ load (render t p) = [c]
         /\ nth_error docs (rank (map (fun p => List.length (snd p)) lists) choice * List.length samples + j) = Some c.
Proof.
  intros Es Sep Com Ne Ns Bl Hn One.
  set (params := all_params lists (dkeys bounds) samples).
  destruct (flat_map_single (fun ps => load (render t ps)) params) as [F1 F2]; [intros; apply One|].
  assert (exists cfg, params_for_template morris n100 sample
            (Config (Some t) (Some (Vars (Some bounds) (Some lists))) smp) = (inl params, cfg)) as (cfg & P).
  { unfold params_for_template. cbn [c_sampler c_vars v_bounds v_lists].
    destruct smp as [[[m|] o]|]; cbn [s_method s_options] in *; rewrite Es; eexists; reflexivity. }
  exists (flat_map (fun ps => load (render t ps)) params), cfg.
  assert (List.length params = number (map (fun p => List.length (snd p)) lists) * List.length samples) as Lp.
  { apply params_shape. }
  split; [|split].
  - unfold expand_template. cbn [c_template c_vars]. rewrite P.
    assert (List.length params <> 0) as Np.
    { rewrite Lp. assert (number (map (fun p => List.length (snd p)) lists) <> 0).
      { clear -Ne. induction lists as [|[i vs] l IH]; simpl; [lia|].
        assert (vs <> []) by (apply (Ne i); now left). destruct vs; [congruence|].
        assert (number (map (fun p => List.length (snd p)) l) <> 0). { apply IH. intros j us H1. apply (Ne j). now right. }
        simpl. lia. }
      destruct samples; [congruence|]. simpl. lia. }
    unfold expand_params. destruct params as [|p params'] eqn:Ep; [simpl in Np; lia|].
    rewrite (params_keys lists (dkeys bounds) samples p), Bl, Hn; auto.
    fold params. rewrite Ep. now left.
  - now rewrite F1.
  - intros choice j s Va Ej. destruct (params_each lists (dkeys bounds) samples Sep Com choice j s Va Ej) as (p & Ep & A).
    destruct (F2 _ _ Ep) as (c & Ec & En). now exists p, c.
Qed.
(** An empty list or no samples. *)
Lemma expand_nothing t bounds lists smp (samples : list (list V)) :
  sample (match smp with Some (Sampler (Some m) _) => m | _ => morris end) (dkeys bounds) (map snd bounds)
    (match smp with Some s => s_options s | None => n100 end) = Some samples ->
  (exists i, In (i, []) lists) \/ samples = [] ->
  exists cfg, expand (Config (Some t) (Some (Vars (Some bounds) (Some lists))) smp) = ([], Some IndexError, cfg).
Proof.
  intros Es H.
  assert (all_params lists (dkeys bounds) samples = []) as N.
  { assert (List.length (all_params lists (dkeys bounds) samples) = 0) as L.
    { rewrite params_shape. destruct H as [[i H]| ->]; [|simpl; lia].
      rewrite number_zero; auto. apply in_map_iff. exists (i, []). auto. }
    now destruct (all_params lists (dkeys bounds) samples). }
  unfold expand_template, params_for_template. cbn [c_sampler c_vars v_bounds v_lists c_template].
  destruct smp as [[[m|] o]|]; cbn [s_method s_options] in *; rewrite Es, N; eexists; reflexivity.
Qed.
Lemma expand_config (cfg : config V B M O T) :
  snd (expand cfg) = cfg \/ exists s, c_sampler cfg = Some s
    /\ snd (expand cfg) = Config (c_template cfg) (c_vars cfg) (Some (Sampler None (s_options s))).
Proof.
  unfold expand_template. destruct cfg as [[t|] [vs|] smp]; simpl; auto.
  unfold params_for_template. simpl. destruct smp as [s|].
  - right. exists s. split; auto. destruct (v_bounds vs) as [b|]; auto. destruct (sample _ _ _ _); auto.
  - left. destruct (v_bounds vs) as [b|]; auto. destruct (sample _ _ _ _); auto.
Qed.
Lemma number_zero_inv lens : number lens = 0 -> In 0 lens.
Proof. induction lens as [|n lens IH]; simpl; [lia|]. intros H. destruct n; [auto|right; apply IH; nia]. Qed.
Lemma why_refused t vs smp x :
  snd (fst (expand (Config (Some t) vs smp))) = Some x ->
  let blank_gives (P : list C -> Prop) :=
    exists blank, Forall (fun p => snd p = v0) blank /\ P (load (render t blank)) in
  match x with
  | KeyError => exists l, vs = Some (Vars None l)
  | ValueError => vs = None \/
      blank_gives (fun docs => 1 < List.length docs \/ exists c, docs = [c] /\ has_name c = Some true)
  | TypeError => blank_gives (fun docs => exists c, docs = [c] /\ has_name c = None)
  | IndexError => blank_gives (fun docs => docs = []) \/
      exists bounds l, vs = Some (Vars (Some bounds) l) /\
        ((exists i ls, l = Some ls /\ In (i, []) ls) \/
         exists m o, sample m (dkeys bounds) (map snd bounds) o = Some [])
  | SamplerError => exists bounds l m o, vs = Some (Vars (Some bounds) l) /\
      sample m (dkeys bounds) (map snd bounds) o = None
  end.
Proof.
  unfold expand_template. cbn [c_template c_vars].
  destruct vs as [vs|]; [|intros [= <-]; cbn; auto].
  unfold params_for_template. cbn [c_vars c_sampler].
  destruct (match smp with Some s => _ | None => _ end) as [[m o] cfg1].
  destruct vs as [[bounds|] l]; cbn [v_bounds v_lists]; [|intros [= <-]; cbn; eauto].
  destruct (sample m (dkeys bounds) (map snd bounds) o) as [samples|] eqn:S.
  2:{ intros [= <-]. cbn. exists bounds, l, m, o. auto. }
  cbn [fst snd].
  set (ls := match l with Some l => l | None => [] end).
  destruct (all_params ls (dkeys bounds) samples) as [|p params] eqn:A; cbn [expand_params snd].
  - intros [= <-]. cbn. right. exists bounds, l. split; auto.
    assert (L : List.length (all_params ls (dkeys bounds) samples) = 0) by now rewrite A.
    rewrite params_shape in L. apply Nat.eq_mul_0 in L as [L|L].
    + left. apply number_zero_inv, in_map_iff in L as ([i v] & E & I). cbn in E.
      apply length_zero_iff_nil in E as ->. exists i. subst ls. destruct l as [l|]; [|destruct I].
      exists l. auto.
    + right. apply length_zero_iff_nil in L as ->. eauto.
  - set (blank := map (fun k => (k, v0)) (dkeys p)).
    assert (BL : Forall (fun q => snd q = v0) blank).
    { apply Forall_forall. intros q J. apply in_map_iff in J as (k & <- & _). reflexivity. }
    destruct (load (render t blank)) as [|c [|c2 docs]] eqn:L; cbn [snd].
    + intros [= <-]. cbn. left. exists blank. auto.
    + destruct (has_name c) as [[|]|] eqn:N; cbn [snd]; try discriminate; intros [= <-]; cbn.
      * right. exists blank. split; auto. right. exists c. auto.
      * exists blank. split; auto. exists c. auto.
    + intros [= <-]. cbn. right. exists blank. split; auto. left. rewrite L. cbn. lia.
Qed.
End Expand.
