(** Proofs about the queries for agents. *)
From Coq Require Import List Bool Arith String Lia.
From Verif Require Import PyDict QueryModel QuerySpec.
Import ListNotations.

Section P.
Context {A V C : Type}.
Variable veq : V -> V -> bool.
Variable uid : A -> V.
Variable state_of : A -> V.
Variable attr : A -> string -> V.
Variable isinstance : A -> C -> bool.
Notation filter_agents := (filter_agents veq uid state_of attr isinstance).
Notation matches := (matches veq uid state_of attr isinstance).
Notation attr_loop := (attr_loop veq attr).

Definition cut (n : option nat) (l : list A) : list A :=
  match n with None => l | Some n => firstn n l end.

Lemma selects_filter (P : A -> Prop) (b : A -> bool) l :
  (forall a, b a = true <-> P a) -> forall n, selects P n l (cut n (filter b l)).
Proof.
  intros B. induction l as [|a l IH]; intros n; simpl.
  - destruct n as [[|n]|]; simpl; constructor.
  - destruct (b a) eqn:E.
    + destruct n as [[|n]|]; simpl.
      * constructor.
      * constructor; [now apply B|]. apply (IH (Some n)).
      * constructor; [now apply B|]. apply (IH None).
    + constructor; auto. rewrite <- B. congruence.
Qed.

Lemma selects_zero (P : A -> Prop) l : forall n l', n = Some 0 -> selects P n l l' -> l' = [].
Proof. intros n l' E H. induction H; auto; discriminate. Qed.

Lemma selects_fun (P : A -> Prop) n l l1 : selects P n l l1 -> forall l2, selects P n l l2 -> l1 = l2.
Proof.
  induction 1; intros l2 H2.
  - inversion H2; auto.
  - symmetry. eapply selects_zero; eauto.
  - inversion H2; subst; auto; try contradiction.
    eapply selects_zero; eauto.
  - inversion H2; subst; try contradiction. f_equal. auto.
  - inversion H2; subst; try contradiction. f_equal. auto.
Qed.

Lemma filter_filter {X} (f g : X -> bool) l : filter f (filter g l) = filter (fun x => g x && f x) l.
Proof.
  induction l as [|x l IH]; simpl; auto. destruct (g x); simpl; auto. destruct (f x); now rewrite IH.
Qed.

Lemma filter_true {X} (f : X -> bool) l : (forall x, f x = true) -> filter f l = l.
Proof. intros E. induction l; simpl; auto. rewrite E. now f_equal. Qed.

(** The loop: [n] copies of the same filter. *)
Definition last_env (items : dict string (one_or_many V)) (env : string * list V) : string * list V :=
  match rev items with [] => env | (k, v) :: _ => (k, as_list v) end.

Lemma attr_loop_eq items : forall env fs,
  attr_loop items env fs =
  (last_env items env,
   fs ++ repeat (fun env a => memb veq (attr a (fst env)) (snd env)) (List.length items)).
Proof.
  induction items as [|[k v] items IH]; intros env fs; simpl.
  - unfold last_env. simpl. now rewrite app_nil_r.
  - rewrite IH, <- app_assoc. simpl. f_equal. unfold last_env. simpl.
    destruct (rev items) as [|[k' v'] r]; simpl; auto.
Qed.

Lemma fold_repeat (g : string * list V -> A -> bool) env n : forall l,
  fold_left (fun l f => filter (f env) l) (repeat g n) l =
  match n with 0 => l | S _ => filter (g env) l end.
Proof.
  induction n as [|n IH]; intros l; simpl; auto. rewrite IH. destruct n; auto.
  rewrite filter_filter. apply filter_ext. intros a. destruct (g env a); auto.
Qed.

Definition attr_ok (o : option (string * one_or_many V)) (a : A) : bool :=
  match o with None => true | Some (k, v) => memb veq (attr a k) (as_list v) end.

Lemma attr_part items env l :
  let '(env', fs) := attr_loop items env [] in
  fold_left (fun l f => filter (f env') l) fs l = filter (attr_ok (hd_error (rev items))) l.
Proof.
  rewrite attr_loop_eq. simpl. rewrite fold_repeat. unfold last_env.
  destruct items as [|p items] using rev_ind.
  - simpl. symmetry. now apply filter_true.
  - rewrite app_length, rev_app_distr. simpl. rewrite Nat.add_comm. simpl.
    destruct p as [k v]. reflexivity.
Qed.

(** Updating a dictionary. *)
Lemma dset_in_place {K} `{Eqb K} {W} k (v : W) (d : dict K W) : dwf d -> dhas k d = true ->
  dset k v d = map (fun p => (fst p, if eqb (fst p) k then v else snd p)) d.
Proof.
  unfold dwf. induction d as [|[k' v'] d IH]; simpl; [discriminate|]. intros N Hk.
  inversion N as [|x l N1 N2]; subst. rewrite (eqb_sym k' k). destruct (eqb k k') eqn:E.
  - apply eqb_eq in E. subst. simpl. f_equal. rewrite <- map_id at 1. apply map_ext_in.
    intros [k2 v2] I. simpl. destruct (eqb k2 k') eqn:E2; auto. apply eqb_eq in E2. subst.
    exfalso. apply N1. apply (in_map fst) in I. exact I.
  - simpl in Hk. simpl. f_equal. now apply IH.
Qed.

Lemma dupdate_list {K} `{Eqb K} {W} (e : dict K W) : forall d, dwf d -> dwf e ->
  dupdate d e =
  map (fun p => (fst p, match dget (fst p) e with Some v => v | None => snd p end)) d ++
  filter (fun p => negb (dhas (fst p) d)) e.
Proof.
  induction e as [|[k v] e IH]; intros d D E.
  - simpl. rewrite dupdate_nil, app_nil_r. rewrite <- (map_id d) at 1. apply map_ext.
    intros [? ?]. reflexivity.
  - unfold dwf in E. simpl in E. inversion E as [|x l N1 N2]; subst.
    rewrite dupdate_cons. rewrite IH; auto; [|now apply dset_wf]. simpl.
    destruct (dhas k d) eqn:Hk; simpl.
    + f_equal.
      * rewrite dset_in_place by auto. rewrite map_map. simpl. apply map_ext.
        intros [k' v']. simpl. destruct (eqb k' k) eqn:E2; auto. apply eqb_eq in E2. subst.
        f_equal. apply dget_none in N1. now rewrite N1.
      * apply filter_ext. intros [k' v']. simpl. rewrite dhas_set. destruct (eqb k' k) eqn:E2; auto.
        apply eqb_eq in E2. subst. now rewrite Hk.
    + rewrite dset_fresh by auto. rewrite map_app. simpl. rewrite <- app_assoc. simpl.
      f_equal; [|f_equal].
      * apply map_ext_in. intros [k' v'] I. simpl. destruct (eqb k' k) eqn:E2; auto.
        apply eqb_eq in E2. subst. exfalso. apply not_true_iff_false in Hk. apply Hk, dhas_in.
        apply (in_map fst) in I. exact I.
      * apply dget_none in N1. now rewrite N1.
      * apply filter_ext_in. intros [k' v'] I. simpl. f_equal. unfold dhas.
        rewrite existsb_app. simpl. destruct (eqb k' k) eqn:E2; [|now rewrite orb_false_r].
        apply eqb_eq in E2. subst. exfalso. apply N1. apply (in_map fst) in I. exact I.
Qed.

Lemma state_dict_eq (q : criteria V C) :
  state_dict q = dupdate match q_state q with Some d => d | None => [] end (q_kwargs q).
Proof. unfold state_dict. destruct (q_state q) as [[|p d]|]; auto. Qed.

Lemma hd_rev_app {X} (l m : list X) :
  hd_error (rev (l ++ m)) = match rev m with x :: _ => Some x | [] => hd_error (rev l) end.
Proof. rewrite rev_app_distr. destruct (rev m); auto. Qed.

Lemma last_attr_eq (q : criteria V C) : proper q -> hd_error (rev (state_dict q)) = last_attr q.
Proof.
  intros [K S]. rewrite state_dict_eq. unfold last_attr.
  set (d := match q_state q with Some d => d | None => [] end).
  assert (dwf d) as D.
  { subst d. destruct (q_state q); [now apply S|constructor]. }
  rewrite dupdate_list by auto. rewrite hd_rev_app.
  destruct (rev (filter _ (q_kwargs q))); auto. rewrite <- map_rev.
  destruct (rev d) as [|[k v] r]; auto.
Qed.

Lemma memb_meets v l : memb veq v l = true <-> (exists x, In x l /\ veq v x = true).
Proof. unfold memb. apply existsb_exists. Qed.

(** The tests as one boolean. *)
Definition test (q : criteria V C) (a : A) : bool :=
  match ids_of q with [] => true | ids => memb veq (uid a) ids end &&
  match q_state_id q with None => true | Some x => memb veq (state_of a) (as_list x) end &&
  match q_class q with None => true | Some cs => existsb (isinstance a) cs end &&
  attr_ok (hd_error (rev (state_dict q))) a.

Lemma filter_agents_test agents q : filter_agents agents q = cut (q_limit q) (filter (test q) agents).
Proof.
  unfold QueryModel.filter_agents.
  set (f0 := match ids_of q with [] => agents | _ => _ end).
  set (f1 := match q_state_id q with None => f0 | _ => _ end).
  set (f2 := match q_class q with None => f1 | _ => _ end).
  pose proof (attr_part (state_dict q) (EmptyString, []) f2) as E.
  destruct (attr_loop (state_dict q) (EmptyString, []) []) as [env fs]. rewrite E.
  assert (filter (attr_ok (hd_error (rev (state_dict q)))) f2 = filter (test q) agents) as X.
  { unfold test. rewrite <- filter_filter. f_equal. subst f2.
    rewrite <- filter_filter. transitivity (filter
       (fun a => match q_class q with None => true | Some cs => existsb (isinstance a) cs end) f1).
    { destruct (q_class q); auto. symmetry. now apply filter_true. }
    f_equal. subst f1. rewrite <- filter_filter. transitivity (filter
       (fun a => match q_state_id q with None => true | Some x => memb veq (state_of a) (as_list x) end) f0).
    { destruct (q_state_id q); auto. symmetry. now apply filter_true. }
    f_equal. subst f0. destruct (ids_of q); auto. symmetry. now apply filter_true. }
  rewrite X. destruct (q_limit q); reflexivity.
Qed.

Lemma wanted_ids_understood (q : criteria V C) :
  wanted_ids (understood q) = match ids_of q with [] => None | ids => Some ids end.
Proof.
  unfold wanted_ids, understood, ids_of. simpl.
  destruct (q_unique_id q) as [[v|[|v l]]|], (q_id_args q); simpl; auto.
Qed.

Lemma test_understood q a : proper q -> test q a = true <-> matches (understood q) a.
Proof.
  intros P. unfold test, QuerySpec.matches. rewrite !andb_true_iff, last_attr_eq by auto.
  rewrite wanted_ids_understood.
  split.
  - intros [[[I S] Cl] At]. split; [|split; [|split]].
    + intros l E. destruct (ids_of q) as [|i ids]; [discriminate|]. injection E as <-.
      now apply memb_meets.
    + intros l E. simpl in E. destruct (q_state_id q); [|discriminate]. simpl in E.
      injection E as <-. now apply memb_meets.
    + intros cs E. simpl in E. rewrite E in Cl. now apply existsb_exists.
    + intros k l E. unfold wanted in E. simpl in E. destruct (last_attr q) as [[k' v]|]; [|discriminate].
      simpl in E. destruct (eqb k k') eqn:K; [|discriminate]. apply eqb_eq in K. subst.
      injection E as <-. now apply memb_meets.
  - intros (I & S & Cl & At). split; [split; [split|]|].
    + destruct (ids_of q) as [|i ids]; auto. apply memb_meets. now apply I.
    + destruct (q_state_id q) eqn:E; auto. apply memb_meets. apply S. unfold understood. simpl. now rewrite E.
    + destruct (q_class q) eqn:E; auto. apply existsb_exists. apply Cl. auto.
    + destruct (last_attr q) as [[k v]|] eqn:E; auto. simpl. apply memb_meets. apply (At k).
      unfold wanted. simpl. rewrite E. simpl. now rewrite eqb_refl.
Qed.

Lemma filter_exact q agents : proper q ->
  selects (matches (understood q)) (q_limit q) agents (filter_agents agents q).
Proof.
  intros P. rewrite filter_agents_test. apply selects_filter. intros a. now apply test_understood.
Qed.

(** With at most one attribute, the code understands the criteria as they are meant. *)
Lemma last_attr_some (q : criteria V C) k v : proper q -> last_attr q = Some (k, v) ->
  wanted q k = Some (as_list v).
Proof.
  intros [K S] E. unfold last_attr, wanted in *.
  set (d := match q_state q with Some d => d | None => [] end) in *.
  assert (dwf d) as D.
  { subst d. destruct (q_state q); [now apply S|constructor]. }
  destruct (rev (filter _ (q_kwargs q))) as [|p r] eqn:R.
  - destruct (rev d) as [|[k' v'] r] eqn:R2; [discriminate|]. injection E as -> <-.
    destruct (dget k (q_kwargs q)); auto.
    assert (In (k, v') d) as I by (rewrite in_rev, R2; simpl; auto).
    apply dget_in_wf in I; auto. subst d. destruct (q_state q) as [d|]; [|destruct (dget k []); discriminate].
    now rewrite I.
  - injection E as ->. assert (In (k, v) (q_kwargs q)) as I.
    { assert (In (k, v) (rev (filter (fun p => negb (dhas (fst p) d)) (q_kwargs q)))) as I
        by (rewrite R; simpl; auto).
      rewrite <- in_rev in I. apply filter_In in I. apply I. }
    apply dget_in_wf in I; auto. now rewrite I.
Qed.

Lemma last_attr_none (q : criteria V C) k : proper q -> last_attr q = None -> wanted q k = None.
Proof.
  intros [K S] E. unfold last_attr, wanted in *.
  set (d := match q_state q with Some d => d | None => [] end) in *.
  destruct (rev (filter _ (q_kwargs q))) as [|p r] eqn:R; [|discriminate].
  destruct (rev d) as [|[k' v'] r] eqn:R2; [|discriminate].
  assert (d = []) as D by (rewrite <- (rev_involutive d), R2; reflexivity).
  rewrite D in R. assert (q_kwargs q = []) as Q.
  { destruct (q_kwargs q); auto. simpl in R. destruct (rev _) in R; discriminate. }
  rewrite Q. simpl. subst d. destruct (q_state q); auto. rewrite D. reflexivity.
Qed.

Lemma filter_one_attr q agents : proper q -> wanted_ids q <> Some [] ->
  (forall k k', wanted q k <> None -> wanted q k' <> None -> k = k') ->
  selects (matches q) (q_limit q) agents (filter_agents agents q).
Proof.
  intros P I U. rewrite filter_agents_test. apply selects_filter. intros a.
  rewrite test_understood by auto. unfold QuerySpec.matches.
  assert (wanted_ids (understood q) = wanted_ids q) as ->.
  { unfold wanted_ids, understood in *. simpl.
    destruct (q_unique_id q) as [[v|[|v l]]|], (q_id_args q); simpl in *; auto; congruence. }
  assert (forall k, wanted (understood q) k = wanted q k) as W.
  { intros k. destruct (last_attr q) as [[k' v]|] eqn:E.
    - pose proof (last_attr_some q k' v P E) as E'. unfold wanted at 1, understood. simpl. rewrite E. simpl.
      destruct (eqb k k') eqn:K.
      + apply eqb_eq in K. subst. now rewrite E'.
      + destruct (wanted q k) eqn:X; auto. apply eqb_neq in K. exfalso. apply K. apply U; congruence.
    - rewrite (last_attr_none q k P E). unfold wanted, understood. simpl. now rewrite E. }
  split; intros (A1 & A2 & A3 & A4); (split; [|split; [|split]]); auto; intros k.
  - rewrite <- W. auto.
  - rewrite W. auto.
Qed.

Lemma net_ignores_ids q q' agents :
  q_state_id q = q_state_id q' -> q_class q = q_class q' -> q_state q = q_state q' ->
  q_limit q = q_limit q' -> q_kwargs q = q_kwargs q' ->
  net_get_agents veq uid state_of attr isinstance agents q =
  net_get_agents veq uid state_of attr isinstance agents q'.
Proof. unfold net_get_agents. now intros -> -> -> -> ->. Qed.

Lemma one_id_all i agents :
  net_get_agents veq uid state_of attr isinstance agents
    (Criteria [] (Some (One i)) None None None None []) = agents.
Proof. reflexivity. Qed.

Lemma state_after_spec (q : criteria V C) d : proper q -> q_state q = Some d -> d <> [] ->
  state_after q = Some (dupdate d (q_kwargs q)).
Proof.
  intros P E N. unfold state_after, state_dict. rewrite E. destruct d; auto. congruence.
Qed.

Lemma state_changed (q : criteria V C) d k v : proper q -> q_state q = Some d -> d <> [] ->
  dget k (q_kwargs q) = Some v ->
  exists d', state_after q = Some d' /\ dget k d' = Some v.
Proof.
  intros P E N K. exists (dupdate d (q_kwargs q)). split; [now apply state_after_spec|].
  rewrite dget_update_wf; [now rewrite K|exact (proj1 P)].
Qed.

Lemma state_kept (q : criteria V C) :
  q_kwargs q = [] \/ q_state q = Some [] -> state_after q = q_state q.
Proof.
  intros [K|K]; unfold state_after, state_dict; [rewrite K|]; destruct (q_state q) as [[|p d]|]; auto;
    congruence.
Qed.

Lemma base_by_id i agents b :
  In b (get_agents veq uid state_of attr isinstance agents
          (Criteria [] (Some (One i)) None None None None [])) <->
  In b agents /\ veq (uid b) i = true.
Proof.
  unfold get_agents, QueryModel.filter_agents. simpl. rewrite filter_In. unfold memb. simpl.
  now rewrite orb_false_r.
Qed.
End P.
