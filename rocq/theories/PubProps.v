(** The pubcrawl example: C64 and C81 to C83. *)
From Coq Require Import ZArith List Bool Arith Lia.
From Verif Require Import PyDict PubModel PubSpec PubProofs.
Import ListNotations.
Local Open Scope Z_scope.

(** C64, for all sequences of calls of [enter] and [exit] with any agents, whatever [get_agent]
    is: no more agents are inside a pub than it has room for, and the counter is not negative. *)
Theorem C64_never_over_capacity : forall get n cap l p, 0 <= cap -> (p < n)%nat ->
  exists b, dget p (c_pubs (calls get l (new_city n cap))) = Some b /\
    p_capacity b = cap /\ 0 <= p_occupancy b <= cap /\
    forall agents, NoDup agents -> number_inside (calls get l (new_city n cap)) p agents <= cap.
Proof.
  intros get n cap l p C L. pose proof (calls_keys get p l (new_city n cap)) as K. rewrite (new_keys n cap p L), dhas_get in K.
  destruct (dget p (c_pubs (calls get l (new_city n cap)))) as [b|] eqn:E; [|discriminate]. exists b. split; auto.
  destruct (fits_calls get cap l _ (fits_new n cap C) p b E) as (F1 & _ & F3 & F4). split; auto. split.
  - split; auto. specialize (F4 [] (NoDup_nil _)). rewrite number_nil in F4. exact F4.
  - intros agents N. specialize (F4 agents N). lia.
Qed.
Print Assumptions C64_never_over_capacity.

Example C64_not_vacuous :
  let c := calls city_get_agent [Enter 0 [1; 2]; Enter 0 [3; 4]; Enter 1 [3; 4]; Exit 0 [1]; Enter 0 [5]]%nat (new_city 2 3) in
  map (fun a => c_pub c a) [1; 2; 3; 4; 5]%nat = map (fun p => Some (Some p)) [0; 0; 1; 1; 0]%nat /\
  number_inside c 0 [1; 2; 3; 4; 5]%nat = 3 /\ option_map p_occupancy (dget 0%nat (c_pubs c)) = Some 3.
Proof. vm_compute. auto. Qed.

(** C81 is false for all agents and pubs: [exit] raises AttributeError and nobody leaves. *)
Theorem C81_nobody_leaves_refuted : forall n cap l p i ids, (p < n)%nat ->
  let c := calls city_get_agent l (new_city n cap) in
  exit city_get_agent p (i :: ids) c = (c, AttributeError).
Proof.
  intros n cap l p i ids L c. unfold exit. pose proof (calls_keys city_get_agent p l (new_city n cap)) as K.
  rewrite (new_keys n cap p L), dhas_get in K. fold c in K.
  destruct (dget p (c_pubs c)) as [b|] eqn:E; [reflexivity|discriminate].
Qed.
(** C81 would hold with a method [get_agent] that finds the agents: who is inside leaves and
    makes room, others are left alone. *)
Theorem C81_with_get_agent_partial : forall g p a c b, dget p (c_pubs c) = Some b -> c_pub c (g a) <> None ->
  let c' := fst (exit (Some g) p [a] c) in
  snd (exit (Some g) p [a] c) = NoValue /\ ~ inside c' (g a) p /\
  (forall x, x <> g a -> c_pub c' x = c_pub c x) /\
  (inside c (g a) p -> dget p (c_pubs c') = Some (Pub (p_open b) (p_capacity b) (p_occupancy b - 1))) /\
  (~ inside c (g a) p -> c' = c).
Proof.
  intros g p a c b E N c'. subst c'. unfold exit. rewrite E. cbn [leave]. unfold inside.
  destruct (c_pub c (g a)) as [[q|]|] eqn:A; [| |congruence].
  - destruct (Nat.eqb p q) eqn:Q.
    + apply Nat.eqb_eq in Q. subst q. rewrite E. cbn [fst snd c_pub c_pubs set_pub]. rewrite Nat.eqb_refl.
      split; auto. split; [discriminate|]. split; [|split; [|congruence]].
      * intros x X. apply Nat.eqb_neq in X. now rewrite X.
      * intros _. now rewrite dget_set_same.
    + apply Nat.eqb_neq in Q. cbn [fst snd]. rewrite A. split; auto. split; [congruence|]. split; auto. split; congruence.
  - cbn [fst snd]. rewrite A. split; auto. split; [congruence|]. split; auto. split; congruence.
Qed.
Print Assumptions C81_nobody_leaves_refuted.
Print Assumptions C81_with_get_agent_partial.
Example C81_not_vacuous :
  let c := calls (Some (fun i => i)) [Enter 0 [1; 2]; Exit 0 [1]; Exit 1 [2]; Enter 0 [3; 4]]%nat (new_city 2 3) in
  map (fun a => c_pub c a) [1; 2; 3; 4]%nat = [None; Some (Some 0); Some (Some 0); Some (Some 0)]%nat /\
  (* The attribute is gone: a second call raises, and so does the agent in its next activation. *)
  snd (exit (Some (fun i => i)) 0 [1%nat] c) = KeyError /\ snd (looking_for_pub 1 [] c) = None.
Proof. vm_compute. auto. Qed.

(** C82, for calls of [enter] with agents that are in no pub, each of them given once.  ([all]
    are all agents of the city.) *)
Theorem C82_counter_partial : forall get all n cap l p b, NoDup all ->
  (forall g i, get = Some g -> In (g i) all) ->
  orderly get all l (new_city n cap) ->
  dget p (c_pubs (calls get l (new_city n cap))) = Some b ->
  p_occupancy b = number_inside (calls get l (new_city n cap)) p all.
Proof.
  intros get all n cap l p b N G O E. eapply (counted_calls get all N G l (new_city n cap)); auto.
  intros q b' X. rewrite (new_get _ _ _ _ X), new_number. reflexivity.
Qed.
(** C82 is false: an agent that enters twice, as a friend of two others, is counted twice. *)
Theorem C82_counted_twice_refuted : forall n cap (p : name) (a b c : patron), (p < n)%nat -> 4 <= cap -> NoDup [a; b; c] ->
  let x := calls city_get_agent [Enter p [a; b]; Enter p [c; b]] (new_city n cap) in
  (forall all, NoDup all -> number_inside x p all <= 3) /\
  exists q, dget p (c_pubs x) = Some q /\ p_occupancy q = 4.
Proof.
  intros n cap p a b c L C N x. unfold x, calls. cbn [fold_left one_call]. unfold enter at 2 4.
  assert (exists q, dget p (c_pubs (new_city n cap)) = Some q) as [q E].
  { pose proof (new_keys n cap p L) as K. rewrite dhas_get in K. destruct (dget p _) as [q|]; [eauto|discriminate]. }
  rewrite E. rewrite (new_get _ _ _ _ E). cbn [p_open p_capacity p_occupancy negb orb List.length].
  assert (cap <? Z.of_nat 2 + 0 = false) as -> by (apply Z.ltb_ge; lia). cbn [fst].
  set (c1 := City (dset p (Pub true cap (0 + Z.of_nat 2)) (c_pubs (new_city n cap))) (c_pub (new_city n cap))).
  set (c2 := fold_left _ [a; b] c1). unfold enter.
  assert (dget p (c_pubs c2) = Some (Pub true cap (0 + Z.of_nat 2))) as E2.
  { unfold c2. rewrite enter_pubs. cbn [c1 c_pubs]. apply dget_set_same. }
  rewrite E2. cbn [p_open p_capacity p_occupancy negb orb List.length].
  assert (cap <? Z.of_nat 2 + (0 + Z.of_nat 2) = false) as -> by (apply Z.ltb_ge; lia). cbn [fst]. split.
  - intros all Na. set (c3 := City _ (c_pub c2)).
    assert (forall y, is_in (fold_left (fun c a => set_pub c a (Some (Some p))) [c; b] c3) p y = true -> In y [a; b; c]) as H.
    { intros y. rewrite enter_is_in. change (is_in c3 p y) with (is_in c2 p y). unfold c2. rewrite enter_is_in.
      change (is_in c1 p y) with false. cbn [existsb]. destruct (Nat.eqb y a) eqn:X1; [apply Nat.eqb_eq in X1; subst; simpl; auto|].
      destruct (Nat.eqb y b) eqn:X2; [apply Nat.eqb_eq in X2; subst; simpl; auto|].
      destruct (Nat.eqb y c) eqn:X3; [apply Nat.eqb_eq in X3; subst; simpl; auto|]. discriminate. }
    rewrite number_eq. change 3 with (Z.of_nat (List.length [a; b; c])). apply Nat2Z.inj_le. apply NoDup_incl_length.
    + now apply NoDup_filter.
    + intros y I. apply filter_In in I as [_ I]. now apply H.
  - exists (Pub true cap (0 + Z.of_nat 2 + Z.of_nat 2)). split; [|reflexivity]. rewrite enter_pubs. cbn [c_pubs]. apply dget_set_same.
Qed.
Print Assumptions C82_counter_partial.
Print Assumptions C82_counted_twice_refuted.
Example C82_not_vacuous :
  let l := [Enter 0 [1; 2]; Enter 1 [3]; Exit 0 [1]; Enter 0 [1; 4]]%nat in
  let get := Some (fun i => Nat.min i 4) in
  orderly get [0; 1; 2; 3; 4]%nat l (new_city 2 3) /\ NoDup [0; 1; 2; 3; 4]%nat /\
  number_inside (calls get l (new_city 2 3)) 0 [0; 1; 2; 3; 4]%nat = 3.
Proof.
  split; [|split; [repeat constructor; simpl; intuition discriminate|reflexivity]].
  simpl. unfold inside.
  repeat match goal with
         | |- _ /\ _ => split
         | |- True => exact I
         | |- NoDup _ => repeat constructor; simpl; intuition discriminate
         | |- forall _, _ => intros ? [<-|H]; [|try destruct H as [<-|[]]; try destruct H]; (split; [simpl; auto 10|simpl; intros; discriminate])
         end.
Qed.

(** C83: who goes on to drink is inside a pub, with the whole group if it came in now. *)
Theorem C83_drinkers_are_inside : forall a group c c', looking_for_pub a group c = (c', Some true) ->
  exists p, inside c' a p /\
    (inside c a p /\ c' = c \/ c_pub c a = Some None /\ forall b, In b group -> inside c' b p).
Proof. exact looking_true. Qed.
(** Who does not had no pub with room for all. *)
Theorem C83_others_found_no_room : forall a group c c', looking_for_pub a group c = (c', Some false) ->
  c' = c /\ forall p b, dget p (c_pubs c) = Some b -> ~ accepts b (1 + Z.of_nat (List.length group)).
Proof. exact looking_false. Qed.
Print Assumptions C83_drinkers_are_inside.
Print Assumptions C83_others_found_no_room.
Example C83_not_vacuous :
  let c := calls city_get_agent [Enter 0 [1; 2]]%nat (new_city 2 3) in
  snd (looking_for_pub 3 [4%nat] c) = Some true /\ c_pub (fst (looking_for_pub 3 [4%nat] c)) 4%nat = Some (Some 1%nat) /\
  snd (looking_for_pub 3 [4; 5; 6]%nat c) = Some false.
Proof. vm_compute. auto. Qed.
