(** Agents and environments as dictionaries: C91 to C99. *)
From Coq Require Import List Bool Arith Ascii String Lia.
From Verif Require Import PyDict MappingModel MappingSpec MappingProofs.
Import ListNotations.
Local Open Scope string_scope.

(** The empty name is not covered by C91: after an assignment to it, which Python allows, the agent can no
    longer be listed. *)
Theorem C91_empty_name : forall (V : Type) (a : object V) v, ~ is_property a "" ->
  exists a', setitem a (Str "") v = Ok a' /\ getitem a' (Str "") = Ok v /\
             keys a' = Raise IndexError /\ len a' = Raise IndexError /\
             forall m none skip, items a' m none None skip = Raise IndexError.
Proof.
  intros V a v N. exists (with_own a (dset "" v (own a))). split; [now apply setattr_plain|]. split.
  - unfold getitem. erewrite getattr_plain; [reflexivity|]. split; [exact N|]. left. apply dget_set_same.
  - assert (K : keys (with_own a (dset "" v (own a))) = Raise IndexError).
    { apply names_empty. cbn [with_own own]. apply in_dkeys_set. now left. }
    unfold len, items. rewrite K. auto.
Qed.
(** C91: the assigned value is read back, everything else is as before, and the name
    is listed exactly if it is public. *)
Theorem C91_assignment : forall (V : Type) (a : object V) k v, proper a -> k <> "" -> ~ is_property a k ->
  exists a' ks, setitem a (Str k) v = Ok a' /\ proper a' /\
    getitem a' (Str k) = Ok v /\ contains a' (Str k) = Ok true /\
    (forall k', k' <> k -> ~ is_property a k' -> getitem a' (Str k') = getitem a (Str k')) /\
    keys a' = Ok ks /\ (In k ks <-> agent_name k = true) /\
    (forall k', k' <> k -> (In k' ks <-> In k' (map fst (attributes agent_name a)))).
Proof.
  intros V a k v W K N. set (a' := with_own a (dset k v (own a))).
  assert (W' : proper a') by now apply setattr_proper.
  exists a', (map fst (attributes agent_name a')). split; [now apply setattr_plain|]. split; [exact W'|].
  assert (G : getattr a' (Str k) = Ok v).
  { apply getattr_plain. split; [exact N|]. left. apply dget_set_same. }
  split; [unfold getitem; now rewrite G|]. split; [unfold contains, hasattr; now rewrite G|]. split.
  { intros k' D N'. unfold getitem. subst a'. cbn [getattr with_own cls own]. rewrite dget_set_other by auto.
    destruct (dget k' (cls a)) as [[g|w]|] eqn:C; try reflexivity. exfalso. apply N'. now exists g. }
  split; [apply keys_eq, W'|]. split.
  - rewrite attributes_in by apply W'. split; [tauto|]. intros P. split; auto. exists v. apply dget_set_same.
  - intros k' D. rewrite !attributes_in by (apply W || apply W'). cbn [a' with_own own]. now rewrite dget_set_other.
Qed.
(** And the listings of all agents: keys, items and length are those of the public attributes, in the order
    in which they were first assigned, each with the value that it has. *)
Theorem C91_listing : forall (V : Type) (a : object V), proper a ->
  keys a = Ok (map fst (attributes agent_name a)) /\
  len a = Ok (List.length (attributes agent_name a)) /\
  (forall m none, items a m none None [] = Ok (attributes agent_name a)) /\
  (forall m none skip, exists l, items a m none None skip = Ok l /\
     forall k v, In (k, v) l <-> In (k, v) (attributes agent_name a) /\ ~ In k skip) /\
  (forall k v, In (k, v) (attributes agent_name a) -> getitem a (Str k) = Ok v /\ contains a (Str k) = Ok true).
Proof.
  intros V a W. assert (K := keys_eq a (proj2 (proj2 W))). split; [exact K|]. split.
  { unfold len. rewrite K. cbn [bind]. now rewrite map_length. }
  split; [intros; now apply items_all|]. split.
  - intros m none skip. eexists. split; [now apply items_eq|]. intros k v. rewrite filter_In. cbn [fst].
    rewrite negb_true_iff, <- not_true_iff_false, existsb_exists. split; intros [I J]; split; auto.
    + intros S. apply J. exists k. split; auto. apply String.eqb_refl.
    + intros (k' & S & E). apply String.eqb_eq in E. now subst.
  - intros k v I. assert (G := getattr_plain _ _ _ (attributes_plain _ _ _ _ W I)).
    unfold getitem, contains, hasattr. now rewrite G.
Qed.
Print Assumptions C91_empty_name.
Print Assumptions C91_assignment.
Print Assumptions C91_listing.
(** A concrete agent: what [BaseAgent.__init__] leaves, a private attribute, and a class with a method and
    the property [now]. *)
Definition someone : object nat :=
  {| cls := [("step", CValue 100); ("now", CProperty (fun _ => Ok 7))];
     own := [("unique_id", 1); ("model", 50); ("pos", 0); ("name", 60); ("alive", 1); ("logger", 70); ("_secret", 9); ("age", 33)] |}.
Definition somewhere : object nat :=
  {| cls := [("now", CProperty (fun _ => Raise (Other 1)))]; own := [("id", 5); ("_seed", 2); ("temperature", 21)] |}.
Ltac proper_now := split; [|split]; [repeat constructor; simpl; intuition discriminate
  |intros k I (g & E); simpl in I; repeat destruct I as [<-|I]; try discriminate E; destruct I
  |simpl; intuition discriminate].
Example C91_not_vacuous : proper someone /\ keys someone = Ok ["unique_id"; "pos"; "name"; "alive"; "age"] /\
  len someone = Ok 5 /\ getitem someone (Str "age") = Ok 33 /\ getitem someone (Str "_secret") = Ok 9 /\
  items someone somewhere 0 None ["pos"; "name"] = Ok [("unique_id", 1); ("alive", 1); ("age", 33)].
Proof. split; [proper_now|]. repeat split. Qed.

(** C92 is false for all agents that have a public attribute: a loop over the agent does not give its keys but pairs,
    and values, popitem, clear and the update with another agent raise TypeError. *)
Theorem C92_iteration_refuted : forall (V : Type) (a m : object V) none, proper a -> attributes agent_name a <> [] ->
  iter a m none = Ok (map Pair (attributes agent_name a)) /\
  (forall k, In k (map Pair (attributes agent_name a)) -> getitem a k = Raise TypeError /\ contains a k = Raise TypeError) /\
  values a m none = Raise TypeError /\
  popitem a m none = Raise TypeError /\
  clear a m none = Raise TypeError /\
  (forall b, update_agent b a m none = Raise TypeError).
Proof.
  intros V a m none W N.
  assert (I : iter a m none = Ok (map Pair (attributes agent_name a))) by (unfold iter; now rewrite items_all).
  split; [exact I|]. split.
  { intros k J. apply in_map_iff in J as (p & <- & _). now split. }
  split. { unfold values. rewrite I. cbn [bind]. now destruct (attributes agent_name a). }
  assert (P := popitem_raises a m none W N). split; [exact P|]. split.
  { unfold clear. cbn [clear_loop]. now rewrite P. }
  intros b. unfold update_agent. rewrite I. cbn [bind]. now destruct (attributes agent_name a).
Qed.
(** C99: pop and setdefault for the own attributes, and the update with a dictionary whose names are not
    those of properties. *)
Theorem C99_other_methods : forall (V : Type) (a : object V), proper a ->
  (forall k v default, dget k (own a) = Some v ->
     pop a (Str k) default = Ok (v, with_own a (ddel k (own a))) /\ setdefault a (Str k) v = Ok (v, a) /\
     forall k', dget k' (ddel k (own a)) = if String.eqb k' k then None else dget k' (own a)) /\
  (forall k v, lacks a k -> pop a (Str k) None = Raise KeyError /\ pop a (Str k) (Some v) = Ok (v, a) /\
     exists a', setdefault a (Str k) v = Ok (v, a') /\ dget k (own a') = Some v /\
       forall k', k' <> k -> dget k' (own a') = dget k' (own a)) /\
  (forall d, dwf d -> (forall k, In k (dkeys d) -> ~ is_property a k) ->
     exists a', update_dict a d = Ok a' /\
       forall k, dget k (own a') = match dget k d with Some v => Some v | None => dget k (own a) end).
Proof.
  intros V a W. split; [|split].
  - intros k v default E. assert (N : ~ is_property a k).
    { apply (proj1 (proj2 W)). apply dget_in in E. apply (in_map fst) in E. exact E. }
    assert (G : getattr a (Str k) = Ok v) by (apply getattr_plain; split; auto).
    assert (D : delattr a (Str k) = Ok (with_own a (ddel k (own a)))).
    { cbn [delattr]. destruct (dget k (cls a)) as [[g|w]|] eqn:C; [exfalso; apply N; now exists g| |];
      rewrite dhas_get, E; reflexivity. }
    split; [unfold pop, getitem, delitem; now rewrite G, D|]. split; [unfold setdefault, getitem; now rewrite G|].
    intros k'. rewrite dget_del by apply W. reflexivity.
  - intros k v L. assert (G := getattr_lacks _ _ L).
    split; [unfold pop, getitem; now rewrite G|]. split; [unfold pop, getitem; now rewrite G|].
    exists (with_own a (dset k v (own a))). split.
    { unfold setdefault, getitem, setitem. rewrite G. rewrite setattr_plain; [reflexivity|].
      intros (g & C). destruct L as [L _]. congruence. }
    split; [apply dget_set_same|]. intros k' D. now apply dget_set_other.
  - intros d WD N. eexists. split; [now apply set_all_ok|]. intros k. cbn [with_own own]. now apply dget_update_wf.
Qed.
Print Assumptions C92_iteration_refuted.
Print Assumptions C99_other_methods.
Example C92_not_vacuous : attributes agent_name someone <> [] /\
  iter someone somewhere 0 = Ok [Pair ("unique_id", 1); Pair ("pos", 0); Pair ("name", 60); Pair ("alive", 1); Pair ("age", 33)] /\
  values someone somewhere 0 = Raise TypeError.
Proof. split; [discriminate|]. split; reflexivity. Qed.
Example C99_not_vacuous : dget "age" (own someone) = Some 33 /\ lacks someone "size" /\
  (exists a, pop someone (Str "age") None = Ok (33, a) /\ contains a (Str "age") = Ok false) /\
  (exists a, update_dict someone [("age", 34); ("size", 2)] = Ok a /\ getitem a (Str "age") = Ok 34 /\ getitem a (Str "size") = Ok 2).
Proof. split; [reflexivity|]. split; [now split|]. split; eexists; repeat split. Qed.

(** C93: get looks in the agent, then in its model, then uses the default. *)
Theorem C93_get : forall (V : Type) (a m : object V) k default,
  (forall v, plain a k v -> get a m (Str k) default = Ok v) /\
  (forall v, lacks a k -> plain m k v -> get a m (Str k) default = Ok v) /\
  (lacks a k -> lacks m k -> get a m (Str k) default = Ok default) /\
  (forall g v, dget k (cls a) = Some (CProperty g) -> g (own a) = Ok v -> get a m (Str k) default = Ok v) /\
  (forall g v, lacks a k -> dget k (cls m) = Some (CProperty g) -> g (own m) = Ok v -> get a m (Str k) default = Ok v).
Proof.
  intros V a m k default. unfold get. repeat split.
  - intros v P. now rewrite (getattr_plain _ _ _ P).
  - intros v L P. now rewrite (getattr_lacks _ _ L), (getattr_plain _ _ _ P).
  - intros L M. now rewrite (getattr_lacks _ _ L), (getattr_lacks _ _ M).
  - intros g v C E. cbn [getattr]. now rewrite C, E.
  - intros g v L C E. rewrite (getattr_lacks _ _ L). cbn [getattr]. now rewrite C, E.
Qed.
Print Assumptions C93_get.
Example C93_not_vacuous : get someone somewhere (Str "age") 0 = Ok 33 /\ get someone somewhere (Str "temperature") 0 = Ok 21 /\
  get someone somewhere (Str "humidity") 4 = Ok 4 /\ plain someone "age" 33 /\ lacks someone "temperature" /\ plain somewhere "temperature" 21 /\
  get someone somewhere (Str "now") 0 = Ok 7.
Proof.
  repeat split; try (intros (g & E); discriminate E); left; reflexivity.
Qed.

(** C94 is false: deleting what the agent does not have raises AttributeError, not KeyError, for all agents and
    names; and so does pop, even with a default, for what is only in the class. *)
Theorem C94_deletion_refuted : forall (V : Type) (a : object V) k,
  (lacks a k -> delitem a (Str k) = Raise AttributeError) /\
  (forall p, dget k (cls a) = Some (CProperty p) -> delitem a (Str k) = Raise AttributeError) /\
  (forall v default, dget k (cls a) = Some (CValue v) -> dget k (own a) = None -> pop a (Str k) default = Raise AttributeError).
Proof.
  intros V a k. split; [|split].
  - intros [C O]. unfold delitem. cbn [delattr]. now rewrite C, dhas_get, O.
  - intros p C. unfold delitem. cbn [delattr]. now rewrite C.
  - intros v default C O. unfold pop, getitem, delitem. cbn [getattr delattr]. now rewrite C, O, dhas_get, O.
Qed.
(** C94 for reading and for membership. *)
Theorem C94_reading_partial : forall (V : Type) (a : object V) k, lacks a k ->
  getitem a (Str k) = Raise KeyError /\ contains a (Str k) = Ok false.
Proof. intros V a k L. unfold getitem, contains, hasattr. now rewrite (getattr_lacks _ _ L). Qed.
Print Assumptions C94_deletion_refuted.
Print Assumptions C94_reading_partial.
Example C94_not_vacuous : lacks someone "size" /\ delitem someone (Str "size") = Raise AttributeError /\
  pop someone (Str "step") (Some 0) = Raise AttributeError /\ getitem someone (Str "size") = Raise KeyError.
Proof. repeat split. Qed.

(** C95 is false for all agents, attributes and skips: to_str shows the same whatever is to be skipped. *)
Theorem C95_skip_is_ignored_refuted : forall (V : Type) (a m : object V) none skip, proper a ->
  to_str a m none None skip = Ok (attributes agent_name a).
Proof.
  intros V a m none skip W. unfold to_str. rewrite items_all by auto. cbn [bind]. f_equal. apply dict_of_nodup.
  apply attributes_wf, W.
Qed.
(** Without skip: the public attributes, or those that are asked for. *)
Theorem C95_keys_partial : forall (V : Type) (a m : object V) none ks, NoDup ks -> (forall k, In k ks -> exists v, plain a k v) ->
  exists l, to_str a m none (Some ks) [] = Ok l /\ map fst l = ks /\ forall k v, In (k, v) l -> plain a k v.
Proof.
  intros V a m none ks N H. destruct (items_keys a m none ks H) as (l & E & F & G).
  exists l. split; auto. unfold to_str. rewrite E. cbn [bind]. f_equal. apply dict_of_nodup. now rewrite F.
Qed.
Print Assumptions C95_skip_is_ignored_refuted.
Print Assumptions C95_keys_partial.
Example C95_not_vacuous :
  to_str someone somewhere 0 None ["age"] = Ok [("unique_id", 1); ("pos", 0); ("name", 60); ("alive", 1); ("age", 33)] /\
  to_str someone somewhere 0 (Some ["age"; "_secret"]) [] = Ok [("age", 33); ("_secret", 9)].
Proof. split; reflexivity. Qed.

(** C96: environments.  Every listed name can be read, membership tells what can be read, get falls back to the
    default, and [str] shows the public attributes. *)
Theorem C96_environment : forall (V : Type) (e : object V), proper e ->
  env_keys e = Ok (map fst (attributes open_name e)) /\
  env_len e = Ok (List.length (attributes open_name e)) /\
  env_dict e = Ok (attributes open_name e) /\
  (forall k v, In (k, v) (attributes open_name e) -> getitem e (Str k) = Ok v /\ contains e (Str k) = Ok true) /\
  (forall k v default, plain e k v -> env_get e (Str k) default = Ok v) /\
  (forall k default, lacks e k -> contains e (Str k) = Ok false /\ getitem e (Str k) = Raise KeyError /\ env_get e (Str k) default = Ok default) /\
  (forall k v, k <> "" -> ~ is_property e k -> exists e', setitem e (Str k) v = Ok e' /\ proper e' /\ getitem e' (Str k) = Ok v).
Proof.
  intros V e W. assert (K := env_keys_eq e (proj2 (proj2 W))). split; [exact K|]. split.
  { unfold env_len. rewrite K. cbn [bind]. now rewrite map_length. }
  split.
  { unfold env_dict. rewrite K. cbn [bind]. rewrite read_all_eq.
    2:{ intros k v I. apply getattr_plain. now apply (attributes_plain open_name). }
    cbn [bind]. f_equal. apply dict_of_nodup. apply attributes_wf, W. }
  split.
  { intros k v I. assert (G := getattr_plain _ _ _ (attributes_plain _ _ _ _ W I)).
    unfold getitem, contains, hasattr. now rewrite G. }
  split.
  { intros k v default P. unfold env_get, getitem, contains, hasattr. now rewrite (getattr_plain _ _ _ P). }
  split.
  { intros k default L. unfold env_get, getitem, contains, hasattr. now rewrite (getattr_lacks _ _ L). }
  intros k v K' N. exists (with_own e (dset k v (own e))). split; [now apply setattr_plain|]. split; [now apply setattr_proper|].
  unfold getitem. erewrite getattr_plain; [reflexivity|]. split; [exact N|]. left. apply dget_set_same.
Qed.
Print Assumptions C96_environment.
Example C96_not_vacuous : proper somewhere /\ env_dict somewhere = Ok [("id", 5); ("temperature", 21)] /\ env_len somewhere = Ok 2 /\
  env_get somewhere (Str "temperature") 0 = Ok 21 /\ env_get somewhere (Str "humidity") 3 = Ok 3 /\ env_get somewhere (Str "_seed") 3 = Ok 2.
Proof. split; [proper_now|]. repeat split. Qed.

(** C97 is false for all environments with agents: what a loop over the environment gives is not in it (the question
    raises TypeError), and its length has nothing to do with the number of agents. *)
Theorem C97_membership_refuted : forall (V A : Type) (e : object V) (agents : list A) x,
  In x (env_iter agents) -> env_contains e x = Raise TypeError.
Proof. intros V A e agents x I. apply in_map_iff in I as (a & <- & _). reflexivity. Qed.
Theorem C97_length_refuted : forall (V A : Type) (e : object V) (agents : list A), proper e ->
  List.length agents <> List.length (attributes open_name e) ->
  env_len e <> Ok (List.length (env_iter agents)).
Proof.
  intros V A e agents W N E. unfold env_len in E. rewrite env_keys_eq in E by apply W. cbn [bind] in E.
  unfold env_iter in E. rewrite !map_length in E. congruence.
Qed.
Print Assumptions C97_membership_refuted.
Print Assumptions C97_length_refuted.
Example C97_not_vacuous : In (Agent 3) (env_iter [1; 3]) /\ env_contains somewhere (Agent 3) = Raise TypeError /\
  env_contains somewhere (Name "id" : member nat) = Ok true /\ env_len somewhere <> Ok (List.length (env_iter [1; 3; 4])).
Proof. split; [right; now left|]. repeat split. discriminate. Qed.

(** Agents of two environments are equal when their public attributes are. *)
Theorem C98_same_attributes : forall (V : Type) (veqb : V -> V -> bool) none (a ma b mb : object V),
  (forall v, veqb v v = true) -> proper a -> proper b -> attributes agent_name a = attributes agent_name b ->
  agent_eqb veqb none a ma b mb = Ok true.
Proof.
  intros V veqb none a ma b mb R A B E. rewrite agent_eqb_eq by auto. rewrite E. f_equal. apply dict_eqb_refl; auto.
  apply attributes_wf, B.
Qed.
(** C98: agents with different ids are different, and equal agents have the same hash. *)
Theorem C98_ids : forall (V H : Type) (veqb : V -> V -> bool) (hash : V -> H) none (a ma b mb : object V) i j,
  (forall v w, veqb v w = true -> hash v = hash w) -> proper a -> proper b ->
  dget "unique_id" (own a) = Some i -> dget "unique_id" (own b) = Some j ->
  (veqb i j = false -> agent_eqb veqb none a ma b mb = Ok false) /\
  (agent_eqb veqb none a ma b mb = Ok true -> agent_hash hash a = Ok (hash i) /\ agent_hash hash b = Ok (hash i)).
Proof.
  intros V H veqb hash none a ma b mb i j C A B I J. rewrite agent_eqb_eq by auto.
  assert (X : In ("unique_id", i) (attributes agent_name a)) by (apply attribute_in; auto).
  assert (G : forall o v, proper o -> dget "unique_id" (own o) = Some v -> agent_hash hash o = Ok (hash v)).
  { intros o v W E. unfold agent_hash. rewrite (getattr_plain o "unique_id" v); [reflexivity|].
    apply proper_plain; auto. now apply dget_in. }
  assert (Y : dict_eqb veqb (attributes agent_name a) (attributes agent_name b) = true -> veqb i j = true).
  { intros E. destruct (dict_eqb_get veqb _ _ _ _ E X) as (w & F & Q).
    apply dget_attributes in F; [|apply B]. congruence. }
  split.
  - intros N. f_equal. destruct (dict_eqb veqb (attributes agent_name a) (attributes agent_name b)); auto. rewrite Y in N; auto.
  - intros E. injection E as E. apply Y in E. rewrite (G a i), (G b j) by auto. now rewrite (C _ _ E).
Qed.
Print Assumptions C98_same_attributes.
Print Assumptions C98_ids.
Definition another : object nat := with_own someone (dset "unique_id" 2 (own someone)).
Definition twin : object nat := with_own someone (dset "model" 51 (own someone)).
Example C98_not_vacuous : proper another /\ agent_eqb Nat.eqb 0 someone somewhere another somewhere = Ok false /\
  proper twin /\ agent_eqb Nat.eqb 0 someone somewhere twin somewhere = Ok true.
Proof. split; [proper_now|]. split; [reflexivity|]. split; [proper_now|reflexivity]. Qed.
