(** Proofs for CustomProps.v. *)
From Coq Require Import ZArith List Bool Arith Ascii String Lia.
From Verif Require Import PyDict AgentModel AgentSpec AgentProofs FsmModel FsmSpec FsmProofs SerialModel SerialSpec SerialProofs CustomModel CustomSpec.
Import ListNotations.
Local Open Scope string_scope.
Local Open Scope list_scope.

(** * Attributes *)
Section Attributes.
Context {V : Type} (is_function legal_step : V -> bool) (as_dict : V -> option (dict string V)).
Notation keyword := (keyword is_function legal_step as_dict).
Notation keywords := (keywords is_function legal_step as_dict).
Notation custom := (custom is_function legal_step as_dict).

Lemma body_value_app k (l1 l2 : list (item V)) :
  body_value k (l1 ++ l2) = match body_value k l2 with Some v => Some v | None => body_value k l1 end.
Proof.
  induction l1 as [|i l1 IH]; cbn [app body_value]; [destruct (body_value k l2); auto|].
  rewrite IH. destruct (body_value k l2); auto.
Qed.
Lemma keyword_public k v : public_name k -> is_function v = false -> keyword k v = Some [IAttr k v].
Proof.
  intros (A & B & C & D) F. unfold CustomModel.keyword. destruct (String.eqb_spec k "step"); [congruence|]. rewrite F.
  destruct k as [|c s]; [congruence|]. cbn [private_name]. destruct (Ascii.eqb_spec c "_"); [subst; destruct (B s eq_refl)|].
  now destruct (String.eqb_spec (String c s) "defaults").
Qed.
Lemma keyword_other k v k' l : k <> "defaults" -> k <> k' -> keyword k v = Some l -> body_value k' l = None.
Proof.
  intros A B. unfold CustomModel.keyword. destruct (String.eqb k "step"); [destruct (legal_step v); intros E; now inversion E|].
  destruct (is_function v); [intros E; now inversion E|]. destruct (private_name k) as [[|]|]; try (intros E; now inversion E).
  destruct (String.eqb_spec k "defaults"); [congruence|]. intros E. inversion E. cbn.
  destruct (String.eqb_spec k' k); congruence.
Qed.
Lemma keywords_other kw : forall l k, keywords kw = Some l -> dget "defaults" kw = None -> dget k kw = None -> body_value k l = None.
Proof.
  induction kw as [|[k' v'] kw IH]; intros l k; [intros E; now inversion E|]. cbn [CustomModel.keywords dget].
  destruct (eqb "defaults" k') eqn:E1; [discriminate|]. destruct (eqb k k') eqn:E2; [discriminate|].
  apply eqb_neq in E1, E2. intros E D G. destruct (keyword k' v') as [a|] eqn:K; [|discriminate].
  destruct (keywords kw) as [b|] eqn:Ks; [|discriminate]. injection E as <-.
  rewrite body_value_app, (IH b k eq_refl D G). apply (keyword_other k' v' k a); auto.
Qed.
Lemma keywords_get kw : forall l k v, dwf kw -> keywords kw = Some l -> dget "defaults" kw = None -> public_name k ->
  dget k kw = Some v -> is_function v = false -> body_value k l = Some v.
Proof.
  induction kw as [|[k' v'] kw IH]; intros l k v N; [discriminate|]. cbn [CustomModel.keywords dget].
  destruct (eqb "defaults" k') eqn:E1; [discriminate|]. intros E D P G F.
  destruct (keyword k' v') as [a|] eqn:K; [|discriminate]. destruct (keywords kw) as [b|] eqn:Ks; [|discriminate]. injection E as <-.
  inversion N as [|? ? N1 N2]; subst. rewrite body_value_app. destruct (eqb k k') eqn:E2.
  - apply eqb_eq in E2. subst k'. injection G as ->. rewrite (keywords_other kw b k Ks D) by (apply dget_none; exact N1).
    rewrite (keyword_public k v P F) in K. injection K as <-. cbn. now rewrite String.eqb_refl.
  - now rewrite (IH b k v N2 eq_refl D P G F).
Qed.
Lemma custom_defaults i c kw c' k v : custom i c kw = Some c' -> dwf kw -> dget "defaults" kw = None -> public_name k ->
  dget k kw = Some v -> is_function v = false -> dget k (defaults c') = Some v.
Proof.
  unfold CustomModel.custom. destruct (keywords kw) as [own|] eqn:E; [|discriminate]. intros X N D P G F. injection X as <-.
  rewrite defaults_get. now rewrite (keywords_get kw own k v N E D P G F).
Qed.
Lemma custom_defaults_other i c kw c' k : custom i c kw = Some c' -> dget "defaults" kw = None ->
  dget k kw = None -> dget k (defaults c') = dget k (defaults c).
Proof.
  unfold CustomModel.custom. destruct (keywords kw) as [own|] eqn:E; [|discriminate]. intros X D G. injection X as <-.
  rewrite defaults_get. rewrite (keywords_other kw own k E D G). cbn. now destruct (dget k (defaults c)).
Qed.
(** Arguments that are functions or private do not change the defaults. *)
Lemma keyword_function k v l : is_function v = true -> keyword k v = Some l -> l = [].
Proof.
  intros F. unfold CustomModel.keyword. rewrite F. destruct (String.eqb k "step"); [|intros E; now inversion E].
  destruct (legal_step v); intros E; now inversion E.
Qed.
End Attributes.

(** The attribute of an object whose class has that name. *)
Section Init.
Context {C : Type} (class_attr : string -> option val) (model_attr : string -> val) (read_only : string -> bool).
Lemma from_defaults_class ds : forall d (h : list C) d' h' k v, class_attr k = Some v -> v <> VNone ->
  from_defaults class_attr read_only ds d h = Some (d', h') -> dget k d = None -> dget k d' = None.
Proof.
  induction ds as [|[k' v'] ds IH]; intros d h d' h' k v CA NN; cbn [from_defaults]; [intros E; now inversion E|].
  destruct (match lookup class_attr d k' with None => true | Some v0 => is_VNone v0 end) eqn:M.
  - destruct (deepcopy h v') as [h1 v1]. destruct (setattr read_only d k' v1) as [d1|] eqn:S; [|discriminate].
    intros E G. eapply IH; eauto. rewrite (setattr_get read_only d k' v1 d1 k S).
    destruct (eqb k k') eqn:X; auto. apply eqb_eq in X. subst k'. unfold lookup in M. rewrite G, CA in M.
    destruct v; discriminate || congruence.
  - intros E G. eapply IH; eauto.
Qed.
Lemma init_class ds unique_id model name logger kw (h : list C) d h' k v :
  base_init class_attr model_attr read_only ds unique_id model name logger kw h = Some (d, h') -> dwf kw ->
  class_attr k = Some v -> v <> VNone -> model_attr k = VNone -> dget k kw = None -> ~ In k preset -> dget k d = None.
Proof.
  unfold base_init. set (d0 := [("unique_id", _); _; _; _; _; _]). intros E N CA NN M G P.
  destruct (from_model model_attr read_only (dkeys ds) d0) as [d1|] eqn:E1; [|discriminate].
  destruct (from_defaults class_attr read_only ds d1 h) as [[d2 h2]|] eqn:E2; [|discriminate].
  destruct (from_kwargs read_only kw d2) as [d3|] eqn:E3; [|discriminate]. injection E as <- <-.
  rewrite (from_kwargs_get read_only kw d2 d3 k N E3), G.
  apply (from_defaults_class ds d1 h d2 h2 k v CA NN E2).
  assert (X := from_model_get model_attr read_only (dkeys ds) d0 d1 k E1). rewrite X.
  rewrite M. cbn [is_VNone].
  assert (Y : dget k d0 = None). { apply dget_none. intros I. apply P. cbn in I |- *. intuition. }
  destruct (existsb _ _); cbn; auto.
Qed.
End Init.

(** * States *)
Section States.
Context {F : Type}.
Notation st := (state F).
Lemma inherited_table (d : dict string st) : forall acc,
  fst (fold_left (fun acc kv => (dset (fst kv) (snd kv) (fst acc), if st_default (snd kv) then Some (snd kv) else snd acc)) d acc) =
  dupdate (fst acc) d.
Proof.
  induction d as [|[k s] d IH]; intros acc; [reflexivity|]. cbn [fold_left]. rewrite IH. cbn [fst snd]. now rewrite dupdate_cons.
Qed.
Lemma inherited_default (d : dict string st) : forall acc o,
  (forall n s, In (n, s) d -> st_default s = true -> o = Some s) ->
  snd (fold_left (fun acc kv => (dset (fst kv) (snd kv) (fst acc), if st_default (snd kv) then Some (snd kv) else snd acc)) d acc) =
  if existsb (fun kv => st_default (snd kv)) d then o else snd acc.
Proof.
  induction d as [|[k s] d IH]; intros acc o H; [reflexivity|]. cbn [fold_left]. rewrite (IH _ o).
  2:{ intros n s' I. apply (H n). now right. }
  cbn [existsb snd]. destruct (st_default s) eqn:D; cbn [orb]; [|reflexivity].
  rewrite (H k s) by (auto; now left). now destruct (existsb _ d).
Qed.
Lemma plain_own (own : list (option st)) : (forall o, In o own -> o = None) -> forall acc,
  fold_left (fun acc o => match o with Some s => add_state acc s | None => acc end) own acc = acc.
Proof.
  induction own as [|o own IH]; intros H acc; [reflexivity|]. cbn [fold_left]. rewrite (H o) by now left. apply IH. intros. apply H. now right.
Qed.
Lemma meta_wf (c : cls (option st)) : dwf (fst (meta c)).
Proof. rewrite meta_defaults. apply defaults_wf. Qed.
Lemma custom_table i (c : cls (option st)) kw : (forall o, In o kw -> o = None) -> fst (meta (custom_fsm i c kw)) = fst (meta c).
Proof.
  intros H. unfold custom_fsm. cbn [meta fold_left]. rewrite plain_own by exact H. rewrite inherited_table. cbn [fst].
  apply dict_of_nodup. exact (meta_wf c).
Qed.
Lemma custom_default i (c : cls (option st)) kw : (forall o, In o kw -> o = None) ->
  (forall n s, dget n (fst (meta c)) = Some s -> st_default s = true -> snd (meta c) = Some s) ->
  (forall s, snd (meta c) = Some s -> exists n s', dget n (fst (meta c)) = Some s' /\ st_default s' = true) ->
  snd (meta (custom_fsm i c kw)) = snd (meta c).
Proof.
  intros H A B. unfold custom_fsm. cbn [meta fold_left]. rewrite plain_own by exact H.
  rewrite (inherited_default _ _ (snd (meta c))).
  2:{ intros n s I D. apply (A n s); auto. apply dget_in_wf; auto. apply meta_wf. }
  destruct (existsb _ _) eqn:E; [reflexivity|]. destruct (snd (meta c)) as [s|]; [|reflexivity].
  destruct (B s eq_refl) as (n & s' & G & D). apply dget_in in G.
  assert (X : existsb (fun kv => st_default (snd kv)) (fst (meta c)) = true) by (apply existsb_exists; exists (n, s'); auto). congruence.
Qed.
End States.

(** * Names *)
Section Names.
Context {O : Type} (import : string -> option (dict string O)) (builtins : dict string O) (eval : string -> option O) (hook : O -> option O).
Notation registry := (dict string (option (dict string O))).
Implicit Types (r : registry).
Lemma usable_with_hook o : usable hook o (with_hook hook o).
Proof. unfold usable, with_hook. destruct (hook o) eqn:E; auto. Qed.
Lemma try_found l : forall r o, fst (try_options import hook l r) = Found o -> exists k n x, has import r k n x /\ usable hook x o.
Proof.
  induction l as [|[k n] l IH]; intros r o; [discriminate|]. cbn [try_options]. destruct (get_module_eq import k r) as [E G].
  destruct (get_module import k r) as [m r']. cbn [fst snd] in *. subst m.
  destruct (contents import r k) as [m|] eqn:C.
  - destruct (dget n m) as [x|] eqn:D.
    + intros F. cbn in F. injection F as <-. exists k, n, x. split; [now exists m|apply usable_with_hook].
    + intros F. apply IH in F as (k' & n' & x & H & U). exists k', n', x. split; auto. now apply (grows_has import _ _ _ _ _ G).
  - intros F. apply IH in F as (k' & n' & x & H & U). exists k', n', x. split; auto. now apply (grows_has import _ _ _ _ _ G).
Qed.
Lemma deserializer_found s l r o : fst (deserializer import builtins hook s l r) = Found o ->
  exists k n x, has import r k n x /\ usable hook x o.
Proof.
  unfold deserializer. destruct (String.eqb s "str"); [discriminate|]. destruct (String.eqb s "None"); [discriminate|].
  destruct (dget s builtins); [discriminate|]. destruct (is_class s) as [q|]; [|apply try_found].
  destruct (rsplit q) as [[m t]|]; [|discriminate]. destruct (get_module_eq import m r) as [E _].
  destruct (get_module import m r) as [y r']. cbn [fst] in E. subst y. destruct (contents import r m) as [d|] eqn:C; [|discriminate].
  destruct (dget t d) as [x|] eqn:D; [|discriminate]. intros F. cbn in F. injection F as <-.
  exists m, t, x. split; [now exists d|apply usable_with_hook].
Qed.
Lemma deserialize_found s r o : fst (deserialize import builtins eval hook s r) = Found o ->
  (exists k n x, has import r k n x /\ usable hook x o) \/ eval s = Some o.
Proof.
  unfold deserialize. assert (F := deserializer_found s (dkeys r) r o).
  destruct (deserializer import builtins hook s (dkeys r) r) as [[| | |x| |] r']; cbn [fst] in *; try discriminate; auto.
  destruct (eval s) as [x|]; [|discriminate]. cbn. intros E. injection E as <-. auto.
Qed.
Lemma never_found s r r' o : grows import r r' -> unreachable import eval hook r o ->
  fst (deserialize import builtins eval hook s r') <> Found o.
Proof.
  intros G [U E] F. apply deserialize_found in F as [(k & n & x & H & X)|F]; [|now apply (E s)].
  apply (U k n x); auto. now apply (grows_has import _ _ _ _ _ G).
Qed.

(** The list of modules of [_serialize_type]. *)
Lemma known_repeat n k : forall r, fst (known_name import n (repeat k (S (S 0))) r) = fst (known_name import n [k] r).
Proof.
  intros r. cbn [repeat known_name]. destruct (get_module_eq import k r) as [E G].
  destruct (get_module import k r) as [x r1]. cbn [fst snd] in *. subst x.
  destruct (contents import r k) as [m|] eqn:C; [|reflexivity]. destruct (dhas n m) eqn:D; [reflexivity|].
  destruct (get_module_eq import k r1) as [E1 _]. destruct (get_module import k r1) as [y r2]. cbn [fst] in E1. subst y.
  rewrite (proj2 G), C, D. reflexivity.
Qed.
Lemma known_repeats n k j : forall r, fst (known_name import n (repeat k (S j)) r) = fst (known_name import n [k] r).
Proof.
  induction j as [|j IH]; intros r; [reflexivity|].
  cbn [repeat known_name] in *. destruct (get_module_eq import k r) as [E G].
  destruct (get_module import k r) as [x r1]. cbn [fst snd] in *. subst x.
  destruct (contents import r k) as [m|] eqn:C; [|reflexivity]. destruct (dhas n m) eqn:D; [reflexivity|].
  rewrite (IH r1). destruct (get_module_eq import k r1) as [E1 _]. destruct (get_module import k r1) as [y r2]. cbn [fst] in E1. subst y.
  rewrite (proj2 G), C, D. reflexivity.
Qed.
Lemma existsb_repeat {X} (f : X -> bool) x j : existsb f (repeat x (S j)) = existsb f [x].
Proof. induction j as [|j IH]; [reflexivity|]. cbn [repeat existsb] in *. rewrite IH. now destruct (f x). Qed.
Lemma name_repeats c k j r : fst (name import builtins c (repeat k (S j)) r) = fst (name import builtins c [k] r).
Proof.
  unfold name. destruct (dhas (c_name c) builtins); [reflexivity|]. destruct (String.eqb (c_module c) "__main__"); [reflexivity|].
  rewrite existsb_repeat. destruct (existsb _ [k]); [reflexivity|].
  assert (E := known_repeats (c_name c) k j r).
  destruct (known_name import (c_name c) (repeat k (S j)) r) as [x r1]. destruct (known_name import (c_name c) [k] r) as [y r2].
  cbn [fst] in E. subst y. now destruct x as [[|]|].
Qed.
(** The name of a class does not depend on what is registered, as long as the modules are the same. *)
Lemma known_same n l : forall r r', (forall k, contents import r k = contents import r' k) ->
  fst (known_name import n l r) = fst (known_name import n l r').
Proof.
  induction l as [|k l IH]; intros r r' H; [reflexivity|]. cbn [known_name].
  destruct (get_module_eq import k r) as [E G]. destruct (get_module import k r) as [x r1].
  destruct (get_module_eq import k r') as [E' G']. destruct (get_module import k r') as [x' r1']. cbn [fst snd] in *.
  subst x x'. rewrite (H k). destruct (contents import r' k) as [m|]; [|reflexivity]. destruct (dhas n m); [reflexivity|].
  apply IH. intros j. rewrite (proj2 G), (proj2 G'). apply H.
Qed.
Lemma name_same c l r r' : (forall k, contents import r k = contents import r' k) ->
  fst (name import builtins c l r) = fst (name import builtins c l r').
Proof.
  intros H. unfold name. destruct (dhas (c_name c) builtins); [reflexivity|]. destruct (String.eqb (c_module c) "__main__"); [reflexivity|].
  destruct (existsb _ l); [reflexivity|]. assert (E := known_same (c_name c) l r r' H).
  destruct (known_name import (c_name c) l r) as [x r1]. destruct (known_name import (c_name c) l r') as [y r2].
  cbn [fst] in E. subst y. now destruct x as [[|]|].
Qed.
Lemma serialize_types_spec calls : forall j r l default r', (forall k, In k calls -> snd k = None) ->
  serialize_types import builtins calls (repeat "soil.agents" j) r = (l, default, r') ->
  grows import r r' /\ (exists j', default = repeat "soil.agents" j') /\
  map fst l = map (fun c => match fst c with
                            | TName s => Some s
                            | TClass c => fst (name import builtins c ["soil.agents"] r)
                            end) calls.
Proof.
  induction calls as [|[c own] calls IH]; intros j r l default r' H E; cbn [serialize_types] in E.
  - injection E as <- <- <-. split; [apply grows_refl|]. split; [now exists j|reflexivity].
  - assert (own = None) by (apply (H (c, own)); now left). subst own.
    assert (H' : forall k, In k calls -> snd k = None) by (intros; apply H; now right).
    destruct c as [s|c]; cbn [serialize_type] in E.
    + destruct (serialize_types import builtins calls (repeat "soil.agents" j) r) as [[l2 d2] r2] eqn:E2. injection E as <- <- <-.
      destruct (IH _ _ _ _ _ H' E2) as (A & B & D). split; auto. split; auto. cbn [map fst]. now rewrite D.
    + replace (repeat "soil.agents" j ++ ["soil.agents"]) with (repeat "soil.agents" (S j)) in E.
      2:{ cbn [repeat]. apply repeat_cons. }
      assert (N := name_repeats c "soil.agents" j r). assert (G := name_grows import builtins c (repeat "soil.agents" (S j)) r).
      destruct (name import builtins c (repeat "soil.agents" (S j)) r) as [n r1]. cbn [fst snd] in *.
      destruct (serialize_types import builtins calls (repeat "soil.agents" (S j)) r1) as [[l2 d2] r2] eqn:E2. injection E as <- <- <-.
      destruct (IH _ _ _ _ _ H' E2) as (A & B & D). split; [eapply grows_trans; eauto|]. split; auto. cbn [map fst]. rewrite N, D. f_equal.
      apply map_ext. intros [[s|c'] o]; cbn [fst]; [reflexivity|]. apply name_same. intros k. apply (proj2 G).
Qed.

(** There and back. *)
Lemma type_round_trip r c f : usable hook (c_object c) f -> ordinary builtins (c_name c) -> c_module c <> "__main__" ->
  (forall s, c_module c <> String "<" s) -> plain_names import builtins r -> contents import r "soil.agents" <> None ->
  has import r (c_module c) (c_name c) (c_object c) ->
  (forall k o, In k ["soil.agents"; "soil.agents.custom"] -> has import r k (c_name c) o -> o = c_object c) ->
  exists n, fst (name import builtins c ["soil.agents"] r) = Some n /\
    forall r', grows import r r' -> fst (deserialize_type import builtins hook n [] r') = Found f.
Proof.
  intros U Q M M1 P I H S. rewrite <- (usable_hook hook (c_object c) f U).
  assert (Q' := Q). destruct Q' as (Q1 & Q2 & Q3 & Q4 & Q5).
  assert (short : forall r', grows import r r' -> (exists k o, In k ["soil.agents"; "soil.agents.custom"] /\ has import r k (c_name c) o) ->
    fst (deserialize_type import builtins hook (c_name c) [] r') = Found (with_hook hook (c_object c))).
  { intros r' G X. unfold deserialize_type, deserializer. cbn [app filter map String.eqb negb].
    destruct (String.eqb_spec (c_name c) "str"); [congruence|]. destruct (String.eqb_spec (c_name c) "None"); [congruence|].
    rewrite Q3, (is_class_other (c_name c) Q5), (rsplit_no_dot (c_name c) Q4).
    cbn. destruct (get_module_eq import "soil.agents" r') as [E1 G1]. destruct (get_module import "soil.agents" r') as [x1 r1].
    cbn [fst snd] in *. subst x1. rewrite (proj2 G). destruct (contents import r "soil.agents") as [m|] eqn:C; [|congruence].
    destruct (dget (c_name c) m) as [o|] eqn:D.
    { cbn. rewrite (S "soil.agents" o); auto; [now left|now exists m]. }
    destruct (get_module_eq import "soil.agents.custom" r1) as [E2 _]. destruct (get_module import "soil.agents.custom" r1) as [x2 r2].
    cbn [fst snd] in *. subst x2. rewrite (proj2 G1), (proj2 G).
    destruct X as (k & o & [<-|[<-|[]]] & (m' & C' & D')); [congruence|]. rewrite C', D'. cbn.
    rewrite (S "soil.agents.custom" o); auto; [now right; left|now exists m']. }
  unfold name. rewrite dhas_get, Q3. destruct (String.eqb_spec (c_module c) "__main__"); [congruence|].
  destruct (existsb (String.eqb (c_module c)) ["soil.agents"]) eqn:E.
  - exists (c_name c). split; [reflexivity|]. intros r' G. apply short; auto. cbn in E. rewrite orb_false_r in E. apply String.eqb_eq in E.
    exists "soil.agents", (c_object c). split; [now left|]. now rewrite <- E.
  - destruct (known_name_eq import (c_name c) ["soil.agents"] r) as (b & F & X).
    { intros k [<-|[]]. exact I. }
    destruct (known_name import (c_name c) ["soil.agents"] r) as [y r1]. cbn [fst] in F. subst y. destruct b.
    + exists (c_name c). split; [reflexivity|]. intros r' G. apply short; auto. destruct (proj1 X eq_refl) as (k & o & [<-|[]] & K).
      exists "soil.agents", o. split; [now left|exact K].
    + exists (c_module c ++ "." ++ c_name c)%string. split; [reflexivity|]. intros r' G. unfold deserialize_type, deserializer.
      assert (ND : ~ no_dot (c_module c ++ "." ++ c_name c)%string) by apply no_dot_app.
      destruct (String.eqb_spec (c_module c ++ "." ++ c_name c) "str") as [Z|_]; [exfalso; apply ND; rewrite Z; cbn; intuition discriminate|].
      destruct (String.eqb_spec (c_module c ++ "." ++ c_name c) "None") as [Z|_]; [exfalso; apply ND; rewrite Z; cbn; intuition discriminate|].
      rewrite (builtin_dotted import builtins r _ P ND).
      rewrite (is_class_other (c_module c ++ "." ++ c_name c)).
      2:{ intros s Z. destruct (c_module c) as [|a q]; [cbn in Z; discriminate|]. cbn in Z. injection Z as -> _. now apply (M1 q). }
      rewrite (rsplit_dot (c_module c) (c_name c) Q4). cbn [app filter map String.eqb negb].
      destruct (try_skip import hook [("soil.agents", (c_module c ++ "." ++ c_name c)%string); ("soil.agents.custom", (c_module c ++ "." ++ c_name c)%string)]
                  [(c_module c, c_name c)] r') as (r2 & G2 & E2).
      { intros k n' J. apply (grows_has_not import r r' k n' G). destruct J as [J|[J|[]]]; injection J as <- <-; now apply (has_dotted import builtins). }
      cbn [app] in E2. rewrite E2. apply try_has. apply (grows_has import _ _ _ _ _ G2). now apply (grows_has import _ _ _ _ _ G).
Qed.
End Names.
