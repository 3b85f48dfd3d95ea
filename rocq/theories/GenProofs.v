(** Proofs for GenProps.v. *)
From Coq Require Import List Bool Arith String Lia.
From Verif Require Import PyDict SerialModel SerialSpec SerialProofs GenModel GenSpec.
Import ListNotations.
Local Open Scope string_scope.
Local Open Scope list_scope.

Lemma opt_eqb_eq a b : opt_eqb a b = true <-> a = b.
Proof.
  destruct a as [x|], b as [y|]; cbn; split; intros E; try discriminate; auto.
  - apply String.eqb_eq in E. now subst.
  - injection E as ->. apply String.eqb_refl.
Qed.
Lemma extend_in d p : In d (extend_path d p).
Proof.
  unfold extend_path. destruct (existsb (opt_eqb d) p) eqn:E; [|apply in_app_iff; right; now left].
  apply existsb_exists in E as (x & I & E). apply opt_eqb_eq in E. now subst.
Qed.
Lemma extend_again d p : extend_path d (extend_path d p) = extend_path d p.
Proof.
  unfold extend_path at 1. destruct (existsb (opt_eqb d) (extend_path d p)) eqn:E; [reflexivity|].
  assert (X : existsb (opt_eqb d) (extend_path d p) = true).
  { apply existsb_exists. exists d. split; [apply extend_in|now apply opt_eqb_eq]. }
  congruence.
Qed.
Lemma extend_cases d p : (In d p /\ extend_path d p = p) \/ (~ In d p /\ extend_path d p = p ++ [d]).
Proof.
  unfold extend_path. destruct (existsb (opt_eqb d) p) eqn:E.
  - left. split; auto. apply existsb_exists in E as (x & I & E). apply opt_eqb_eq in E. now subst.
  - right. split; auto. intros I. assert (X : existsb (opt_eqb d) p = true); [|congruence].
    apply existsb_exists. exists d. split; [exact I|now apply opt_eqb_eq].
Qed.

Section Lookup.
Context {O : Type} (import : string -> option (dict string O)) (builtins : dict string O) (hook : O -> option O).
Notation registry := (dict string (option (dict string O))).
Definition method (g : generator O) (r : registry) : found O * registry :=
  match g with GObject o => (Found o, r) | GName s => deserializer import builtins hook s ["networkx.generators"] r end.
Lemma deserializer_grows s l (r : registry) : grows import r (snd (deserializer import builtins hook s l r)).
Proof.
  unfold deserializer. destruct (String.eqb s "str"); [apply grows_refl|]. destruct (String.eqb s "None"); [apply grows_refl|].
  destruct (dget s builtins); [apply grows_refl|]. destruct (is_class s) as [q|]; [|apply try_grows].
  destruct (rsplit q) as [[m t]|]; [|apply grows_refl]. destruct (get_module_eq import m r) as [_ G].
  destruct (get_module import m r) as [[d|] r']; cbn [snd] in G; [destruct (dget t d)|]; exact G.
Qed.
Lemma method_found g (r r' : registry) o : stands_for import builtins hook r g o -> grows import r r' ->
  fst (method g r') = Found o /\ grows import r (snd (method g r')).
Proof.
  intros S G. split.
  2:{ eapply grows_trans; [exact G|]. destruct g as [s|x]; cbn [method]; [apply deserializer_grows|apply grows_refl]. }
  destruct S as [o|s x o Q H U|m t x o P N1 N2 N3 H U]; cbn [method]; [reflexivity| |]; rewrite <- (usable_hook hook x o U).
  - destruct Q as (Q1 & Q2 & Q3 & Q4 & Q5). unfold deserializer.
    destruct (String.eqb_spec s "str"); [congruence|]. destruct (String.eqb_spec s "None"); [congruence|].
    rewrite Q3, (is_class_other s Q5), (rsplit_no_dot s Q4). cbn [filter map String.eqb negb]. apply try_has.
    now apply (grows_has import _ _ _ _ _ G).
  - assert (ND : ~ no_dot (m ++ "." ++ t)%string) by apply no_dot_app. unfold deserializer.
    destruct (String.eqb_spec (m ++ "." ++ t) "str") as [Z|_]; [exfalso; apply ND; rewrite Z; cbn; intuition discriminate|].
    destruct (String.eqb_spec (m ++ "." ++ t) "None") as [Z|_]; [exfalso; apply ND; rewrite Z; cbn; intuition discriminate|].
    rewrite (builtin_dotted import builtins r _ P ND). rewrite (is_class_other (m ++ "." ++ t)).
    2:{ intros s Z. destruct m as [|a q]; [congruence|]. cbn in Z. injection Z as -> _. now apply (N2 q). }
    rewrite (rsplit_dot m t N1). cbn [app filter map String.eqb negb].
    destruct (try_skip import hook [("networkx.generators", (m ++ "." ++ t)%string)] [(m, t)] r') as (r2 & G2 & E2).
    { intros k n' J. apply (grows_has_not import r r' k n' G). destruct J as [J|[]]; injection J as <- <-; now apply (has_dotted import builtins). }
    cbn [app] in E2. change (filter (fun md : string => negb (String.eqb md "")) ["networkx.generators"]) with ["networkx.generators"].
    cbn [map app]. rewrite E2. apply try_has. apply (grows_has import _ _ _ _ _ G2). now apply (grows_has import _ _ _ _ _ G).
Qed.
End Lookup.

Section Create.
Context {O V W Gr : Type} (accepts : O -> list string -> bool) (body : O -> dict string V -> W -> W * result Gr).
Context (import : list (option string) -> string -> option (dict string O)) (builtins : dict string O) (hook : O -> option O).
Notation registry := (dict string (option (dict string O))).
Notation from_params := (from_params accepts body import builtins hook).
Notation create_network := (create_network accepts body import builtins hook).
Lemma from_params_found g d params p (r r0 : registry) w o : stands_for (import (extend_path d p)) builtins hook r0 g o ->
  grows (import (extend_path d p)) r0 r ->
  exists r', grows (import (extend_path d p)) r0 r' /\
    from_params g d params p r w = (let '(w', x) := call accepts body o params w in (extend_path d p, r', w', x)).
Proof.
  intros S G. destruct (method_found _ _ _ g r0 r o S G) as [F G']. exists (snd (method (import (extend_path d p)) builtins hook g r)).
  split; [exact G'|]. unfold GenModel.from_params.
  replace (match g with GName s => deserializer (import (extend_path d p)) builtins hook s ["networkx.generators"] r | GObject o0 => (Found o0, r) end)
    with (method (import (extend_path d p)) builtins hook g r) by (destruct g; reflexivity).
  destruct (method (import (extend_path d p)) builtins hook g r) as [f r1]. cbn [fst snd] in *. subst f. reflexivity.
Qed.
Lemma create_found g dir seed params p (r : registry) w o :
  stands_for (import (extend_path (Some dir) p)) builtins hook r g o -> dget "seed" params = None -> dget "dir_path" params = None ->
  exists r', grows (import (extend_path (Some dir) p)) r r' /\
    create_network None None (Some g) dir seed params p r w =
    (let '(w', x) := match call accepts body o (("seed", seed) :: params) w with
                     | (w1, RTypeError) => call accepts body o params w1
                     | y => y
                     end in (extend_path (Some dir) p, r', w', x)).
Proof.
  intros S A B. unfold GenModel.create_network. rewrite !dhas_get, A, B. cbn [orb].
  destruct (from_params_found g (Some dir) (("seed", seed) :: params) p r r w o S (grows_refl _ r)) as (r1 & G1 & E1). rewrite E1.
  destruct (call accepts body o (("seed", seed) :: params) w) as [w1 x1]. destruct x1; try (exists r1; split; [exact G1|reflexivity]).
  assert (S' := S). rewrite <- (extend_again (Some dir) p) in S'. assert (G1' := G1). rewrite <- (extend_again (Some dir) p) in G1'.
  destruct (from_params_found g (Some dir) params (extend_path (Some dir) p) r1 r w1 o S' G1') as (r2 & G2 & E2).
  rewrite (extend_again (Some dir) p) in G2, E2. exists r2. split; [exact G2|exact E2].
Qed.
End Create.
Section Others.
Context {O V W Gr : Type} (accepts : O -> list string -> bool) (body : O -> dict string V -> W -> W * result Gr).
Context (import : list (option string) -> string -> option (dict string O)) (builtins : dict string O) (hook : O -> option O).
Notation registry := (dict string (option (dict string O))).
Notation from_params := (from_params accepts body import builtins hook).
Notation create_network := (create_network accepts body import builtins hook).
Lemma from_params_path g d params p (r : registry) w :
  let '(p', r', _, _) := from_params g d params p r w in p' = extend_path d p /\ grows (import (extend_path d p)) r r'.
Proof.
  unfold GenModel.from_params. destruct g as [s|o].
  - assert (G := deserializer_grows (import (extend_path d p)) builtins hook s ["networkx.generators"] r).
    destruct (deserializer _ _ _ _ _ _) as [f r']. destruct (call_found _ _ _ _ _) as [w' x]. auto.
  - destruct (call_found _ _ _ _ _) as [w' x]. split; [reflexivity|apply grows_refl].
Qed.
Lemma create_path g dir seed params p (r : registry) w : dget "seed" params = None -> dget "dir_path" params = None ->
  let '(p', _, _, _) := create_network None None (Some g) dir seed params p r w in p' = extend_path (Some dir) p.
Proof.
  intros A B. unfold GenModel.create_network. rewrite !dhas_get, A, B. cbn [orb].
  assert (P := from_params_path g (Some dir) (("seed", seed) :: params) p r w).
  destruct (from_params g (Some dir) (("seed", seed) :: params) p r w) as [[[p1 r1] w1] x1]. destruct P as [-> G].
  destruct x1; try reflexivity.
  assert (P := from_params_path g (Some dir) params (extend_path (Some dir) p) r1 w1).
  destruct (from_params g (Some dir) params (extend_path (Some dir) p) r1 w1) as [[[p2 r2] w2] x2]. destruct P as [-> _]. apply extend_again.
Qed.
Lemma missing s p' (r : registry) : ordinary builtins s -> has_not (import p') r "networkx.generators" s ->
  fst (deserializer (import p') builtins hook s ["networkx.generators"] r) = RaisesValueError.
Proof.
  intros (Q1 & Q2 & Q3 & Q4 & Q5) H. unfold deserializer.
  destruct (String.eqb_spec s "str"); [congruence|]. destruct (String.eqb_spec s "None"); [congruence|].
  rewrite Q3, (is_class_other s Q5), (rsplit_no_dot s Q4).
  destruct (try_skip (import p') hook [("networkx.generators", s)] [] r) as (r2 & _ & E).
  { intros k n' [J|[]]. injection J as <- <-. exact H. }
  cbn [app] in E. cbn [filter map String.eqb negb app].
  change (filter (fun md : string => negb (String.eqb md "")) ["networkx.generators"]) with ["networkx.generators"].
  cbn [map]. rewrite E. reflexivity.
Qed.
Lemma create_missing s dir seed params p (r : registry) w :
  dget "seed" params = None -> dget "dir_path" params = None ->
  ordinary builtins s -> has_not (import (extend_path (Some dir) p)) r "networkx.generators" s ->
  let '(_, _, w', x) := create_network None None (Some (GName s)) dir seed params p r w in w' = w /\ x = RRaises.
Proof.
  intros A B Q H. unfold GenModel.create_network. rewrite !dhas_get, A, B. cbn [orb]. unfold GenModel.from_params.
  assert (F := missing s _ r Q H). destruct (deserializer _ _ _ _ _ _) as [f r']. cbn [fst] in F. subst f. cbn. auto.
Qed.
Lemma create_builtin s x dir seed p (r : registry) w : s <> "str" -> s <> "None" -> dget s builtins = Some x ->
  create_network None None (Some (GName s)) dir seed [] p r w = (extend_path (Some dir) p, r, w, ROther).
Proof.
  intros N1 N2 D. unfold GenModel.create_network, GenModel.from_params, deserializer. cbn [dhas orb].
  destruct (String.eqb_spec s "str"); [congruence|]. destruct (String.eqb_spec s "None"); [congruence|]. rewrite D.
  cbn. now rewrite extend_again.
Qed.
End Others.
