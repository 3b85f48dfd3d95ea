(** C222 to C224: networks made by generators (soil/network.py:42-53, soil/environment.py:303-320). *)
From Coq Require Import List Bool Arith Ascii String Lia.
From Verif Require Import PyDict SerialModel SerialSpec SerialProofs GenModel GenSpec GenProofs.
Import ListNotations.
Local Open Scope string_scope.
Local Open Scope list_scope.

(** * C222: the generator is called once, with the parameters and the random generator of the model *)
(** C222 is false: if a generator that takes a seed raises a TypeError, for instance because of a wrong value of a parameter, it is
    called again, without the seed.  What it makes then does not come from the random generator of the model. *)
Theorem C222_again_refuted : forall O V W Gr accepts (body : O -> dict string V -> W -> W * result Gr) import builtins hook
    g dir seed params p r w o w1 w2 x,
  stands_for (import (extend_path (Some dir) p)) builtins hook r g o -> dget "seed" params = None -> dget "dir_path" params = None ->
  accepts o ("seed" :: dkeys params) = true -> accepts o (dkeys params) = true ->
  body o (("seed", seed) :: params) w = (w1, RTypeError) -> body o params w1 = (w2, x) ->
  exists r', create_network accepts body import builtins hook None None (Some g) dir seed params p r w = (extend_path (Some dir) p, r', w2, x).
Proof.
  intros O V W Gr accepts body import builtins hook g dir seed params p r w o w1 w2 x S A B A1 A2 B1 B2.
  destruct (create_found accepts body import builtins hook g dir seed params p r w o S A B) as (r' & _ & E). exists r'. rewrite E.
  unfold call. cbn [dkeys map fst]. change (map fst params) with (dkeys params). rewrite A1, B1, A2, B2. reflexivity.
Qed.
Print Assumptions C222_again_refuted.

(** C222 for generators that do not raise a TypeError: one that takes a seed is called once with the seed and the parameters, in the
    world as it was; one that does not is called once with the parameters.  If the parameters do not fit, nothing is called. *)
Theorem C222_once_partial : forall O V W Gr accepts (body : O -> dict string V -> W -> W * result Gr) import builtins hook
    g dir seed params p r w o p' r' w' x,
  stands_for (import (extend_path (Some dir) p)) builtins hook r g o -> dget "seed" params = None -> dget "dir_path" params = None ->
  create_network accepts body import builtins hook None None (Some g) dir seed params p r w = (p', r', w', x) ->
  (accepts o ("seed" :: dkeys params) = true -> snd (body o (("seed", seed) :: params) w) <> RTypeError ->
     (w', x) = body o (("seed", seed) :: params) w) /\
  (accepts o ("seed" :: dkeys params) = false -> accepts o (dkeys params) = true -> (w', x) = body o params w) /\
  (accepts o ("seed" :: dkeys params) = false -> accepts o (dkeys params) = false -> (w', x) = (w, RTypeError)).
Proof.
  intros O V W Gr accepts body import builtins hook g dir seed params p r w o p' r' w' x S A B C.
  destruct (create_found accepts body import builtins hook g dir seed params p r w o S A B) as (r1 & _ & E). rewrite E in C. clear E.
  unfold call in C. cbn [dkeys map fst] in C. change (map fst params) with (dkeys params) in C.
  split; [|split].
  - intros A1 T. rewrite A1 in C. destruct (body o (("seed", seed) :: params) w) as [w1 x1]. cbn [snd] in T.
    destruct x1; try congruence; now injection C as _ _ <- <-.
  - intros A1 A2. rewrite A1, A2 in C. destruct (body o params w) as [w1 x1]. now injection C as _ _ <- <-.
  - intros A1 A2. rewrite A1, A2 in C. now injection C as _ _ <- <-.
Qed.
Print Assumptions C222_once_partial.

(** A topology is used before a path, and a path before a generator, which is then not called; one of them is needed; and the names
    that create_network itself gives to generators cannot be used for parameters. *)
Theorem C222_precedence_partial : forall O V W Gr accepts (body : O -> dict string V -> W -> W * result Gr) import builtins hook
    dir seed params p r w,
  (forall t path g, create_network accepts body import builtins hook (Some t) path g dir seed params p r w = (p, r, w, t)) /\
  (forall t g, create_network accepts body import builtins hook None (Some t) g dir seed params p r w = (p, r, w, t)) /\
  create_network accepts body import builtins hook None None None dir seed params p r w = (p, r, w, RRaises) /\
  forall g k, In k ["seed"; "dir_path"] -> In k (dkeys params) ->
    create_network accepts body import builtins hook None None (Some g) dir seed params p r w = (p, r, w, RTypeError).
Proof.
  intros O V W Gr accepts body import builtins hook dir seed params p r w. repeat split.
  intros g k K I. unfold create_network. apply dhas_in in I. destruct K as [<-|[<-|[]]]; rewrite I; [reflexivity|].
  now rewrite orb_true_r.
Qed.
Print Assumptions C222_precedence_partial.

(** A world that counts the calls.  Graphs are the number of nodes and whether they came from the seed.  Object 1 takes n and seed, and
    raises a TypeError if n is 0 and there is a seed; object 2 takes n only; object 3 is in a module of the user. *)
Definition gen_accepts (o : nat) (ks : list string) : bool :=
  match o with
  | 1 | 3 => existsb (String.eqb "n") ks && forallb (fun k => String.eqb k "n" || String.eqb k "seed") ks
  | _ => existsb (String.eqb "n") ks && forallb (String.eqb "n") ks
  end.
Definition gen_body (o : nat) (params : dict string nat) (w : nat) : nat * result (nat * bool) :=
  match dget "n" params, dhas "seed" params with
  | Some 0, true => (S w, RTypeError)
  | Some n, b => (S w, RGraph (n, b))
  | None, _ => (S w, RRaises)
  end.
Definition gen_import (p : list (option string)) (m : string) : option (dict string nat) :=
  if String.eqb m "networkx.generators" then Some [("gnp", 1); ("path_graph", 2)]
  else if String.eqb m "mine" then if existsb (opt_eqb (Some "/here")) p then Some [("village", 3)] else None else None.
Definition gen_builtins : dict string nat := [("list", 10); ("dict", 11)].
Definition gen_hook (o : nat) : option nat := None.
Definition gen_create (g : generator nat) params :=
  let '(_, _, w, x) := create_network gen_accepts gen_body gen_import gen_builtins gen_hook None None (Some g) "/here" 7 params [Some "/lib"] [] 0 in (w, x).
Example C222_case :
  gen_create (GName "gnp") [("n", 5)] = (1, RGraph (5, true)) /\ gen_create (GName "path_graph") [("n", 5)] = (1, RGraph (5, false)) /\
  gen_create (GName "gnp") [("n", 0)] = (2, RGraph (0, false)) /\ gen_create (GName "gnp") [("k", 5)] = (0, RTypeError) /\
  gen_create (GName "gnp") [("n", 5); ("seed", 3)] = (0, RTypeError) /\ gen_create (GObject 2) [("n", 4)] = (1, RGraph (4, false)).
Proof. vm_compute. repeat split. Qed.
Example C222_stands_for : stands_for (gen_import (extend_path (Some "/here") [Some "/lib"])) gen_builtins gen_hook [] (GName "gnp") 1.
Proof.
  apply (for_short _ _ _ _ "gnp" 1 1).
  - repeat split; try discriminate.
  - exists [("gnp", 1); ("path_graph", 2)]. split; reflexivity.
  - right. split; reflexivity.
Qed.

(** * C223: generators are found by name *)
(** C223 is false for the names of builtins: create_network(generator="list") does not fail, and makes something that is not a graph
    the network of the model. *)
Theorem C223_builtins_refuted : forall O V W Gr accepts (body : O -> dict string V -> W -> W * result Gr) import builtins hook
    s y dir seed p r w,
  s <> "str" -> s <> "None" -> dget s builtins = Some y ->
  create_network accepts body import builtins hook None None (Some (GName s)) dir seed [] p r w = (extend_path (Some dir) p, r, w, ROther).
Proof. intros. eapply create_builtin; eauto. Qed.
Print Assumptions C223_builtins_refuted.
(** C223 for other names: those of objects of networkx.generators, and qualified names, which are looked for in dir_path too, stand
    for these objects: the network is what create_network makes if it is given the object itself... *)
Theorem C223_found_partial : forall O V W Gr accepts (body : O -> dict string V -> W -> W * result Gr) import builtins hook
    g dir seed params p r w o p1 r1 w1 x1 p2 r2 w2 x2,
  stands_for (import (extend_path (Some dir) p)) builtins hook r g o -> dget "seed" params = None -> dget "dir_path" params = None ->
  create_network accepts body import builtins hook None None (Some g) dir seed params p r w = (p1, r1, w1, x1) ->
  create_network accepts body import builtins hook None None (Some (GObject o)) dir seed params p r w = (p2, r2, w2, x2) ->
  p1 = p2 /\ w1 = w2 /\ x1 = x2.
Proof.
  intros O V W Gr accepts body import builtins hook g dir seed params p r w o p1 r1 w1 x1 p2 r2 w2 x2 S A B C1 C2.
  destruct (create_found accepts body import builtins hook g dir seed params p r w o S A B) as (r' & _ & E). rewrite E in C1.
  destruct (create_found accepts body import builtins hook (GObject o) dir seed params p r w o (for_object _ _ _ _ o) A B) as (r'' & _ & E').
  rewrite E' in C2. destruct (match call accepts body o (("seed", seed) :: params) w with (w3, RTypeError) => call accepts body o params w3 | y => y end) as [w3 x3].
  injection C1 as <- _ <- <-. injection C2 as <- _ <- <-. auto.
Qed.
Print Assumptions C223_found_partial.
(** ... and a name that networkx.generators does not have is refused: nothing is called. *)
Theorem C223_missing_partial : forall O V W Gr accepts (body : O -> dict string V -> W -> W * result Gr) import builtins hook
    s dir seed params p r w,
  dget "seed" params = None -> dget "dir_path" params = None ->
  ordinary builtins s -> has_not (import (extend_path (Some dir) p)) r "networkx.generators" s ->
  let '(_, _, w', x) := create_network accepts body import builtins hook None None (Some (GName s)) dir seed params p r w in
  w' = w /\ x = RRaises.
Proof. intros. now apply create_missing. Qed.
Print Assumptions C223_missing_partial.
Example C223_case :
  gen_create (GName "mine.village") [("n", 3)] = (1, RGraph (3, true)) /\ gen_create (GName "village") [("n", 3)] = (0, RRaises) /\
  gen_create (GName "list") [] = (0, ROther) /\ gen_create (GName "list") [("n", 3)] = (0, RTypeError).
Proof. vm_compute. repeat split. Qed.
Example C223_stands_for : stands_for (gen_import (extend_path (Some "/here") [Some "/lib"])) gen_builtins gen_hook [] (GName "mine.village") 3.
Proof.
  apply (for_qualified _ _ _ _ "mine" "village" 3 3).
  - split.
    + intros n [<-|[<-|[]]]; cbn; intuition discriminate.
    + intros k m n C I. cbn in C. unfold gen_import in C.
      destruct (String.eqb k "networkx.generators"); [injection C as <-; destruct I as [<-|[<-|[]]]; cbn; intuition discriminate|].
      destruct (String.eqb k "mine"); [|discriminate]. injection C as <-. destruct I as [<-|[]]; cbn; intuition discriminate.
  - cbn; intuition discriminate.
  - intros s. discriminate.
  - discriminate.
  - exists [("village", 3)]. split; reflexivity.
  - right. split; reflexivity.
Qed.

(** * C224: sys.path gets the directory of the model, once *)
(** C224 is false if from_params is called without dir_path: None, which is not a path, is added. *)
Theorem C224_none_refuted : forall O V W Gr accepts (body : O -> dict string V -> W -> W * result Gr) import builtins hook g params p r w,
  ~ In None p -> let '(p', _, _, _) := from_params accepts body import builtins hook g None params p r w in p' = p ++ [None].
Proof.
  intros O V W Gr accepts body import builtins hook g params p r w N.
  assert (P := from_params_path accepts body import builtins hook g None params p r w).
  destruct (from_params _ _ _ _ _ _ _ _ _ _ _) as [[[p1 r1] w1] x1]. destruct P as [-> _].
  destruct (extend_cases None p) as [[I _]|[_ E]]; [contradiction|exact E].
Qed.
Print Assumptions C224_none_refuted.
(** C224 for create_network: the directory of the model is added at the end of sys.path unless it is there already, whatever happens
    with the generator; if no generator is used, nothing changes. *)
Theorem C224_path_partial : forall O V W Gr accepts (body : O -> dict string V -> W -> W * result Gr) import builtins hook
    topology path g dir seed params p r w,
  let '(p', _, _, _) := create_network accepts body import builtins hook topology path g dir seed params p r w in
  (p' = p \/ (~ In (Some dir) p /\ p' = p ++ [Some dir])) /\
  (topology = None -> path = None -> g <> None -> dget "seed" params = None -> dget "dir_path" params = None -> In (Some dir) p') /\
  (topology <> None \/ path <> None \/ g = None -> p' = p).
Proof.
  intros O V W Gr accepts body import builtins hook topology path g dir seed params p r w.
  destruct topology as [t|]; [cbn; repeat split; auto; intros; congruence|].
  destruct path as [t|]; [cbn; repeat split; auto; intros; congruence|].
  destruct g as [g|]; [|cbn; repeat split; auto; intros; congruence].
  destruct (dhas "seed" params || dhas "dir_path" params) eqn:D.
  - unfold create_network. rewrite D. repeat split; auto; intros; exfalso; rewrite !dhas_get in D; rewrite H2, H3 in D; discriminate.
  - apply orb_false_iff in D as [D1 D2]. rewrite dhas_get in D1, D2.
    destruct (dget "seed" params) eqn:A; [discriminate|]. destruct (dget "dir_path" params) eqn:B; [discriminate|].
    assert (P := create_path accepts body import builtins hook g dir seed params p r w A B).
    destruct (create_network _ _ _ _ _ _ _ _ _ _ _ _ _ _) as [[[p1 r1] w1] x1]. subst p1. split; [|split].
    + destruct (extend_cases (Some dir) p) as [[_ E]|[N E]]; rewrite E; auto.
    + intros. apply extend_in.
    + intros [T|[T|T]]; congruence.
Qed.
Print Assumptions C224_path_partial.
Example C224_case :
  (let '(p, _, _, _) := create_network gen_accepts gen_body gen_import gen_builtins gen_hook None None (Some (GName "gnp")) "/here" 7 [("n", 0)] [Some "/lib"] [] 0 in p)
    = [Some "/lib"; Some "/here"] /\
  (let '(p, _, _, _) := from_params gen_accepts gen_body gen_import gen_builtins gen_hook (GName "gnp") None [("n", 5)] [Some "/lib"] [] 0 in p)
    = [Some "/lib"; None].
Proof. vm_compute. auto. Qed.
