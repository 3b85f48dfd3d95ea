(** C54: the registry of source files. *)
From Coq Require Import List Bool Arith String.
From Verif Require Import PyDict SourceModel SourceSpec SourceProofs.
Import ListNotations.
Local Open Scope string_scope.

(** C54 for all programs that do not use a file again inside of a block that uses it,
    wherever they raise: the registry is as before, the files of the open blocks have names of
    their own, and no block adds an exception. *)
Theorem C54_registry_is_restored_partial :
  forall F (EF : Eqb F) (body : list (stmt F)) (r : reg F),
  fresh r -> Forall (distinct []) body ->
  let '(r', seen, x) := run_block body r in
  unchanged r r' /\ (forall open r1, In (open, r1) seen -> own_names open r1) /\
  (Forall quiet body -> x = None) /\ x <> Some ValueError.
Proof. intros. now apply block_fine. Qed.
Print Assumptions C54_registry_is_restored_partial.

(** Modules that are imported by name are registered, and stay so. *)
Theorem C54_imported_modules_partial :
  forall F (EF : Eqb F) s (r : reg F),
  let '(r', seen, x) := run_block [Import s] r in
  x = None /\ r_files r' = r_files r /\
  (dget (Other s) (r_known r) = None \/ dget (Other s) (r_known r) = Some NotYet ->
     dget (Other s) (r_known r') = Some (ByName s)) /\
  (forall m, dget (Other s) (r_known r) = Some m -> m <> NotYet -> r' = r) /\
  (forall n, n <> Other s -> dget n (r_known r') = dget n (r_known r)).
Proof.
  intros F EF s r. cbn. unfold get_module.
  destruct (dget (Other s) (r_known r)) as [[f|t|]|] eqn:E.
  - repeat split; auto. intros [H|H]; discriminate.
  - repeat split; auto. intros [H|H]; discriminate.
  - repeat split; auto; cbn [r_known].
    + intros _. now rewrite dget_set_same.
    + intros m [= <-] N. congruence.
    + intros n N. now rewrite dget_set_other.
  - repeat split; auto; cbn [r_known].
    + intros _. now rewrite dget_set_same.
    + intros m [=].
    + intros n N. now rewrite dget_set_other.
Qed.
Print Assumptions C54_imported_modules_partial.

Definition start : reg string := Reg [] [(Other "soil", NotYet)].
Lemma start_fresh : fresh start.
Proof. repeat split. repeat constructor. intros []. Qed.

Example C54_not_vacuous :
  let body := [With (Some "a.py") true [Import "soil"; With (Some "b.py") true [Look; Raise]]; Look] in
  fresh start /\ Forall (distinct []) body /\
  let '(r', seen, x) := run_block body start in
  r' = Reg [] [(Other "soil", ByName "soil")] /\ x = Some UserError /\
  seen = [(["b.py"; "a.py"],
           Reg [("a.py", 0); ("b.py", 1)]
             [(Other "soil", ByName "soil"); (Imported 0, FromFile "a.py"); (Imported 1, FromFile "b.py")])].
Proof.
  split; [apply start_fresh|]. split; [|vm_compute; repeat split].
  repeat constructor; simpl; intuition discriminate.
Qed.

(** C54 is false if a file is used again inside of its own block: leaving the outer block
    raises ValueError, although nothing else does ... *)
Theorem C54_same_file_refuted :
  forall F (EF : Eqb F) (f : F) (r : reg F), fresh r ->
  let body := [With (Some f) true [With (Some f) true []]] in
  Forall quiet body /\ snd (run_block body r) = Some ValueError.
Proof.
  intros F EF f r (E & D & Kn) body. split; [repeat constructor|].
  unfold body, run_block. destruct r as [files known]. simpl in E. subst. simpl in D, Kn.
  cbn. unfold add_source. simpl. unfold remove_source. simpl. rewrite !eqb_refl.
  cbn [orb]. rewrite dhas_get, dget_set_same. simpl. rewrite eqb_refl.
  rewrite dhas_get, dget_set_same. simpl. reflexivity.
Qed.
Print Assumptions C54_same_file_refuted.

(** ... and the module of another file can be lost while its block is open: its name is
    given to the file that is used again. *)
Theorem C54_name_taken_refuted :
  exists F (EF : Eqb F) (body : list (stmt F)) (r : reg F) f g open r1,
  fresh r /\ Forall quiet body /\ In (open, r1) (snd (fst (run_block body r))) /\
  In f open /\ In g open /\ f <> g /\
  exists n, dget f (r_files r1) = Some n /\ dget g (r_files r1) = Some n /\
            dget (Imported n) (r_known r1) = Some (FromFile f).
Proof.
  exists string, _, [With (Some "a.py") true [With (Some "b.py") true [With (Some "a.py") true [Look]]]], start,
    "a.py", "b.py", ["a.py"; "b.py"; "a.py"],
    (Reg [("b.py", 1); ("a.py", 1)] [(Other "soil", NotYet); (Imported 1, FromFile "a.py")]).
  split; [apply start_fresh|]. split; [repeat constructor|]. split; [vm_compute; auto|].
  split; [simpl; auto|]. split; [simpl; auto|]. split; [discriminate|]. exists 1. repeat split.
Qed.
Print Assumptions C54_name_taken_refuted.
