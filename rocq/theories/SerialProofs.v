(** Proofs about the names of classes and the representation of dictionaries. *)
From Coq Require Import List Bool Arith Ascii String Lia.
From Verif Require Import PyDict SerialModel SerialSpec.
Import ListNotations.
Local Open Scope string_scope.

Lemma append_assoc (a b c : string) : (a ++ b) ++ c = a ++ b ++ c.
Proof. induction a; simpl; congruence. Qed.
Lemma rsplit_no_dot s : no_dot s -> rsplit s = None.
Proof.
  induction s as [|c s IH]; [reflexivity|]. intros [N D]. cbn [rsplit]. rewrite IH by auto.
  destruct (Ascii.eqb_spec c "."); congruence.
Qed.
Lemma rsplit_dot m t : no_dot t -> rsplit (m ++ "." ++ t) = Some (m, t).
Proof.
  intros D. induction m as [|c m IH].
  - cbn [append rsplit]. rewrite rsplit_no_dot by auto. now rewrite Ascii.eqb_refl.
  - cbn [append rsplit] in *. now rewrite IH.
Qed.
Lemma no_dot_app m t : ~ no_dot (m ++ "." ++ t).
Proof. induction m as [|c m IH]; cbn [append no_dot] in *; [intros [N _]; congruence|tauto]. Qed.
Lemma strip_app p s : strip p (p ++ s) = Some s.
Proof. induction p as [|c p IH]; [now destruct s|]. cbn [append strip]. now rewrite Ascii.eqb_refl. Qed.
Lemma before_end_app q : before_end (q ++ "'>") = Some q.
Proof. induction q as [|c q IH]; [reflexivity|]. cbn [append before_end]. now rewrite IH. Qed.
Lemma is_class_repr q : is_class ("<class '" ++ q ++ "'>") = Some q.
Proof. unfold is_class. rewrite strip_app. apply before_end_app. Qed.
Lemma is_class_other n : (forall s, n <> String "<" s) -> is_class n = None.
Proof.
  intros H. unfold is_class. destruct n as [|c s]; [reflexivity|]. cbn [strip].
  destruct (Ascii.eqb_spec "<" c) as [<-|]; [exfalso; now apply (H s)|reflexivity].
Qed.

Section Proofs.
Context {O : Type} (import : string -> option (dict string O)) (builtins : dict string O).
Context (eval : string -> option O) (hook : O -> option O).
Notation registry := (dict string (option (dict string O))).
Implicit Types (r : registry) (n k : string) (o : O).
Notation contents := (contents import). Notation has := (has import). Notation has_not := (has_not import).

(** The registry only grows, and what the modules have does not change. *)
Definition grows r r' : Prop :=
  (exists l, dkeys r' = (dkeys r ++ l)%list) /\ forall j, contents r' j = contents r j.
Lemma grows_refl r : grows r r.
Proof. split; [exists []; now rewrite app_nil_r|reflexivity]. Qed.
Lemma grows_trans r s t : grows r s -> grows s t -> grows r t.
Proof.
  intros [[l E] H] [[l' E'] H']. split.
  - exists (l ++ l')%list. now rewrite E', E, app_assoc.
  - intros j. now rewrite H', H.
Qed.
Lemma get_module_eq k r : fst (get_module import k r) = contents r k /\ grows r (snd (get_module import k r)).
Proof.
  unfold get_module, SerialSpec.contents. destruct (dget k r) as [[m|]|] eqn:E; [split; [reflexivity|apply grows_refl]| |];
  destruct (import k) as [m|] eqn:I; cbn [fst snd]; (split; [reflexivity|]); try apply grows_refl; split.
  - exists []. rewrite dkeys_set, app_nil_r. rewrite dhas_get, E. reflexivity.
  - intros j. unfold SerialSpec.contents. rewrite dget_set. destruct (eqb j k) eqn:J; [|reflexivity].
    apply eqb_eq in J. subst. now rewrite E, I.
  - exists [k]. rewrite dkeys_set. rewrite dhas_get, E. reflexivity.
  - intros j. unfold SerialSpec.contents. rewrite dget_set. destruct (eqb j k) eqn:J; [|reflexivity].
    apply eqb_eq in J. subst. now rewrite E, I.
Qed.
Lemma grows_has r r' k n o : grows r r' -> has r' k n o <-> has r k n o.
Proof. intros [_ H]. unfold SerialSpec.has. now rewrite H. Qed.
Lemma grows_has_not r r' k n : grows r r' -> has_not r' k n <-> has_not r k n.
Proof. intros G. unfold SerialSpec.has_not. split; intros H o X; apply (H o); now apply (grows_has _ _ _ _ _ G). Qed.
Lemma has_dec r k n : (exists o, has r k n o) \/ has_not r k n.
Proof.
  unfold SerialSpec.has_not, SerialSpec.has. destruct (contents r k) as [m|] eqn:E.
  - destruct (dget n m) as [o|] eqn:D; [left; eauto|right]. intros o (m' & E' & D'). congruence.
  - right. intros o (m' & E' & _). congruence.
Qed.
Lemma has_fun r k n o o' : has r k n o -> has r k n o' -> o = o'.
Proof. intros (m & E & D) (m' & E' & D'). congruence. Qed.

(** One option. *)
Lemma try_has r k n o l : has r k n o ->
  fst (try_options import hook ((k, n) :: l) r) = Found (with_hook hook o).
Proof.
  intros (m & E & D). cbn [try_options]. destruct (get_module_eq k r) as [F _].
  destruct (get_module import k r) as [x r']. cbn [fst] in F. subst x. rewrite E, D. reflexivity.
Qed.
Lemma try_has_not r k n l : has_not r k n -> exists r', grows r r' /\
  try_options import hook ((k, n) :: l) r = try_options import hook l r'.
Proof.
  intros H. cbn [try_options]. destruct (get_module_eq k r) as [F G].
  destruct (get_module import k r) as [x r']. cbn [fst snd] in *. exists r'. split; auto.
  subst x. destruct (contents r k) as [m|] eqn:E; auto. destruct (dget n m) as [o|] eqn:D; auto.
  exfalso. apply (H o). now exists m.
Qed.
Lemma try_grows l : forall r, grows r (snd (try_options import hook l r)).
Proof.
  induction l as [|[k n] l IH]; intros r; [apply grows_refl|]. cbn [try_options].
  destruct (get_module_eq k r) as [_ G]. destruct (get_module import k r) as [x r']. cbn [snd] in G.
  destruct x as [m|]; [destruct (dget n m)|]; cbn [snd]; auto; eapply grows_trans; eauto.
Qed.
Lemma try_skip (l1 l2 : list (string * string)) : forall r, (forall k n, In (k, n) l1 -> has_not r k n) -> exists r', grows r r' /\
  try_options import hook (l1 ++ l2) r = try_options import hook l2 r'.
Proof.
  induction l1 as [|[k n] l1 IH]; intros r H; [exists r; split; [apply grows_refl|reflexivity]|].
  destruct (try_has_not r k n (l1 ++ l2)) as (r1 & G1 & E1); [apply H; now left|].
  destruct (IH r1) as (r2 & G2 & E2).
  - intros j m I. apply (grows_has_not _ _ _ _ G1). apply H. now right.
  - exists r2. split; [eapply grows_trans; eauto|]. cbn [app]. now rewrite E1, E2.
Qed.

Lemma filter_nonempty (l : list string) : ~ In "" l -> filter (fun md => negb (String.eqb md "")) l = l.
Proof.
  induction l as [|k l IH]; intros N; [reflexivity|]. cbn [filter].
  destruct (String.eqb_spec k ""); [exfalso; apply N; now left|]. cbn [negb]. rewrite IH; [reflexivity|]. intros I. apply N. now right.
Qed.
Lemma map_in (n : string) l k m : In (k, m) (map (fun md => (md, n)) l) -> m = n /\ In k l.
Proof. intros I. apply in_map_iff in I as (j & E & I). inversion E; subst. auto. Qed.

(** Ordinary names go through the options. *)
Lemma deserializer_ordinary n known r : ordinary builtins n -> ~ In "" known ->
  deserializer import builtins hook n known r = try_options import hook (map (fun md => (md, n)) known) r.
Proof.
  intros (A & B & C & D & E) N. unfold deserializer.
  destruct (String.eqb_spec n "str"); [congruence|]. destruct (String.eqb_spec n "None"); [congruence|].
  rewrite C, is_class_other, rsplit_no_dot by auto. now rewrite filter_nonempty.
Qed.
Lemma try_first (r : registry) n o later : forall r', grows r r' -> forall before k, (forall j, In j before -> has_not r j n) -> has r k n o ->
  fst (try_options import hook (map (fun md => (md, n)) (before ++ k :: later)) r') = Found (with_hook hook o).
Proof.
  intros r' G before k H K. rewrite map_app.
  destruct (try_skip (map (fun md => (md, n)) before) (map (fun md => (md, n)) (k :: later)) r') as (r2 & G2 & E2).
  - intros j m I. apply map_in in I as [-> I]. apply (grows_has_not _ _ _ _ G). now apply H.
  - rewrite E2. cbn [map]. apply try_has. apply (grows_has _ _ _ _ _ (grows_trans _ _ _ G G2)). exact K.
Qed.
Lemma short_found r n o : ordinary builtins n -> ~ In "" (dkeys r) -> first_with import r n o ->
  fst (deserialize import builtins eval hook n r) = Found (with_hook hook o).
Proof.
  intros Q N (before & k & later & E & B & K). unfold deserialize. rewrite deserializer_ordinary by auto. rewrite E.
  assert (F := try_first r n o later r (grows_refl r) before k B K).
  destruct (try_options import hook (map (fun md => (md, n)) (before ++ k :: later)) r) as [x r']. cbn [fst] in F. now subst x.
Qed.
Lemma short_missing r n : ordinary builtins n -> ~ In "" (dkeys r) -> (forall k, In k (dkeys r) -> has_not r k n) ->
  fst (deserialize import builtins eval hook n r) = match eval n with Some o => Found o | None => RaisesValueError end.
Proof.
  intros Q N H. unfold deserialize. rewrite deserializer_ordinary by auto.
  destruct (try_skip (map (fun md => (md, n)) (dkeys r)) [] r) as (r2 & G2 & E2).
  - intros j m I. apply map_in in I as [-> I]. auto.
  - rewrite app_nil_r in E2. rewrite E2. cbn [try_options]. now destruct (eval n).
Qed.

Lemma usable_hook o f : usable hook o f -> with_hook hook o = f.
Proof. unfold with_hook. intros [E|[E ->]]; now rewrite E. Qed.
Lemma has_dotted r k n : plain_names import builtins r -> ~ no_dot n -> has_not r k n.
Proof.
  intros [_ P] N o (m & E & D). apply N, (P k m); auto. apply dget_in, (in_map fst) in D. exact D.
Qed.
Lemma builtin_dotted r n : plain_names import builtins r -> ~ no_dot n -> dget n builtins = None.
Proof. intros [P _] N. apply dget_none. intros I. apply N, P, I. Qed.
Lemma qualified_found r k t o : plain_names import builtins r -> ~ In "" (dkeys r) -> no_dot t -> (forall s, k <> String "<" s) -> k <> "" ->
  has r k t o -> fst (deserialize import builtins eval hook (k ++ "." ++ t) r) = Found (with_hook hook o).
Proof.
  intros P N T K K' H. set (n := k ++ "." ++ t).
  assert (D : ~ no_dot n) by apply no_dot_app.
  assert (C : is_class n = None). { apply is_class_other. subst n. destruct k as [|c s]; [congruence|]. cbn [append]. intros s' X. inversion X; subst. now apply (K s). }
  assert (X : exists r', fst (deserializer import builtins hook n (dkeys r) r) = Found (with_hook hook o) /\ grows r r').
  { unfold deserializer.
    destruct (String.eqb_spec n "str") as [X|_]; [exfalso; apply D; rewrite X; cbn; intuition discriminate|].
    destruct (String.eqb_spec n "None") as [X|_]; [exfalso; apply D; rewrite X; cbn; intuition discriminate|].
    rewrite (builtin_dotted r) by auto. rewrite C. rewrite filter_nonempty by auto.
    unfold n at 1. rewrite rsplit_dot by auto.
    destruct (try_skip (map (fun md => (md, n)) (dkeys r)) [(k, t)] r) as (r2 & G2 & E2).
    - intros j m I. apply map_in in I as [-> I]. now apply has_dotted.
    - exists r2. split; auto. rewrite E2. apply try_has. now apply (grows_has _ _ _ _ _ G2). }
  destruct X as (r' & F & _). unfold deserialize.
  destruct (deserializer import builtins hook n (dkeys r) r) as [x r2]. cbn [fst] in F. now subst x.
Qed.
Lemma text_found r k t o : plain_names import builtins r -> no_dot t -> has r k t o ->
  fst (deserialize import builtins eval hook ("<class '" ++ k ++ "." ++ t ++ "'>") r) = Found (with_hook hook o).
Proof.
  intros P T (m & E & F).
  replace ("<class '" ++ k ++ "." ++ t ++ "'>") with ("<class '" ++ (k ++ "." ++ t) ++ "'>") by now rewrite !append_assoc.
  set (n := "<class '" ++ (k ++ "." ++ t) ++ "'>").
  assert (D : ~ no_dot n). { subst n. rewrite !append_assoc. rewrite <- (append_assoc "<class '" k). apply no_dot_app. }
  unfold deserialize, deserializer.
  destruct (String.eqb_spec n "str") as [X|_]; [exfalso; apply D; rewrite X; cbn; intuition discriminate|].
  destruct (String.eqb_spec n "None") as [X|_]; [exfalso; apply D; rewrite X; cbn; intuition discriminate|].
  rewrite (builtin_dotted r) by auto. unfold n at 1. rewrite is_class_repr, rsplit_dot by auto.
  destruct (get_module_eq k r) as [G _]. destruct (get_module import k r) as [x r']. cbn [fst] in G. subst x.
  rewrite E, F. reflexivity.
Qed.

Lemma deserialize_grows n r : grows r (snd (deserialize import builtins eval hook n r)).
Proof.
  assert (H : grows r (snd (deserializer import builtins hook n (dkeys r) r))).
  { unfold deserializer. destruct (String.eqb n "str"); [apply grows_refl|]. destruct (String.eqb n "None"); [apply grows_refl|].
    destruct (dget n builtins); [apply grows_refl|]. destruct (is_class n) as [q|].
    - destruct (rsplit q) as [[k t]|]; [|apply grows_refl].
      destruct (get_module_eq k r) as [_ G]. destruct (get_module import k r) as [[m|] r']; cbn [snd] in *; auto.
      destruct (dget t m); auto.
    - apply try_grows. }
  unfold deserialize. destruct (deserializer import builtins hook n (dkeys r) r) as [[] r']; cbn [snd] in *; auto.
  now destruct (eval n).
Qed.
Lemma known_name_grows n l : forall r, grows r (snd (known_name import n l r)).
Proof.
  induction l as [|k l IH]; intros r; [apply grows_refl|]. cbn [known_name].
  destruct (get_module_eq k r) as [_ G]. destruct (get_module import k r) as [[m|] r']; cbn [snd] in *; auto.
  destruct (dhas n m); cbn [snd]; auto. eapply grows_trans; eauto.
Qed.
Lemma name_grows c l r : grows r (snd (name import builtins c l r)).
Proof.
  unfold name. destruct (dhas (c_name c) builtins); [apply grows_refl|].
  destruct (String.eqb (c_module c) "__main__"); [apply grows_refl|].
  destruct (existsb (String.eqb (c_module c)) l); [apply grows_refl|].
  assert (G := known_name_grows (c_name c) l r). destruct (known_name import (c_name c) l r) as [[[]|] r']; exact G.
Qed.
Lemma run_calls_grows l : forall r, grows r (run_calls import builtins eval hook l r).
Proof.
  induction l as [|x l IH]; intros r; [apply grows_refl|]. unfold run_calls in *. cbn [fold_left].
  eapply grows_trans; [|apply IH]. destruct x; cbn [run_call]; [apply deserialize_grows|apply name_grows|apply get_module_eq].
Qed.
Lemma first_with_grows r r' n o : grows r r' -> first_with import r n o -> first_with import r' n o.
Proof.
  intros G (b & k & l & E & B & K). destruct (proj1 G) as [l' E']. exists b, k, (l ++ l')%list. split; [|split].
  - rewrite E', E, <- app_assoc. reflexivity.
  - intros j I. apply (grows_has_not _ _ _ _ G). auto.
  - now apply (grows_has _ _ _ _ _ G).
Qed.

(** The names of classes. *)
Lemma known_name_eq n l : forall r, (forall k, In k l -> contents r k <> None) -> exists b,
  fst (known_name import n l r) = Some b /\ (b = true <-> exists k o, In k l /\ has r k n o).
Proof.
  induction l as [|k l IH]; intros r H.
  - exists false. split; [reflexivity|]. split; [discriminate|intros (? & ? & [] & _)].
  - cbn [known_name]. destruct (get_module_eq k r) as [E G]. destruct (get_module import k r) as [x r']. cbn [fst snd] in *. subst x.
    destruct (contents r k) as [m|] eqn:C; [|exfalso; now apply (H k); [left|]].
    rewrite dhas_get. destruct (dget n m) as [o|] eqn:D.
    + exists true. split; [reflexivity|]. split; auto. intros _. exists k, o. split; [now left|]. now exists m.
    + destruct (IH r') as (b & F & B).
      { intros j I. rewrite (proj2 G). apply H. now right. }
      exists b. split; auto. rewrite B. split; intros (j & o & I & K).
      * exists j, o. split; [now right|]. now apply (grows_has _ _ _ _ _ G).
      * exists j, o. destruct I as [<-|I]; [|split; auto; now apply (grows_has _ _ _ _ _ G)].
        exfalso. destruct K as (m' & C' & D'). congruence.
Qed.
Lemma first_with_exists r n : (exists k o, In k (dkeys r) /\ has r k n o) -> exists o, first_with import r n o.
Proof.
  unfold first_with. generalize (dkeys r) as l.
  induction l as [|j l IH]; intros (k & o & I & K); [destruct I|].
  destruct (has_dec r j n) as [(o' & J)|J].
  - exists o', [], j, l. split; [reflexivity|]. split; [intros ? []|exact J].
  - destruct IH as (o' & b & k' & l' & E & B & K').
    { exists k, o. split; auto. destruct I as [<-|I]; auto. exfalso. now apply (J o). }
    exists o', (j :: b)%list, k', l'. split; [now rewrite E|]. split; auto. intros i [<-|I']; auto.
Qed.
Lemma first_with_has r n o : first_with import r n o -> exists k, In k (dkeys r) /\ has r k n o.
Proof. intros (b & k & l & E & _ & K). exists k. split; auto. rewrite E. apply in_elt. Qed.

(** The name of a class: short exactly if its module, or another one that has that name, is known. *)
Lemma name_eq c r : ordinary builtins (c_name c) -> c_module c <> "__main__" ->
  (forall k, In k (dkeys r) -> contents r k <> None) ->
  exists n r', name import builtins c (dkeys r) r = (Some n, r') /\ grows r r' /\
    ((n = c_name c /\ (In (c_module c) (dkeys r) \/ exists k o, In k (dkeys r) /\ has r k (c_name c) o)) \/
     (n = c_module c ++ "." ++ c_name c /\ forall k, In k (dkeys r) -> has_not r k (c_name c))).
Proof.
  intros Q M I. assert (G := name_grows c (dkeys r) r). unfold name in *.
  destruct Q as (_ & _ & B & _ & _). rewrite dhas_get, B in *.
  destruct (String.eqb_spec (c_module c) "__main__"); [congruence|].
  destruct (existsb (String.eqb (c_module c)) (dkeys r)) eqn:E.
  - exists (c_name c), r. split; [reflexivity|]. split; [exact G|]. left. split; auto. left.
    apply existsb_exists in E as (k & K & E). apply String.eqb_eq in E. now subst.
  - destruct (known_name_eq (c_name c) (dkeys r) r I) as (b & F & X).
    destruct (known_name import (c_name c) (dkeys r) r) as [y r']. cbn [fst] in F. subst y.
    destruct b; cbn [snd] in G.
    + exists (c_name c), r'. split; [reflexivity|]. split; [exact G|]. left. split; auto. right. now apply X.
    + exists (c_module c ++ "." ++ c_name c), r'. split; [reflexivity|]. split; [exact G|]. right. split; auto.
      intros k K o H. assert (false = true); [|discriminate]. apply X. now exists k, o.
Qed.
(** A module that cannot be imported, before any that has the name. *)
Lemma known_name_fails n before k later : forall r,
  (forall j, In j before -> contents r j <> None /\ has_not r j n) -> contents r k = None ->
  fst (known_name import n (before ++ k :: later) r) = None.
Proof.
  induction before as [|j before IH]; intros r H C; cbn [app known_name].
  - destruct (get_module_eq k r) as [E _]. destruct (get_module import k r) as [x r']. cbn [fst] in E.
    rewrite E, C. reflexivity.
  - destruct (H j (or_introl eq_refl)) as [N X].
    destruct (get_module_eq j r) as [E G]. destruct (get_module import j r) as [x r']. cbn [fst snd] in *.
    subst x. destruct (contents r j) as [m|] eqn:M; [|congruence].
    rewrite dhas_get. destruct (dget n m) as [o|] eqn:D; [exfalso; apply (X o); now exists m|].
    apply IH.
    + intros i I. destruct (H i (or_intror I)) as [N' X']. split; [rewrite (proj2 G); auto|].
      intros o K. apply (X' o). now apply (grows_has _ _ _ _ _ G).
    + rewrite (proj2 G). exact C.
Qed.
(** Asking for a name registers no module. *)
Lemma known_name_keys n l : forall r, (forall k, In k l -> In k (dkeys r)) -> dkeys (snd (known_name import n l r)) = dkeys r.
Proof.
  assert (K : forall k r, In k (dkeys r) -> dkeys (snd (get_module import k r)) = dkeys r).
  { intros k r I. unfold get_module. destruct (dget k r) as [[m|]|] eqn:E; [reflexivity| |];
    destruct (import k); try reflexivity; cbn [snd]; rewrite dkeys_set; apply dhas_in in I; now rewrite I. }
  induction l as [|k l IH]; intros r H; [reflexivity|]. cbn [known_name].
  specialize (K k r (H k (or_introl eq_refl))). destruct (get_module import k r) as [[m|] r']; cbn [snd] in *; auto.
  destruct (dhas n m); cbn [snd]; auto. rewrite IH; auto. intros j J. rewrite K. apply H. now right.
Qed.
Lemma name_keys c r : dkeys (snd (name import builtins c (dkeys r) r)) = dkeys r.
Proof.
  unfold name. destruct (dhas (c_name c) builtins); [reflexivity|].
  destruct (String.eqb (c_module c) "__main__"); [reflexivity|].
  destruct (existsb (String.eqb (c_module c)) (dkeys r)); [reflexivity|].
  assert (G := known_name_keys (c_name c) (dkeys r) r (fun k I => I)).
  destruct (known_name import (c_name c) (dkeys r) r) as [[[]|] r']; exact G.
Qed.
Lemma grows_plain r r' : grows r r' -> plain_names import builtins r -> plain_names import builtins r'.
Proof. intros [_ G] [A B]. split; auto. intros k m n E. rewrite G in E. eauto. Qed.

Lemma grows_in r r' k : grows r r' -> In k (dkeys r) -> In k (dkeys r').
Proof. intros [[l E] _] I. rewrite E. apply in_app_iff. now left. Qed.
End Proofs.

(** * Dictionaries *)
Section Dicts.
Context {A C : Type} `{EA : Eqb A}.
Context (repr : value A C -> string) (class_name class_text : C -> string).
Notation val := (value A C).
Notation ser := (ser repr class_name class_text). Notation after := (after repr class_name class_text).

Lemma map_id_iff {X} (f : X -> X) l : map f l = l <-> Forall (fun x => f x = x) l.
Proof.
  induction l as [|x l IH]; [split; constructor|]. cbn [map]. split.
  - intros E. injection E as E F. constructor; auto. now apply IH.
  - intros F. inversion F; subst. f_equal; auto. now apply IH.
Qed.
Lemma fold_and {X} (P : X -> Prop) l : fold_right (fun x Q => P x /\ Q) True l <-> Forall P l.
Proof.
  induction l as [|x l IH]; cbn [fold_right]; [split; constructor|]. rewrite IH. split.
  - intros [H F]. now constructor.
  - intros F. now inversion F.
Qed.
Definition item_ok (x : val) : Prop := match x with VStr s => s <> "" | VDict _ => writable x | _ => False end.
Lemma ser_dict_eq d : ser Field (VDict d) = VDict (map (fun kv => (fst kv, ser Field (snd kv))) d).
Proof. reflexivity. Qed.
Lemma ser_whole_dict d : ser Whole (VDict d) = ser Field (VDict d).
Proof. reflexivity. Qed.
Lemma forall_iff {X} (P Q R : X -> Prop) l : Forall R l -> (forall x, R x -> (P x <-> Q x)) -> Forall P l <-> Forall Q l.
Proof.
  intros F H. induction F as [|x l R' F IH]; [split; constructor|]. split; intros G; inversion G; subst; constructor.
  - now apply (H x R').
  - now apply IH.
  - now apply (H x R').
  - now apply IH.
Qed.
Lemma dict_eq_iff {X} (f : X -> X) (d : list (dkey A * X)) :
  map (fun kv => (fst kv, f (snd kv))) d = d <-> Forall (fun kv => f (snd kv) = snd kv) d.
Proof.
  rewrite map_id_iff. apply (forall_iff _ _ (fun _ => True)).
  - now apply Forall_forall.
  - intros [k x] _. cbn [fst snd]. split; congruence.
Qed.
(** A field is left as it is exactly if it is writable. *)
Lemma ser_writable : forall v, ser Field v = v <-> writable v.
Proof.
  assert (W : forall l, (exists d, ser Whole (VList l) = VDict d) \/ (exists s, ser Whole (VList l) = VStr s)).
  { intros l. cbn [SerialModel.ser].
    match goal with |- context[match ?p with Some _ => _ | None => _ end] => destruct p end; eauto. }
  assert (T : forall l, (exists d, ser Whole (VTuple l) = VDict d) \/ (exists s, ser Whole (VTuple l) = VStr s)).
  { intros l. cbn [SerialModel.ser].
    match goal with |- context[match ?p with Some _ => _ | None => _ end] => destruct p end; eauto. }
  assert (D : forall d, (forall v, In v (map snd d) -> (ser Field v = v <-> writable v)) ->
    (ser Field (VDict d) = VDict d <-> writable (VDict d))).
  { intros d IH. rewrite ser_dict_eq. cbn [writable].
    rewrite (fold_and (fun kv : dkey A * val => writable (snd kv))).
    assert (X : VDict (map (fun kv => (fst kv, ser Field (snd kv))) d) = VDict d <->
                map (fun kv => (fst kv, ser Field (snd kv))) d = d) by (split; congruence).
    rewrite X, dict_eq_iff, !Forall_forall. split; intros H kv I; apply IH; auto; now apply in_map. }
  fix IH 1. intros [s|a|c|d|l|l].
  - cbn; tauto.
  - cbn; tauto.
  - cbn. split; [discriminate|tauto].
  - apply D. clear -IH. induction d as [|[k v] d IHd]; intros x I; [destruct I|].
    destruct I as [<-|I]; [apply IH|now apply IHd].
  - cbn [writable]. rewrite (fold_and item_ok).
    assert (X : ser Field (VList l) = VList l <-> map (ser Whole) l = l) by (cbn [SerialModel.ser]; split; congruence).
    rewrite X, map_id_iff. clear X. induction l as [|x l IHl]; [split; constructor|].
    assert (Y : ser Whole x = x <-> item_ok x).
    { destruct x as [s|a|c|d|m|m]; cbn [item_ok].
      - cbn. destruct (String.eqb_spec s ""); split; congruence.
      - cbn. split; [discriminate|tauto].
      - cbn. split; [discriminate|tauto].
      - rewrite ser_whole_dict. apply D. clear -IH. induction d as [|[k v] d IHd]; intros x I; [destruct I|].
        destruct I as [<-|I]; [apply IH|now apply IHd].
      - destruct (W m) as [[d E]|[s E]]; rewrite E; split; try discriminate; tauto.
      - destruct (T m) as [[d E]|[s E]]; rewrite E; split; try discriminate; tauto. }
    split; intros F; inversion F; subst; constructor; try (now apply Y); now apply IHl.
  - cbn. tauto.
Qed.
Lemma after_plain : forall v, after v = v <-> plain_lists v.
Proof.
  fix IH 1. intros [s|a|c|d|l|l]; try (cbn; tauto).
  - cbn [SerialModel.after plain_lists]. rewrite (fold_and (fun kv : dkey A * val => plain_lists (snd kv))).
    assert (X : VDict (map (fun kv => (fst kv, after (snd kv))) d) = VDict d <->
                map (fun kv => (fst kv, after (snd kv))) d = d) by (split; congruence).
    rewrite X, dict_eq_iff. clear X. induction d as [|[k v] d IHd]; [split; constructor|].
    split; intros F; inversion F; subst; constructor; try (now apply IH); now apply IHd.
  - cbn [SerialModel.after plain_lists]. rewrite <- ser_writable. cbn [SerialModel.ser]. split; congruence.
Qed.
End Dicts.
