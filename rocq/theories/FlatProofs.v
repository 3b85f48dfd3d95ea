(** Proofs about flatten_dict and unflatten_dict. *)
From Coq Require Import List Bool Ascii String Lia.
From Verif Require Import PyDict FlatModel FlatSpec.
Import ListNotations.
Local Open Scope string_scope.

Section P.
Context {V K : Type} `{EK : Eqb K}.
Variable str_of : K -> string.
Notation key := (key K).
Notation tree := (tree V K).
Notation flat := (@flat V K str_of).
Notation flatten := (flatten str_of).

Lemma tree_ind2 (P : tree -> Prop) :
  (forall v, P (Leaf v)) -> (forall d, Forall (fun p => P (snd p)) d -> P (Node d)) -> forall t, P t.
Proof.
  intros L N. fix IH 1. intros [v|d]; [apply L|]. apply N. induction d as [|p d IHd]; constructor; auto.
Qed.

(** The structure of good dictionaries. *)
Definition entries (Q : key -> tree -> Prop) (d : list (key * tree)) : Prop := forall k t, In (k, t) d -> Q k t.
Fixpoint tidy (t : tree) : Prop :=
  match t with
  | Leaf _ => True
  | Node d => d <> [] /\
              (fix all d := match d with [] => True | (k, t') :: d' => plain k /\ tidy t' /\ all d' end) d
  end.
Lemma tidy_node d : tidy (Node d) <-> d <> [] /\ entries (fun k t => plain k /\ tidy t) d.
Proof.
  simpl. apply and_iff_compat_l. induction d as [|[k t] d IH].
  - split; [intros _ k t []|auto].
  - rewrite IH. split.
    + intros (A & B & C) k' t' [[= <- <-]|I]; auto.
    + intros E. destruct (E k t (or_introl eq_refl)) as [A B]. split; [exact A|]. split; [exact B|]. intros k' t' I. apply E. simpl. auto.
Qed.
Lemma proper_node d : proper (Node d) <-> NoDup (map fst d) /\ entries (fun _ t => proper t) d.
Proof.
  simpl. apply and_iff_compat_l. induction d as [|[k t] d IH].
  - split; [intros _ k t []|auto].
  - rewrite IH. split.
    + intros (A & B) k' t' [[= <- <-]|I]; auto. eapply B; eauto.
    + intros E. split; [apply (E k t); simpl; auto|]. intros k' t' I. apply (E k'). simpl. auto.
Qed.

Definition name (k : key) : string := match k with KStr s => s | KOther _ => "" end.
Fixpoint paths (t : tree) : list (list string * V) :=
  match t with
  | Leaf v => [([], v)]
  | Node d =>
      (fix go d := match d with
                   | [] => []
                   | (k, t') :: d' => (map (fun pv => (name k :: fst pv, snd pv)) (paths t') ++ go d')%list
                   end) d
  end.
Fixpoint join (l : list string) : string :=
  match l with [] => "" | [s] => s | s :: l' => s ++ "." ++ join l' end.

Lemma app_assoc_s a b c : (a ++ b) ++ c = a ++ b ++ c.
Proof. induction a as [|x a IH]; simpl; congruence. Qed.

Lemma join_cons s l : l <> [] -> join (s :: l) = s ++ "." ++ join l.
Proof. destruct l; [congruence|reflexivity]. Qed.

Lemma with_dot_ne s : s <> "" -> with_dot s = s ++ ".".
Proof. destruct s; [congruence|reflexivity]. Qed.

Lemma flat_paths t : tidy t -> forall prefix, prefix <> "" ->
  flat prefix t = map (fun pv => (join (prefix :: fst pv), snd pv)) (paths t).
Proof.
  induction t as [v|d IH] using tree_ind2; intros T prefix Ne; [reflexivity|].
  apply tidy_node in T as [_ T]. simpl. induction d as [|[k t] d IHd]; auto.
  inversion IH as [|x l I1 I2]; subst. rewrite map_app, map_map.
  destruct (T k t (or_introl eq_refl)) as [(s & -> & D) Tt].
  f_equal.
  - rewrite with_dot_ne by auto. simpl in I1. rewrite I1; auto.
    + apply map_ext. intros [p v]. simpl fst. simpl snd. f_equal. simpl name. simpl fmt.
      change (join (prefix :: s :: p)) with (prefix ++ "." ++ join (s :: p)).
      destruct p as [|x p]; simpl; rewrite !app_assoc_s; reflexivity.
    + destruct prefix; discriminate.
  - apply IHd; auto. intros k' t' I. apply T. simpl. auto.
Qed.

(** No dictionary under "". *)
Definition no_blank (d : list (key * tree)) : Prop := entries (fun k t => k = KStr "" -> exists v, t = Leaf v) d.

Lemma flat_top d : entries (fun k t => plain k /\ tidy t) d -> no_blank d ->
  flat "" (Node d) = map (fun pv => (join (fst pv), snd pv)) (paths (Node d)).
Proof.
  intros T B. simpl. induction d as [|[k t] d IHd]; auto.
  rewrite map_app, map_map. destruct (T k t (or_introl eq_refl)) as [(s & -> & D) Tt].
  f_equal.
  - simpl name. simpl fmt. destruct t as [v|d1]; [reflexivity|].
    rewrite flat_paths; auto. intros ->. destruct (B (KStr "") (Node d1) (or_introl eq_refl) eq_refl). discriminate.
  - apply IHd; intros k' t' I; [apply T|apply B]; simpl; auto.
Qed.

Lemma split_ne s : split s <> [].
Proof. destruct s as [|c s]; simpl; [discriminate|]. destruct (Ascii.eqb c "."); [discriminate|]. destruct (split s); discriminate. Qed.
Lemma split_plain s : dotted s = false -> split s = [s].
Proof.
  induction s as [|c s IH]; simpl; auto. intros D. apply orb_false_elim in D as [D1 D2].
  rewrite D1, IH; auto.
Qed.
Lemma split_dot s r : dotted s = false -> split (s ++ "." ++ r) = s :: split r.
Proof.
  induction s as [|c s IH]; [reflexivity|]. simpl. intros D. apply orb_false_elim in D as [D1 D2].
  rewrite D1. change ("." ++ r) with (String "." r) in IH. simpl in IH. rewrite IH; auto.
Qed.
Lemma split_join l : l <> [] -> Forall (fun s => dotted s = false) l -> split (join l) = l.
Proof.
  induction l as [|s l IH]; [congruence|]. intros _ F. inversion F; subst.
  destruct l as [|x l]; [now apply split_plain|].
  rewrite join_cons, split_dot by (auto; discriminate). rewrite IH; auto; discriminate.
Qed.
Lemma split_dotted s : Forall (fun t => dotted t = false) (split s).
Proof.
  induction s as [|c s IH]; simpl; [repeat constructor|].
  destruct (Ascii.eqb c ".") eqn:C; [constructor; auto|].
  destruct (split s) as [|t l]; constructor; auto.
  - simpl. now rewrite C.
  - inversion IH; subst. simpl. rewrite C. auto.
  - now inversion IH.
Qed.
Lemma join_split s : join (split s) = s.
Proof.
  induction s as [|c s IH]; simpl; auto. destruct (Ascii.eqb c ".") eqn:C.
  - apply Ascii.eqb_eq in C. subst. rewrite join_cons by apply split_ne. simpl. now rewrite IH.
  - pose proof (split_ne s). destruct (split s) as [|t l]; [congruence|].
    rewrite <- IH. destruct l; reflexivity.
Qed.

(** Paths. *)
Lemma paths_plain t : tidy t -> forall p v, In (p, v) (paths t) -> Forall (fun s => dotted s = false) p.
Proof.
  induction t as [v0|d IH] using tree_ind2; intros T p v I.
  - destruct I as [[= <- <-]|[]]. constructor.
  - apply tidy_node in T as [_ T]. simpl in I. induction d as [|[k t] d IHd]; [destruct I|].
    inversion IH as [|x l I1 I2]; subst. destruct (T k t (or_introl eq_refl)) as [(s & -> & D) Tt].
    apply in_app_or in I as [I|I].
    + apply in_map_iff in I as ([p' v'] & [= <- <-] & I). simpl. constructor; auto. eapply I1; eauto.
    + apply IHd; auto. intros k' t' J. apply T. simpl. auto.
Qed.
Lemma paths_in d p v : In (p, v) (paths (Node d)) <->
  exists k t p', In (k, t) d /\ p = name k :: p' /\ In (p', v) (paths t).
Proof.
  simpl. induction d as [|[k t] d IH].
  - split; [intros []|intros (? & ? & ? & [] & _)].
  - rewrite in_app_iff, IH. split.
    + intros [I|(k' & t' & p' & I & E & J)].
      * apply in_map_iff in I as ([p' v'] & [= <- <-] & I). exists k, t, p'. simpl. auto.
      * exists k', t', p'. simpl. auto.
    + intros (k' & t' & p' & [[= <- <-]|I] & E & J).
      * left. apply in_map_iff. exists (p', v). subst. auto.
      * right. exists k', t', p'. auto.
Qed.
Lemma nodup_map_inj {X Y} (f : X -> Y) l : NoDup l -> (forall x y, In x l -> In y l -> f x = f y -> x = y) -> NoDup (map f l).
Proof.
  induction l as [|x l IH]; intros N F; simpl; constructor; inversion N; subst.
  - intros I. apply in_map_iff in I as (y & E & J). apply F in E; simpl; auto. subst. auto.
  - apply IH; auto. intros a b A B. apply F; simpl; auto.
Qed.
Lemma nodup_app {X} (l m : list X) : NoDup l -> NoDup m -> (forall x, In x l -> ~ In x m) -> NoDup (l ++ m).
Proof.
  induction l as [|x l IH]; simpl; auto. intros N M D. inversion N; subst. constructor.
  - intros I. apply in_app_or in I as [I|I]; auto. eapply D; eauto.
  - apply IH; auto.
Qed.
Lemma paths_nodup t : tidy t -> proper t -> NoDup (map fst (paths t)).
Proof.
  induction t as [v0|d IH] using tree_ind2; intros T Pr.
  - repeat constructor. intros [].
  - apply tidy_node in T as [_ T]. apply proper_node in Pr as [Nd Pr].
    induction d as [|[k t] d IHd]; [constructor|].
    change (paths (Node ((k, t) :: d))) with
      (map (fun pv => (name k :: fst pv, snd pv)) (paths t) ++ paths (Node d))%list.
    inversion IH as [|x l I1 I2]; subst. destruct (T k t (or_introl eq_refl)) as [(s & -> & D) Tt].
    inversion Nd as [|x l N1 N2]; subst.
    rewrite map_app, map_map. simpl. apply nodup_app.
    + rewrite <- map_map with (f := fst) (g := fun p => s :: p). apply nodup_map_inj.
      * apply I1; auto. apply (Pr (KStr s)). simpl. auto.
      * intros x y _ _ [= ->]. auto.
    + apply IHd; auto.
      * intros k' t' I. apply T. simpl. auto.
      * intros k' t' I. apply (Pr k'). simpl. auto.
    + intros p I J. apply in_map_iff in I as ([p1 v1] & <- & I). simpl in J.
      apply in_map_iff in J as ([p2 v2] & E & J). simpl in E. subst.
      apply (proj1 (paths_in d _ _)) in J as (k' & t' & p' & Ik & [= E _] & _).
      destruct (T k' t' (or_intror Ik)) as [(s' & -> & _) _]. simpl in E. subst s'.
      apply N1. apply in_map_iff. exists (KStr s, t'). auto.
Qed.
Lemma paths_ne d p v : In (p, v) (paths (Node d)) -> p <> [].
Proof. intros I. apply paths_in in I as (? & ? & ? & _ & -> & _). discriminate. Qed.
Lemma paths_some t : tidy t -> paths t <> [].
Proof.
  induction t as [v|d IH] using tree_ind2; [discriminate|]. intros T. apply tidy_node in T as [Ne T].
  destruct d as [|[k t] d]; [congruence|]. simpl. inversion IH; subst.
  destruct (T k t (or_introl eq_refl)) as [_ Tt]. intros E. apply app_eq_nil in E as [E _].
  apply map_eq_nil in E. simpl in *. tauto.
Qed.

(** Rebuilding. *)
Definition ins_all (l : list (list string * V)) (out : option (list (key * tree))) : option (list (key * tree)) :=
  fold_left (fun out pv => match out with None => None | Some o => insert (fst pv) (Leaf (snd pv)) o end) l out.

Lemma ins_all_none l : ins_all l None = None.
Proof. induction l; auto. Qed.

Lemma dset_twice {X} k (v v' : X) (d : list (key * X)) : dset k v (dset k v' d) = dset k v d.
Proof.
  induction d as [|[k' x] d IH]; simpl; [now rewrite eqb_refl|].
  destruct (eqb k k') eqn:E; simpl; rewrite E; congruence.
Qed.

Lemma insert_cons s p (v : tree) (out : list (key * tree)) : p <> [] -> insert (s :: p) v out =
  match match dget (KStr s) out with
        | None => insert p v [] | Some (Node d) => insert p v d | Some (Leaf _) => None end with
  | None => None | Some d' => Some (dset (KStr s) (Node d') out) end.
Proof. destruct p; [congruence|reflexivity]. Qed.

Lemma ins_under s l : forall out d, l <> [] -> (forall p v, In (p, v) l -> p <> []) ->
  (dget (KStr s) out = None /\ d = []) \/ dget (KStr s) out = Some (Node d) ->
  ins_all (map (fun pv => (s :: fst pv, snd pv)) l) (Some out) =
  match ins_all l (Some d) with None => None | Some d' => Some (dset (KStr s) (Node d') out) end.
Proof.
  induction l as [|[p v] l IH]; [congruence|]. intros out d _ Ne G. simpl map.
  change (ins_all ((s :: p, v) :: map (fun pv => (s :: fst pv, snd pv)) l) (Some out)) with
    (ins_all (map (fun pv => (s :: fst pv, snd pv)) l) (insert (s :: p) (Leaf v) out)).
  change (ins_all ((p, v) :: l) (Some d)) with (ins_all l (insert p (Leaf v) d)).
  rewrite insert_cons by (apply (Ne p v); simpl; auto).
  assert (match dget (KStr s) out with None => insert p (Leaf v) [] | Some (Node d) => insert p (Leaf v) d
          | Some (Leaf _) => None end = insert p (Leaf v) d) as ->.
  { destruct G as [[-> ->]| ->]; auto. }
  destruct (insert p (Leaf v) d) as [d1|]; [|now rewrite !ins_all_none].
  destruct l as [|pv l]; [reflexivity|].
  rewrite (IH _ d1); try discriminate.
  - destruct (ins_all (pv :: l) (Some d1)); auto. now rewrite dset_twice.
  - intros p' v' I. apply (Ne p' v'). simpl. auto.
  - right. now rewrite dget_set_same.
Qed.

Lemma fresh_key k (d : list (key * tree)) : ~ In k (map fst d) -> dhas k d = false /\ dget k d = None.
Proof. intros N. split; [|now apply dget_none]. rewrite dhas_get. apply dget_none in N. now rewrite N. Qed.

Lemma rebuild t : tidy t -> proper t ->
  match t with
  | Leaf _ => True
  | Node d => ins_all (paths (Node d)) (Some []) = Some d
  end.
Proof.
  induction t as [v|d IH] using tree_ind2; auto. intros T Pr.
  apply tidy_node in T as [_ T]. apply proper_node in Pr as [Nd Pr].
  assert (forall out, (forall k, In k (map fst d) -> ~ In k (map fst out)) ->
    ins_all (paths (Node d)) (Some out) = Some (out ++ d)%list) as H; [|apply (H []); auto].
  induction d as [|[k t] d IHd]; intros out Fr; [now rewrite app_nil_r|].
  change (paths (Node ((k, t) :: d))) with
    (map (fun pv => (name k :: fst pv, snd pv)) (paths t) ++ paths (Node d))%list.
  inversion IH as [|x l I1 I2]; subst. destruct (T k t (or_introl eq_refl)) as [(s & -> & D) Tt].
  inversion Nd as [|x l N1 N2]; subst.
  assert (proper t) as Pt by (apply (Pr (KStr s)); simpl; auto).
  assert (~ In (KStr s) (map fst out)) as Fk by (apply Fr; simpl; auto).
  apply fresh_key in Fk as [F1 F2].
  unfold ins_all. rewrite fold_left_app. fold (ins_all (map (fun pv => (name (KStr s) :: fst pv, snd pv)) (paths t)) (Some out)).
  assert (ins_all (map (fun pv => (s :: fst pv, snd pv)) (paths t)) (Some out) = Some (out ++ [(KStr s, t)])%list) as E.
  { destruct t as [v|d1].
    - simpl. now rewrite dset_fresh.
    - rewrite (ins_under s _ out []); auto.
      + cbv beta iota delta [snd] in I1. rewrite I1 by auto. now rewrite dset_fresh.
      + now apply paths_some.
      + apply paths_ne. }
  simpl name. rewrite E. fold (ins_all (paths (Node d)) (Some (out ++ [(KStr s, t)])%list)).
  rewrite IHd; auto.
  - now rewrite <- app_assoc.
  - intros k' t' I. apply T. simpl. auto.
  - intros k' t' I. apply (Pr k'). simpl. auto.
  - intros k I J. rewrite map_app in J. apply in_app_or in J as [J|[<-|[]]]; auto.
    apply (Fr k); simpl; auto.
Qed.

(** From paths to structure. *)
Lemma dget_entry k t (d : list (key * tree)) : NoDup (map fst d) -> In (k, t) d -> dget k d = Some t.
Proof. intros. now apply dget_in_wf. Qed.

Lemma tidy_from_paths t : proper t ->
  (forall p k, at_path t (p ++ [k]) <> None -> plain k) ->
  (forall p, at_path t p = Some ADict -> exists k, at_path t (p ++ [k]) <> None) -> tidy t.
Proof.
  induction t as [v|d IH] using tree_ind2; [simpl; auto|]. intros Pr G1 G2.
  apply proper_node in Pr as [Nd Pr]. apply tidy_node. split.
  - destruct (G2 [] eq_refl) as [k G]. intros ->. apply G. reflexivity.
  - rewrite Forall_forall in IH. intros k t I.
    pose proof (dget_entry k t d Nd I) as E. split.
    + apply (G1 []). simpl. rewrite E. destruct t; discriminate.
    + apply (IH (k, t) I).
      * eapply Pr; eauto.
      * intros p k' H. apply (G1 (k :: p)). simpl. now rewrite E.
      * intros p H. destruct (G2 (k :: p)) as [k' G]; [simpl; now rewrite E|].
        exists k'. simpl in G. now rewrite E in G.
Qed.

Lemma good_structure d : good (Node d) -> proper (Node d) ->
  entries (fun k t => plain k /\ tidy t) d /\ no_blank d.
Proof.
  intros (_ & G1 & G2 & G3) Pr. apply proper_node in Pr as [Nd Pr]. split; intros k t I;
    pose proof (dget_entry k t d Nd I) as E.
  - split.
    + apply (G1 []). simpl. rewrite E. destruct t; discriminate.
    + apply tidy_from_paths.
      * eapply Pr; eauto.
      * intros p k' H. apply (G1 (k :: p)). simpl. now rewrite E.
      * intros p H. destruct (G2 (k :: p)) as [k' G]; [discriminate|simpl; now rewrite E|].
        exists k'. simpl in G. now rewrite E in G.
  - intros ->. destruct t as [v|d1]; eauto. exfalso. apply G3. simpl. now rewrite E.
Qed.

Lemma structure_good d : entries (fun k t => plain k /\ tidy t) d ->
  (forall t, dget (KStr "") d = Some t -> exists v, t = Leaf v) -> good (Node d).
Proof.
  assert (forall t, tidy t ->
    (forall p k, at_path t (p ++ [k]) <> None -> plain k) /\
    (forall p, at_path t p = Some ADict -> exists k, at_path t (p ++ [k]) <> None)) as H.
  { intros t. induction t as [v|d' IH] using tree_ind2; intros T.
    - split; intros [|? ?] ? ; simpl in *; congruence.
    - apply tidy_node in T as [Ne T]. rewrite Forall_forall in IH. split.
      + intros [|k p] k' A; simpl in A.
        * destruct (dget k' d') as [t|] eqn:E; [|congruence]. apply dget_in in E. now apply (T k' t).
        * destruct (dget k d') as [t|] eqn:E; [|congruence]. apply dget_in in E.
          destruct (T k t E) as [_ Tt]. destruct (IH (k, t) E Tt) as [H _]. eapply H; eauto.
      + intros [|k p] A; simpl in A.
        * destruct d' as [|[k t] d']; [congruence|]. exists k. simpl. rewrite eqb_refl. destruct t; discriminate.
        * destruct (dget k d') as [t|] eqn:E; [|discriminate]. apply dget_in in E as E'.
          destruct (T k t E') as [_ Tt]. destruct (IH (k, t) E' Tt) as [_ H].
          destruct (H p A) as [k' B]. exists k'. simpl. now rewrite E. }
  intros T B. split; [reflexivity|]. split; [|split].
  - intros [|k p] k' A; simpl in A.
    + destruct (dget k' d) as [t|] eqn:E; [|congruence]. apply dget_in in E. now apply (T k' t).
    + destruct (dget k d) as [t|] eqn:E; [|congruence]. apply dget_in in E.
      destruct (T k t E) as [_ Tt]. eapply H; eauto.
  - intros [|k p] Ne A; [congruence|]. simpl in A.
    destruct (dget k d) as [t|] eqn:E; [|discriminate]. apply dget_in in E as E'.
    destruct (T k t E') as [_ Tt]. destruct (H t Tt) as [_ H2].
    destruct (H2 p A) as [k' C]. exists k'. simpl. now rewrite E.
  - simpl. destruct (dget (KStr "") d) as [t|] eqn:E; [|discriminate].
    destruct (B t eq_refl) as [v ->]. discriminate.
Qed.

(** The flat dictionary of a good one. *)
Lemma flatten_good d : good (Node d) -> proper (Node d) ->
  flatten (Node d) = Node (map (fun pv => (KStr (join (fst pv)), Leaf (snd pv))) (paths (Node d))) /\
  NoDup (map (fun pv => KStr (K:=K) (join (fst pv))) (paths (Node d))) /\
  (forall p v, In (p, v) (paths (Node d)) -> p <> [] /\ Forall (fun s => dotted s = false) p).
Proof.
  intros G Pr. destruct (good_structure d G Pr) as [T B].
  assert (forall p v, In (p, v) (paths (Node d)) -> p <> [] /\ Forall (fun s => dotted s = false) p) as F.
  { intros p v I. split; [eapply paths_ne; eauto|]. destruct d as [|x d]; [destruct I|].
    eapply paths_plain; [|exact I]. apply tidy_node. split; [discriminate|auto]. }
  assert (NoDup (map (fun pv => KStr (K:=K) (join (fst pv))) (paths (Node d)))) as N.
  { rewrite <- map_map with (f := fst) (g := fun p => KStr (join p)). apply nodup_map_inj.
    - destruct d as [|x d]; [constructor|]. apply paths_nodup; auto. apply tidy_node. split; [discriminate|auto].
    - intros p q I J [= E]. apply in_map_iff in I as ([p' v] & <- & I). apply in_map_iff in J as ([q' w] & <- & J).
      simpl in *. destruct (F p' v I) as [P1 P2]. destruct (F q' w J) as [Q1 Q2].
      rewrite <- (split_join p'), <- (split_join q') by auto. now rewrite E. }
  split; [|split; auto].
  unfold FlatModel.flatten. rewrite flat_top by auto. rewrite map_map. f_equal. apply dict_of_nodup.
  rewrite map_map. exact N.
Qed.

Lemma unflatten_paths l : (forall p v, In (p, v) l -> p <> [] /\ Forall (fun s => dotted s = false) p) ->
  forall out, fold_left (unflatten_one (EK:=EK)) (map (fun pv => (KStr (join (fst pv)), Leaf (snd pv))) l) out = ins_all l out.
Proof.
  induction l as [|[p v] l IH]; intros F out; auto. simpl map. simpl fold_left. rewrite IH by (intros; apply (F _ v0); simpl; auto).
  unfold ins_all. simpl. f_equal. unfold unflatten_one. simpl. destruct out; auto.
  destruct (F p v (or_introl eq_refl)). now rewrite split_join.
Qed.

Lemma roundtrip (t : tree) : good t -> proper t -> unflatten (flatten t) = Some t.
Proof.
  destruct t as [v|d]; [intros [G _]; discriminate|]. intros G Pr.
  destruct (flatten_good d G Pr) as (-> & _ & F). unfold unflatten.
  rewrite unflatten_paths by auto.
  destruct (good_structure d G Pr) as [T _].
  destruct d as [|x d]; [reflexivity|].
  assert (tidy (Node (x :: d))) as Ti by (apply tidy_node; split; [discriminate|auto]).
  pose proof (rebuild (Node (x :: d)) Ti Pr) as R. cbv beta iota in R. now rewrite R.
Qed.

(** The only ones. *)
Lemma insert_tidy tokens v : Forall (fun s => dotted s = false) tokens -> forall (d d' : list (key * tree)),
  insert tokens (Leaf v) d = Some d' -> entries (fun k t => plain k /\ tidy t) d ->
  entries (fun k t => plain k /\ tidy t) d' /\ d' <> [].
Proof.
  assert (forall k t (d : list (key * tree)), dset k t d <> []) as Ne.
  { intros k t [|[k' t'] d]; simpl; [discriminate|]. destruct (eqb k k'); discriminate. }
  assert (forall k t (d : list (key * tree)) k' t', In (k', t') (dset k t d) -> (k' = k /\ t' = t) \/ In (k', t') d) as Ds.
  { intros k t d k' t'. induction d as [|[k2 t2] d IH]; simpl.
    - intros [[= <- <-]|[]]. auto.
    - destruct (eqb k k2) eqn:E; simpl.
      + apply eqb_eq in E. subst k2. intros [[= <- <-]|I]; auto.
      + intros [[= <- <-]|I]; auto. apply IH in I as [?|?]; auto. }
  induction tokens as [|s tokens IH]; intros F d d' I T; [discriminate|]. inversion F as [|x l F1 F2]; subst.
  assert (plain (K:=K) (KStr s)) as Ps by (exists s; auto).
  destruct tokens as [|s2 tokens].
  - injection I as <-. split; auto. intros k t J. apply Ds in J as [[-> ->]|J]; [|now apply T]. split; simpl; auto.
  - rewrite insert_cons in I by discriminate.
    assert (forall d0 d1, insert (s2 :: tokens) (Leaf v) d0 = Some d1 -> entries (fun k t => plain k /\ tidy t) d0 ->
      entries (fun k t => plain k /\ tidy t) (dset (KStr s) (Node d1) d)) as H.
    { intros d0 d1 I1 T0. destruct (IH F2 _ _ I1 T0) as [T1 N1]. intros k t J.
      apply Ds in J as [[-> ->]|J]; [|now apply T]. split; auto. apply tidy_node. auto. }
    destruct (dget (KStr s) d) as [[w|d0]|] eqn:E; [discriminate| |].
    + destruct (insert (s2 :: tokens) (Leaf v) d0) as [d1|] eqn:I1; [|discriminate]. injection I as <-.
      split; auto. eapply H; eauto. apply dget_in in E. destruct (T _ _ E) as [_ T0].
      now apply tidy_node in T0 as [_ T0].
    + destruct (insert (s2 :: tokens) (Leaf v) []) as [d1|] eqn:I1; [|discriminate]. injection I as <-.
      split; auto. eapply H; eauto. intros k t [].
Qed.

Definition undotted_start (s : string) : Prop := match s with EmptyString => True | String c _ => c <> "."%char end.

Lemma insert_blank k v (d d' : list (key * tree)) : undotted_start k -> insert (split k) (Leaf v) d = Some d' ->
  (forall t, dget (KStr "") d = Some t -> exists v, t = Leaf v) ->
  (forall t, dget (KStr "") d' = Some t -> exists v, t = Leaf v).
Proof.
  intros U I B t. destruct k as [|c k]; simpl in I.
  - injection I as <-. rewrite dget_set_same. intros [= <-]. eauto.
  - destruct (Ascii.eqb c ".") eqn:C; [apply Ascii.eqb_eq in C; simpl in U; congruence|].
    assert (exists s tokens, match split k with [] => [String c ""] | t :: l => String c t :: l end = String c s :: tokens)
      as (s & tokens & E) by (destruct (split k); eauto).
    rewrite E in I. destruct tokens as [|s2 tokens].
    + injection I as <-. rewrite dget_set_other by discriminate. apply B.
    + rewrite insert_cons in I by discriminate.
      destruct (match dget (KStr (String c s)) d with None => _ | Some _ => _ end); [|discriminate].
      injection I as <-. rewrite dget_set_other by discriminate. apply B.
Qed.

(** The keys at all levels are plain. *)
Fixpoint all_plain (t : tree) : Prop :=
  match t with
  | Leaf _ => True
  | Node d => (fix all d := match d with [] => True | (k, t') :: d' => plain k /\ all_plain t' /\ all d' end) d
  end.
Lemma all_plain_node d : all_plain (Node d) <-> entries (fun k t => plain k /\ all_plain t) d.
Proof.
  simpl. induction d as [|[k t] d IH].
  - split; [intros _ k t []|auto].
  - rewrite IH. split.
    + intros (A & B & C) k' t' [[= <- <-]|I]; auto.
    + intros E. destruct (E k t (or_introl eq_refl)) as [A B]. split; [exact A|]. split; [exact B|]. intros k' t' I. apply E. simpl. auto.
Qed.
Lemma all_plain_paths t : proper t -> (forall p k, at_path t (p ++ [k]) <> None -> plain k) -> all_plain t.
Proof.
  induction t as [v|d IH] using tree_ind2; [simpl; auto|]. intros Pr G.
  apply proper_node in Pr as [Nd Pr]. apply all_plain_node. rewrite Forall_forall in IH. intros k t I.
  pose proof (dget_entry k t d Nd I) as E. split.
  - apply (G []). simpl. rewrite E. destruct t; discriminate.
  - apply (IH (k, t) I); [eapply Pr; eauto|]. intros p k' H. apply (G (k :: p)). simpl. now rewrite E.
Qed.

Lemma undotted_app a b : undotted_start a -> undotted_start b -> undotted_start (a ++ b).
Proof. destruct a; simpl; auto. Qed.

Lemma flat_start t : all_plain t -> forall prefix, undotted_start prefix ->
  forall k v, In (k, v) (flat prefix t) -> undotted_start k.
Proof.
  induction t as [v0|d IH] using tree_ind2; intros A prefix U k v I.
  - destruct I as [[= <- <-]|[]]. auto.
  - pose proof (proj1 (all_plain_node d) A) as A'. clear A. simpl in I.
    induction d as [|[k1 t] d IHd]; [destruct I|].
    inversion IH as [|x l I1 I2]; subst. destruct (A' k1 t (or_introl eq_refl)) as [(s & -> & D) At].
    apply in_app_or in I as [I|I].
    + refine (I1 At _ _ k v I). destruct prefix as [|c prefix]; [|exact U].
      destruct s as [|c s]; [exact Logic.I|]. simpl in D. apply orb_false_elim in D as [D _].
      simpl. intros ->. discriminate.
    + apply IHd; auto. intros k' t' J. apply A'. simpl. auto.
Qed.

Lemma unflatten_flat (l : list (key * tree)) : (forall k t, In (k, t) l -> exists s v, k = KStr s /\ t = Leaf v) ->
  forall d d' : list (key * tree), fold_left (unflatten_one (EK:=EK)) l (Some d) = Some d' ->
  (entries (fun k t => plain k /\ tidy t) d -> entries (fun k t => plain k /\ tidy t) d') /\
  ((forall s t, In (KStr s, t) l -> undotted_start s) ->
   (forall t, dget (KStr "") d = Some t -> exists v, t = Leaf v) ->
   (forall t, dget (KStr "") d' = Some t -> exists v, t = Leaf v)).
Proof.
  induction l as [|[k t] l IH]; intros F d d' E; [injection E as <-; auto|].
  destruct (F k t (or_introl eq_refl)) as (s & v & -> & ->).
  simpl in E. destruct (insert (split s) (Leaf v) d) as [d1|] eqn:I.
  - destruct (IH (fun k t J => F k t (or_intror J)) d1 d' E) as [H1 H2]. split.
    + intros T. apply H1. exact (proj1 (insert_tidy (split s) v (split_dotted s) d d1 I T)).
    + intros U B. apply H2; [intros; eapply U; simpl; eauto|].
      eapply insert_blank; eauto. apply (U s (Leaf v)). simpl. auto.
  - exfalso. clear - E. induction l; simpl in E; [discriminate|auto].
Qed.

Lemma dict_of_in {X} (l : list (key * X)) k x : In (k, x) (dict_of l) -> In (k, x) l.
Proof.
  unfold dict_of, dupdate.
  assert (forall d, In (k, x) (fold_left (fun d p => dset (fst p) (snd p) d) l d) -> In (k, x) d \/ In (k, x) l) as H.
  { induction l as [|[k1 x1] l IH]; intros d I; simpl in *; auto.
    apply IH in I as [I|I]; auto.
    assert (forall d : list (key * X), In (k, x) (dset k1 x1 d) -> In (k, x) d \/ (k1, x1) = (k, x)) as H.
    { clear. intros d. induction d as [|[k2 x2] d IH]; simpl.
      - intros [E|[]]. auto.
      - destruct (eqb k1 k2) eqn:E; simpl.
        + apply eqb_eq in E. subst. intros [I|I]; auto.
        + intros [I|I]; auto. apply IH in I as [?|?]; auto. }
    apply H in I as [I|I]; auto. }
  intros I. destruct (H [] I) as [[]|J]; auto.
Qed.

Lemma only_good (t t' : tree) : proper t -> unflatten (flatten t) = Some t' -> same t' t -> good t.
Proof.
  destruct t as [v|d]; [discriminate|]. intros Pr U S.
  unfold unflatten, FlatModel.flatten in U.
  set (l := dict_of (map (fun p => (KStr (fst p), Leaf (snd p))) (flat "" (Node d)))) in *.
  destruct (fold_left (unflatten_one (EK:=EK)) l (Some [])) as [out|] eqn:E; [|discriminate]. injection U as <-.
  assert (forall k t, In (k, t) l -> exists s v, k = KStr s /\ t = Leaf v /\ In (s, v) (flat "" (Node d))) as F.
  { intros k t I. apply dict_of_in in I. apply in_map_iff in I as ([s v] & [= <- <-] & I). simpl. eauto 6. }
  destruct (unflatten_flat l (fun k t I => let '(ex_intro _ s (ex_intro _ v (conj a (conj b _)))) := F k t I in
    ex_intro _ s (ex_intro _ v (conj a b))) [] out E) as [H1 H2].
  assert (entries (fun k t => plain k /\ tidy t) out) as T by (apply H1; intros k t []).
  assert (forall p k, at_path (Node d) (p ++ [k]) <> None -> plain k) as G1.
  { intros p k A. rewrite <- (S (p ++ [k])%list) in A.
    assert (forall t, tidy t -> forall p k, at_path t (p ++ [k]) <> None -> plain k) as HH.
    { intros t0. induction t0 as [v|d0 IH] using tree_ind2; intros T0 p0 k0 A0.
      - destruct p0; simpl in A0; congruence.
      - apply tidy_node in T0 as [_ T0]. rewrite Forall_forall in IH. destruct p0 as [|k1 p0]; simpl in A0.
        + destruct (dget k0 d0) as [t1|] eqn:X; [|congruence]. apply dget_in in X. now apply (T0 k0 t1).
        + destruct (dget k1 d0) as [t1|] eqn:X; [|congruence]. apply dget_in in X.
          destruct (T0 k1 t1 X) as [_ T1]. eapply (IH (k1, t1)); eauto. }
    destruct out as [|x out]; [destruct p; simpl in A; congruence|].
    eapply HH; eauto. apply tidy_node. split; [discriminate|auto]. }
  assert (all_plain (Node d)) as Ap by (apply all_plain_paths; auto).
  assert (good (Node out)) as G.
  { apply structure_good; auto. apply H2; [|discriminate].
    intros s t I. destruct (F _ _ I) as (s' & v & [= <-] & _ & J).
    eapply (flat_start (Node d)); eauto. simpl. auto. }
  destruct G as (A & B & C & D). repeat split.
  - exact G1.
  - intros p Ne X. rewrite <- (S p) in X. destruct (C p Ne X) as [k Y]. exists k. now rewrite <- (S (p ++ [k])%list).
  - now rewrite <- (S [KStr ""]).
Qed.

(** The other way round. *)
Definition under (p q : list string) : Prop := exists r, q = (p ++ r)%list.

Lemma in_dset k t (d : list (key * tree)) k' t' : NoDup (map fst d) ->
  (In (k', t') (dset k t d) <-> (k' = k /\ t' = t) \/ (k' <> k /\ In (k', t') d)).
Proof.
  intros Nd. induction d as [|[k2 t2] d IH]; simpl.
  - split; [intros [[= <- <-]|[]]; auto|]. intros [[-> ->]|[_ []]]. auto.
  - inversion Nd as [|x l N1 N2]; subst. destruct (eqb k k2) eqn:E; simpl.
    + apply eqb_eq in E. subst k2. split.
      * intros [[= <- <-]|I]; auto. right. split; auto. intros ->. apply N1. apply in_map_iff. exists (k, t'). auto.
      * intros [[-> ->]|[Ne [[= <- _]|I]]]; auto. congruence.
    + apply eqb_neq in E. rewrite IH by auto. split.
      * intros [[= <- <-]|[[-> ->]|[Ne I]]]; auto.
      * intros [[-> ->]|[Ne [[= <- <-]|I]]]; auto.
Qed.

Lemma dset_proper k t (d : list (key * tree)) : proper (Node d) -> proper t -> proper (Node (dset k t d)).
Proof.
  intros Pr Pt. apply proper_node in Pr as [Nd Pr]. apply proper_node. split.
  - now apply dset_wf.
  - intros k' t' I. apply in_dset in I as [[-> ->]|[_ I]]; auto. eapply Pr; eauto.
Qed.

Lemma insert_paths v p : forall d : list (key * tree), p <> [] -> Forall (fun s => dotted s = false) p ->
  proper (Node d) -> entries (fun k t => plain k /\ tidy t) d ->
  (forall q w, In (q, w) (paths (Node d)) -> ~ under p q /\ ~ under q p) ->
  exists d', insert p (Leaf v) d = Some d' /\ proper (Node d') /\
  forall q w, In (q, w) (paths (Node d')) <-> In (q, w) (paths (Node d)) \/ (q, w) = (p, v).
Proof.
  induction p as [|s p IH]; [congruence|]. intros d _ Fp Pr T A. inversion Fp as [|x l F1 F2]; subst.
  pose proof (proj1 (proper_node d) Pr) as [Nd Pr'].
  assert (forall t, dget (KStr s) d = Some t -> forall q w, In (q, w) (paths t) -> In (s :: q, w) (paths (Node d))) as In1.
  { intros t G q w I. apply paths_in. apply dget_in in G. exists (KStr s), t, q. auto. }
  assert (forall t q w, In (q, w) (paths (Node (dset (KStr s) t d))) <->
    (exists q', q = s :: q' /\ In (q', w) (paths t)) \/
    (exists k t1 q', k <> KStr s /\ In (k, t1) d /\ q = name k :: q' /\ In (q', w) (paths t1))) as Ds.
  { intros t q w. rewrite paths_in. split.
    - intros (k & t1 & q' & I & -> & J). apply in_dset in I as [[-> ->]|[Ne I]]; auto; [left; eauto|].
      right. exists k, t1, q'. auto.
    - intros [(q' & -> & J)|(k & t1 & q' & Ne & I & -> & J)].
      + exists (KStr s), t, q'. rewrite in_dset by auto. auto.
      + exists k, t1, q'. rewrite in_dset by auto. auto. }
  assert (forall q w, In (q, w) (paths (Node d)) <->
    (exists t q', dget (KStr s) d = Some t /\ q = s :: q' /\ In (q', w) (paths t)) \/
    (exists k t1 q', k <> KStr s /\ In (k, t1) d /\ q = name k :: q' /\ In (q', w) (paths t1))) as Dd.
  { intros q w. rewrite paths_in. split.
    - intros (k & t1 & q' & I & -> & J). destruct (eqb k (KStr s)) eqn:E.
      + apply eqb_eq in E. subst k. left. exists t1, q'. split; auto. now apply dget_entry.
      + apply eqb_neq in E. right. exists k, t1, q'. auto.
    - intros [(t & q' & G & -> & J)|(k & t1 & q' & Ne & I & -> & J)].
      + exists (KStr s), t, q'. apply dget_in in G. auto.
      + exists k, t1, q'. auto. }
  destruct p as [|s2 p].
  - exists (dset (KStr s) (Leaf v) d). split; [reflexivity|]. split; [apply dset_proper; simpl; auto|].
    intros q w. rewrite Ds, Dd.
    assert (dget (KStr s) d = None) as G.
    { destruct (dget (KStr s) d) as [t|] eqn:G; auto. exfalso. apply dget_in in G as I.
      destruct (T _ _ I) as [_ Tt]. apply paths_some in Tt. destruct (paths t) as [|[q0 w0] l] eqn:X; [congruence|].
      destruct (A (s :: q0) w0) as [A1 _]; [eapply In1; eauto; rewrite X; simpl; auto|].
      apply A1. exists q0. reflexivity. }
    rewrite G. split.
    + intros [(q' & -> & [[= <- <-]|[]])|H]; auto.
    + intros [[(t & q' & ? & _)|H]|[= -> ->]]; [discriminate|auto|]. left. exists []. simpl. auto.
  - rewrite insert_cons by discriminate.
    assert (forall d0, proper (Node d0) -> entries (fun k t => plain k /\ tidy t) d0 ->
      (forall q w, In (q, w) (paths (Node d0)) <-> exists t, dget (KStr s) d = Some t /\ In (q, w) (paths t)) ->
      exists d', match insert (s2 :: p) (Leaf v) d0 with
                 | Some d' => Some (dset (KStr s) (Node d') d) | None => None end = Some d' /\ proper (Node d') /\
      forall q w, In (q, w) (paths (Node d')) <-> In (q, w) (paths (Node d)) \/ (q, w) = (s :: s2 :: p, v)) as H.
    { intros d0 P0 T0 In0. destruct (IH d0) as (d1 & -> & P1 & H1); auto; try discriminate.
      { intros q w I. apply In0 in I as (t & G & I). pose proof (In1 t G q w I) as J. apply A in J as [J1 J2].
        split; intros (r & X); [apply J1|apply J2]; exists r; simpl in *; now rewrite X. }
      exists (dset (KStr s) (Node d1) d). split; [reflexivity|]. split; [now apply dset_proper|].
      intros q w. rewrite Ds, Dd. split.
      - intros [(q' & -> & J)|J]; auto. apply H1 in J as [J|[= -> ->]]; auto.
        apply In0 in J as (t & G & J). left. left. exists t, q'. auto.
      - intros [[(t & q' & G & -> & J)|J]|[= -> ->]]; auto; left.
        + exists q'. split; auto. apply H1. left. apply In0. eauto.
        + exists (s2 :: p). split; auto. apply H1. auto. }
    destruct (dget (KStr s) d) as [[w|d0]|] eqn:G.
    + exfalso. destruct (A [s] w) as [_ A2]; [apply (In1 (Leaf w) eq_refl [] w); simpl; auto|].
      apply A2. exists (s2 :: p). reflexivity.
    + apply H.
      * apply dget_in in G. eapply Pr'; eauto.
      * apply dget_in in G. destruct (T _ _ G) as [_ Tt]. now apply tidy_node in Tt as [_ Tt].
      * intros q w. split; [intros I; eauto|]. intros (t & [= <-] & I). auto.
    + apply H.
      * simpl. split; [constructor|auto].
      * intros k t [].
      * intros q w. split; [intros []|]. intros (t & ? & _). discriminate.
Qed.

Lemma ins_all_paths l : NoDup (map fst l) ->
  (forall p v, In (p, v) l -> p <> [] /\ Forall (fun s => dotted s = false) p) ->
  (forall p v q w, In (p, v) l -> In (q, w) l -> p <> q -> ~ under p q) ->
  forall d : list (key * tree), proper (Node d) -> entries (fun k t => plain k /\ tidy t) d ->
  (forall p v q w, In (p, v) l -> In (q, w) (paths (Node d)) -> ~ under p q /\ ~ under q p) ->
  exists d', ins_all l (Some d) = Some d' /\ proper (Node d') /\ entries (fun k t => plain k /\ tidy t) d' /\
  forall q w, In (q, w) (paths (Node d')) <-> In (q, w) (paths (Node d)) \/ In (q, w) l.
Proof.
  induction l as [|[p v] l IH]; intros Nd F U d Pr T A.
  - exists d. repeat split; auto; [apply (proj1 (proj1 (proper_node d) Pr))|apply Pr| | |].
    + now apply (T k t).
    + now apply (T k t).
    + intros [I|[]]; auto.
  - inversion Nd as [|x y N1 N2]; subst. destruct (F p v (or_introl eq_refl)) as [Ne Fp].
    destruct (insert_paths v p d Ne Fp Pr T) as (d1 & E & P1 & H1).
    { intros q w I. apply (A p v q w); simpl; auto. }
    destruct (insert_tidy p v Fp d d1 E T) as [T1 _].
    destruct (IH N2) with (d := d1) as (d' & E' & P' & T' & H'); auto.
    { intros p' v' I. apply (F p' v'). simpl. auto. }
    { intros p' v' q w I J. apply (U p' v' q w); simpl; auto. }
    { intros p' v' q w I J. apply H1 in J as [J|[= -> ->]].
      - apply (A p' v' q w); simpl; auto.
      - assert (p' <> p) as Np by (intros ->; apply N1, in_map_iff; exists (p, v'); auto).
        split; [eapply (U p' v' p v)|eapply (U p v p' v')]; simpl; auto. }
    exists d'. split; [|split; [auto|split; [auto|]]].
    + unfold ins_all. simpl. rewrite E. exact E'.
    + intros q w. rewrite H', H1. simpl. intuition.
Qed.

Lemma same_flat (d d' : list (key * tree)) : (forall k t, In (k, t) d -> exists v, t = Leaf v) ->
  (forall k, dget k d = dget k d') -> same (Node d) (Node d').
Proof.
  intros L E [|k p]; [reflexivity|]. simpl. rewrite <- E. destruct (dget k d) eqn:G; reflexivity.
Qed.

Lemma undotted_split s : (forall r, s <> String "." r) -> undotted_start s.
Proof. destruct s as [|c s]; simpl; auto. intros H ->. now apply (H s). Qed.

Lemma under_split s s' : under (split s) (split s') -> s = s' \/ exists r, s' = s ++ "." ++ r.
Proof.
  intros [r E]. rewrite <- (join_split s), <- (join_split s'), E.
  pose proof (split_ne s) as Ne. generalize dependent (split s). intros l _ Ne.
  destruct r as [|x r]; [left; now rewrite app_nil_r|]. right. exists (join (x :: r)).
  induction l as [|y l IH]; [congruence|].
  change ((y :: l) ++ x :: r)%list with (y :: (l ++ x :: r))%list.
  rewrite (join_cons y (l ++ x :: r)%list) by (destruct l; discriminate).
  destruct l as [|z l]; [reflexivity|].
  rewrite IH by discriminate. rewrite (join_cons y (z :: l)) by discriminate. rewrite !app_assoc_s. reflexivity.
Qed.

Lemma back (f : tree) : proper f -> flat_dict f -> clear f ->
  exists t, unflatten f = Some t /\ proper t /\ same (flatten t) f.
Proof.
  destruct f as [v|d]; [intros _ [X _]; discriminate|]. intros Pr (_ & F2 & F3) (C1 & C2).
  apply proper_node in Pr as [Nd Pr].
  assert (forall k t, In (k, t) d -> exists s v, k = KStr s /\ t = Leaf v) as L.
  { intros k t I. pose proof (dget_entry k t d Nd I) as G.
    destruct (F3 k) as [s ->]; [simpl; rewrite G; destruct t; discriminate|].
    destruct t as [v|d1]; eauto. exfalso. apply (F2 [KStr s]); [discriminate|]. simpl. now rewrite G. }
  assert (exists l : list (list string * V), d = map (fun pv => (KStr (join (fst pv)), Leaf (snd pv))) l /\
    forall p v, In (p, v) l -> exists s, p = split s /\ In (KStr s, Leaf v) d) as (l' & E & Hl).
  { clear - L. induction d as [|[k t] d IH].
    - exists []. split; auto. intros p v [].
    - destruct (L k t (or_introl eq_refl)) as (s & v & -> & ->).
      destruct IH as (l & E & H); [intros k t I; apply (L k t); simpl; auto|].
      exists ((split s, v) :: l). split; [simpl; rewrite join_split; congruence|].
      intros p w [[= <- <-]|I]; [exists s; simpl; auto|]. destruct (H p w I) as (s' & -> & J). exists s'. simpl. auto. }
  assert (forall p v, In (p, v) l' -> p <> [] /\ Forall (fun s => dotted s = false) p) as Fl.
  { intros p v I. destruct (Hl p v I) as (s & -> & _). split; [apply split_ne|apply split_dotted]. }
  assert (forall s v, In (KStr s, Leaf v) d -> at_path (Node d) [KStr s] <> None) as At.
  { intros s v I. simpl. rewrite (dget_entry _ _ d Nd I). discriminate. }
  destruct (ins_all_paths l') with (d := @nil (key * tree)) as (out & Eo & Po & To & Ho); auto.
  - rewrite E, map_map in Nd. apply NoDup_map_inv with (f := fun p => KStr (K:=K) (join p)).
    now rewrite map_map.
  - intros p v q w I J Ne U. destruct (Hl p v I) as (s & -> & Is). destruct (Hl q w J) as (s' & -> & Js).
    apply under_split in U as [->|[r ->]]; [congruence|].
    apply (At _ _ Js). apply C2. eapply At; eauto.
  - simpl. split; [constructor|auto].
  - intros k t [].
  - exists (Node out). assert (unflatten (Node d) = Some (Node out)) as Un.
    { unfold unflatten. rewrite E, unflatten_paths by auto. now rewrite Eo. }
    split; auto. split; auto.
    assert (good (Node out)) as G.
    { apply structure_good; auto.
      destruct (unflatten_flat d L [] out) as [_ H].
      + unfold unflatten in Un. destruct (fold_left _ d (Some [])); congruence.
      + refine (H _ _); [|intros t X; discriminate X]. intros s t I. apply undotted_split. intros r ->.
        destruct (L _ _ I) as (s' & v & _ & ->). apply (At _ _ I). apply C1. }
    destruct (flatten_good out G Po) as (-> & Nf & Fo).
    apply same_flat.
    + intros k t I. apply in_map_iff in I as ([p v] & [= <- <-] & _). eauto.
    + intros k.
      assert (forall k t, In (k, t) (map (fun pv => (KStr (join (fst pv)), Leaf (snd pv))) (paths (Node out))) <-> In (k, t) d) as Same.
      { intros k0 t0. rewrite E at 1. rewrite !in_map_iff. split; intros ([p v] & X & I); exists (p, v); split; auto.
        - apply Ho in I as [[]|I]. auto.
        - apply Ho. auto. }
      destruct (dget k d) as [t|] eqn:G1.
      * apply dget_in in G1. apply Same in G1. apply dget_in_wf; auto. unfold dwf, dkeys. now rewrite map_map.
      * apply dget_none. intros I. apply in_map_iff in I as ([k0 t0] & <- & I). apply Same in I.
        apply (dget_none _ d) in G1. apply G1. apply in_map_iff. exists (k0, t0). auto.
Qed.
(** Keys that are not strings are left as they are by unflatten. *)
Lemma insert_other k v : forall p (d d' : list (key * tree)), insert p v d = Some d' -> dget (KOther k) d' = dget (KOther k) d.
Proof.
  intros [|s p] d d' E; [discriminate|]. destruct p as [|s0 p].
  - injection E as <-. now apply dget_set_other.
  - rewrite insert_cons in E by discriminate.
    match type of E with match ?X with _ => _ end = _ => destruct X; [|discriminate] end.
    injection E as <-. now apply dget_set_other.
Qed.
Lemma others_kept k : forall (l : list (key * tree)) out out', NoDup (map fst l) ->
  fold_left unflatten_one l (Some out) = Some out' ->
  dget (KOther k) out' = match dget (KOther k) l with Some t => Some t | None => dget (KOther k) out end.
Proof.
  induction l as [|[[s|k'] t] l IH]; intros out out' N E; simpl in E; [injection E as <-; reflexivity| |];
    inversion N as [|x y N1 N2]; subst.
  - destruct (insert (split s) t out) as [o|] eqn:X.
    + rewrite (IH _ _ N2 E). simpl. rewrite (insert_other _ _ _ _ _ X). reflexivity.
    + exfalso. clear -E. induction l; simpl in E; [discriminate|auto].
  - rewrite (IH _ _ N2 E). simpl dget at 3. rewrite dget_set.
    change (eqb (KOther k : key) (KOther k')) with (eqb k k').
    destruct (eqb k k') eqn:X; auto. apply eqb_eq in X. subst k'.
    destruct (fresh_key _ _ N1) as [_ ->]. reflexivity.
Qed.
Lemma unflatten_others (t t' : tree) k p : proper t -> unflatten t = Some t' ->
  at_path t' (KOther k :: p) = at_path t (KOther k :: p).
Proof.
  destruct t as [v|d]; [discriminate|]. intros P E. simpl in E.
  destruct (fold_left unflatten_one d (Some [])) as [out|] eqn:X; [|discriminate]. injection E as <-.
  simpl. apply proper_node in P as [N _]. rewrite (others_kept _ _ _ _ N X). now destruct (dget (KOther k) d).
Qed.
End P.
