(** Proofs about paths. *)
From Coq Require Import List Bool Arith String Ascii Lia.
From Verif Require Import PyDict PathModel PathSpec.
Import ListNotations.
Local Open Scope string_scope.

Definition noslash (s : string) : Prop := split s = [s].

Lemma split_ne s : split s <> [].
Proof. induction s as [|c s IH]; cbn [split]; [easy|]. destruct (Ascii.eqb c slash); [easy|]. now destruct (split s). Qed.

Lemma split_app a b : split (a ++ "/" ++ b) = (split a ++ split b)%list.
Proof.
  induction a as [|c a IH]; [reflexivity|]. cbn [append split app].
  change (append a (String "/" b)) with (a ++ "/" ++ b). rewrite IH.
  destruct (Ascii.eqb c slash); [reflexivity|].
  pose proof (split_ne a). now destruct (split a).
Qed.

Lemma split_parts s : Forall noslash (split s).
Proof.
  induction s as [|c s IH]; cbn [split]; [repeat constructor|].
  destruct (Ascii.eqb c slash) eqn:E; [constructor; [reflexivity|auto]|].
  pose proof (split_ne s). destruct (split s) as [|p ps]; [easy|]. inversion IH as [|? ? H1 H2]; subst.
  constructor; auto. unfold noslash in *. cbn [split]. now rewrite E, H1.
Qed.

Lemma split_concat l : l <> [] -> Forall noslash l -> split (concat "/" l) = l.
Proof.
  intros NE F. induction F as [|x l Hx F IH]; [easy|]. destruct l as [|y l]; [exact Hx|].
  change (concat "/" (x :: y :: l)) with (x ++ "/" ++ concat "/" (y :: l)).
  rewrite split_app, Hx, IH by easy. reflexivity.
Qed.

Lemma append_assoc (a b c : string) : (a ++ b) ++ c = a ++ b ++ c.
Proof. induction a as [|x a IH]; cbn; [reflexivity|now rewrite IH]. Qed.
Lemma append_nil (a : string) : a ++ "" = a.
Proof. induction a as [|x a IH]; cbn; [reflexivity|now rewrite IH]. Qed.

Lemma concat_split s : concat "/" (split s) = s.
Proof.
  induction s as [|c s IH]; [reflexivity|]. cbn [split]. destruct (Ascii.eqb c slash) eqn:E.
  - apply Ascii.eqb_eq in E. subst c. pose proof (split_ne s). destruct (split s); [easy|].
    change (String "/" (concat "/" (s0 :: l)) = String slash s). now rewrite IH.
  - pose proof (split_ne s). destruct (split s) as [|p [|q l]]; [easy| |].
    + cbn [concat] in *. now rewrite IH.
    + change (concat "/" (String c p :: q :: l)) with (String c (concat "/" (p :: q :: l))). now rewrite IH.
Qed.

Lemma noslash_proper n : proper n -> noslash n.
Proof.
  intros (_ & _ & _ & N). pose proof (concat_split n) as C. pose proof (split_ne n). unfold noslash.
  destruct (split n) as [|p [|q l]]; [easy| |].
  - cbn in C. now subst.
  - exfalso. apply N. exists p, (concat "/" (q :: l)). now rewrite <- C.
Qed.

Lemma proper_noslash n : n <> "" -> n <> "." -> n <> ".." -> noslash n -> proper n.
Proof.
  intros A B C D. repeat split; auto. intros (a & b & ->). unfold noslash in D. rewrite split_app in D.
  pose proof (split_ne a). pose proof (split_ne b). destruct (split a); [easy|]. destruct (split b); [easy|].
  apply (f_equal (@List.length string)) in D. rewrite app_length in D. cbn in D. lia.
Qed.

(** * The text of a path *)
Lemma seqb_str a b : eqb (K := string) a b = String.eqb a b.
Proof. reflexivity. Qed.

Lemma norm_walk i acc c : i <> 0 -> Forall proper acc -> noslash c ->
  norm_step i acc c = walk1 acc c /\ Forall proper (walk1 acc c).
Proof.
  intros I F NS. unfold norm_step, walk1. change (@eqb string _) with String.eqb in *.
  destruct (String.eqb c "") eqn:E1; [auto|]. destruct (String.eqb c ".") eqn:E2; [auto|]. cbn [orb].
  assert (L : last acc "" <> "..").
  { destruct acc as [|x l]; [easy|]. intros E. destruct (exists_last (l := x :: l)) as (l' & y & Y); [easy|].
    rewrite Y in *. rewrite last_last in E. subst y. apply Forall_app in F as [_ F]. inversion F as [|? ? (_ & _ & P & _) _]. now apply P. }
  assert (LA : match acc with [] => false | _ => String.eqb (last acc "") ".." end = false).
  { destruct acc; auto. now apply String.eqb_neq. }
  destruct (String.eqb c "..") eqn:E3; cbn [negb orb].
  - apply Nat.eqb_neq in I. rewrite I. cbn [andb orb]. rewrite LA. split; [reflexivity|].
    rewrite Forall_forall in *. intros x X. apply F. destruct acc as [|y l]; [easy|].
    rewrite (app_removelast_last "" (l := y :: l)) by easy. apply in_or_app. now left.
  - split; [reflexivity|]. apply Forall_app. split; [auto|]. constructor; [|constructor].
    apply String.eqb_neq in E1, E2, E3. now apply proper_noslash.
Qed.

Lemma norm_fold i l acc : i <> 0 -> Forall proper acc -> Forall noslash l ->
  fold_left (norm_step i) l acc = fold_left walk1 l acc /\ Forall proper (fold_left walk1 l acc).
Proof.
  intros I. revert acc. induction l as [|c l IH]; cbn [fold_left]; intros acc FA FL; [auto|].
  inversion FL; subst. destruct (norm_walk i acc c) as [E P]; auto. rewrite E. now apply IH.
Qed.

Lemma walk_proper l acc : Forall proper l -> fold_left walk1 l acc = (acc ++ l)%list.
Proof.
  revert acc. induction l as [|c l IH]; cbn [fold_left]; intros acc F; [now rewrite app_nil_r|].
  inversion F as [|? ? (A & B & C & _) F']; subst. rewrite IH; auto. unfold walk1.
  apply String.eqb_neq in A, B, C. rewrite A, B, C. now rewrite <- app_assoc.
Qed.

Lemma slashes_pos p : isabs p = true -> slashes p <> 0 /\ (slashes p = 1 \/ slashes p = 2).
Proof.
  unfold slashes, isabs. intros ->. destruct (prefix "//" p && negb (prefix "///" p)); auto.
Qed.

Lemma isabs_head p : isabs p = true -> exists q, p = String "/" q.
Proof.
  unfold isabs. destruct p as [|c p]; cbn [prefix]; [easy|]. destruct (ascii_dec "/" c) as [<-|]; [|easy].
  eauto.
Qed.
Lemma isabs_slash q : isabs (String "/" q) = true.
Proof. cbn. now destruct q. Qed.

(** The normal form of an absolute path: one or two slashes, and proper names. *)
Lemma norm_abs p : isabs p = true ->
  Forall proper (fold_left walk1 (split p) []) /\
  normpath p = slash_text (slashes p) ++ concat "/" (fold_left walk1 (split p) []).
Proof.
  intros A. destruct (slashes_pos p A) as [N C].
  destruct (norm_fold (slashes p) (split p) [] N) as [E P]; [constructor|apply split_parts|].
  split; auto. unfold normpath. destruct (isabs_head p A) as (q & ->). rewrite E.
  destruct C as [-> | ->]; reflexivity.
Qed.

Lemma means_abs cwd p : isabs p = true -> means cwd p = fold_left walk1 (split p) [].
Proof. intros A. destruct (isabs_head p A) as (q & ->). reflexivity. Qed.

Lemma proper_parts l : Forall proper l -> Forall noslash l.
Proof. apply Forall_impl. apply noslash_proper. Qed.

Lemma means_norm cwd p : isabs p = true -> isabs (normpath p) = true /\ means cwd (normpath p) = means cwd p.
Proof.
  intros A. destruct (norm_abs p A) as [P E]. rewrite (means_abs cwd p A).
  set (l := fold_left walk1 (split p) []) in *. rewrite E.
  destruct (slashes_pos p A) as [_ [-> | ->]]; cbn [slash_text].
  - split; [apply isabs_slash|]. rewrite means_abs by apply isabs_slash.
    change ("/" ++ concat "/" l) with ("" ++ "/" ++ concat "/" l). rewrite split_app. cbn [split app fold_left].
    destruct l as [|x l']; [reflexivity|]. rewrite split_concat by (try easy; now apply proper_parts). now rewrite walk_proper.
  - split; [apply isabs_slash|]. rewrite means_abs by apply isabs_slash.
    change ("//" ++ concat "/" l) with ("" ++ "/" ++ "" ++ "/" ++ concat "/" l). rewrite !split_app. cbn [split app fold_left].
    destruct l as [|x l']; [reflexivity|]. rewrite split_concat by (try easy; now apply proper_parts). now rewrite walk_proper.
Qed.

Lemma ends_slash_split a : ends_slash a = true -> exists b, a = b ++ "/".
Proof.
  induction a as [|c a IH]; cbn [ends_slash]; [easy|]. destruct a as [|d a].
  - intros E. apply Ascii.eqb_eq in E. subst. exists "". reflexivity.
  - intros E. destruct (IH E) as (b & ->). now exists (String c b).
Qed.

Lemma means_rel t : isabs t = false -> forall d, means d t = fold_left walk1 (split t) d.
Proof.
  intros T d. unfold means. destruct t as [|y t]; [reflexivity|]. unfold isabs in T. cbn [prefix] in T.
  destruct (ascii_dec "/" y) as [E|N]; [destruct t; easy|].
  destruct y as [[] [] [] [] [] [] [] []]; try reflexivity. exfalso. now apply N.
Qed.

Lemma isabs_app a b : a <> "" -> isabs (a ++ b) = isabs a.
Proof.
  destruct a as [|c a]; [easy|]. intros _. unfold isabs. cbn [prefix append].
  destruct (ascii_dec "/" c); [|reflexivity]. destruct a; [destruct b; reflexivity|reflexivity].
Qed.

Lemma means_app d a b : a <> "" -> means d (a ++ "/" ++ b) = fold_left walk1 (split b) (means d a).
Proof.
  intros NE. destruct (isabs a) eqn:A.
  - rewrite !means_abs by (rewrite ?isabs_app; auto). now rewrite split_app, fold_left_app.
  - rewrite !means_rel by (rewrite ?isabs_app; auto). now rewrite split_app, fold_left_app.
Qed.

(** [join] means going on from the first path. *)
Lemma means_join cwd a b : means cwd (join a b) = means (means cwd a) b.
Proof.
  unfold join. destruct (isabs b) eqn:B; [now rewrite !means_abs by auto|].
  rewrite (means_rel b B). destruct a as [|c a]; [now rewrite (means_rel b B)|].
  destruct (ends_slash (String c a)) eqn:E; [|now apply means_app].
  destruct (ends_slash_split _ E) as (r & ->). rewrite append_assoc. destruct r as [|x r].
  - rewrite !means_abs by (try apply isabs_slash; reflexivity). change ("" ++ "/" ++ b) with ("" ++ "/" ++ b).
    now rewrite split_app.
  - rewrite means_app by easy. change (String x r ++ "/") with (String x r ++ "/" ++ ""). now rewrite means_app.
Qed.

Lemma isabs_join a b : isabs a = true -> isabs (join a b) = true.
Proof.
  intros A. unfold join. destruct (isabs b) eqn:B; auto. destruct (isabs_head a A) as (q & ->).
  destruct (ends_slash _); apply isabs_slash.
Qed.

Lemma means_text cwd d : Forall proper d -> means cwd (text_of d) = d.
Proof.
  intros P. unfold text_of. rewrite means_abs by apply isabs_slash.
  change ("/" ++ concat "/" d) with ("" ++ "/" ++ concat "/" d). rewrite split_app. cbn [split app fold_left].
  destruct d as [|x d]; [reflexivity|]. rewrite split_concat by (try easy; now apply proper_parts). now rewrite walk_proper.
Qed.

Lemma means_abspath d p cwd : Forall proper d ->
  isabs (abspath (text_of d) p) = true /\ means cwd (abspath (text_of d) p) = means d p.
Proof.
  intros P. unfold abspath. destruct (isabs p) eqn:A.
  - destruct (means_norm cwd p A) as [H1 H2]. split; auto. rewrite H2, !means_abs; auto.
  - assert (AJ : isabs (join (text_of d) p) = true) by apply isabs_join, isabs_slash.
    destruct (means_norm cwd _ AJ) as [H1 H2]. split; auto.
    rewrite H2, means_join. now rewrite means_text.
Qed.

(** * Directories *)
Lemma walk_empty n acc : fold_left walk1 (repeat "" n) acc = acc.
Proof. induction n; auto. Qed.

Lemma rstrip_split s : exists n, split s = (split (rstrip s) ++ repeat "" n)%list.
Proof.
  induction s as [|c s (n & IH)]; [now exists 0|]. cbn [split rstrip].
  destruct (rstrip s) as [|d r] eqn:R.
  - rewrite IH. destruct (Ascii.eqb c slash) eqn:E.
    + now exists (S n).
    + exists n. cbn [split]. now rewrite E.
  - exists n. rewrite IH. set (r' := String d r) in *. cbn [split]. destruct (Ascii.eqb c slash); [reflexivity|].
    pose proof (split_ne r'). now destruct (split r').
Qed.

Lemma rstrip_head c s : rstrip (String c s) = "" \/ exists r, rstrip (String c s) = String c r.
Proof. cbn [rstrip]. destruct (rstrip s); [destruct (Ascii.eqb c slash); eauto|eauto]. Qed.

Lemma removelast_cons2 {X} (x y : X) l : removelast (x :: y :: l) = x :: removelast (y :: l).
Proof. reflexivity. Qed.

Lemma means_dirname cwd p : isabs p = true ->
  isabs (dirname p) = true /\ means cwd (dirname p) = fold_left walk1 (removelast (split p)) [].
Proof.
  intros A. destruct (isabs_head p A) as (q & ->). unfold dirname.
  change (split (String "/" q)) with ("" :: split q). pose proof (split_ne q) as NE.
  pose proof (split_parts q) as SP. destruct (split q) as [|x l] eqn:SQ; [easy|].
  rewrite removelast_cons2. set (rl := removelast (x :: l)).
  assert (FR : Forall noslash rl).
  { rewrite Forall_forall in *. intros y Y. apply SP. rewrite (app_removelast_last "" (l := x :: l)) by easy.
    apply in_or_app. now left. }
  assert (H : exists t, concat "/" ("" :: rl) ++ "/" = String "/" t /\
    split (String "/" t) = ("" :: rl ++ [""])%list).
  { destruct rl as [|y rl']; [exists ""; split; reflexivity|].
    change (concat "/" ("" :: y :: rl')) with ("" ++ "/" ++ concat "/" (y :: rl')).
    exists (concat "/" (y :: rl') ++ "/"). split; [reflexivity|].
    change (String "/" (concat "/" (y :: rl') ++ "/")) with ("" ++ "/" ++ (concat "/" (y :: rl') ++ "/" ++ "")).
    rewrite !split_app, split_concat by easy. reflexivity. }
  destruct H as (t & -> & ST).
  assert (M : fold_left walk1 (split (String "/" t)) [] = fold_left walk1 ("" :: rl) []).
  { rewrite ST. change ("" :: rl ++ [""])%list with (("" :: rl) ++ [""])%list. now rewrite fold_left_app. }
  destruct (rstrip_head "/" t) as [E|(r & E)]; rewrite E.
  - split; [apply isabs_slash|]. now rewrite means_abs by apply isabs_slash.
  - split; [apply isabs_slash|]. rewrite means_abs by apply isabs_slash. rewrite <- M.
    destruct (rstrip_split (String "/" t)) as (n & ->). rewrite E, fold_left_app. now rewrite walk_empty.
Qed.

Lemma removelast_proper l : Forall proper l -> Forall proper (removelast l).
Proof.
  rewrite !Forall_forall. intros F x X. apply F. destruct l as [|y l]; [easy|].
  rewrite (app_removelast_last "" (l := y :: l)) by easy. apply in_or_app. now left.
Qed.

Lemma split_normpath p : isabs p = true -> exists n,
  split (normpath p) = (repeat "" (S n) ++ match means [] p with [] => [""] | l => l end)%list.
Proof.
  intros A. destruct (norm_abs p A) as [P E]. rewrite E, (means_abs [] p A).
  set (l := fold_left walk1 (split p) []) in *.
  assert (SC : split (concat "/" l) = match l with [] => [""] | _ => l end).
  { destruct l; [reflexivity|]. apply split_concat; [easy|now apply proper_parts]. }
  destruct (slashes_pos p A) as [_ [-> | ->]]; cbn [slash_text].
  - exists 0. change ("/" ++ concat "/" l) with ("" ++ "/" ++ concat "/" l). rewrite split_app, SC. now destruct l.
  - exists 1. change ("//" ++ concat "/" l) with ("" ++ "/" ++ "" ++ "/" ++ concat "/" l). rewrite !split_app, SC. now destruct l.
Qed.

Lemma means_dir_abspath d p cwd : Forall proper d ->
  isabs (dirname (abspath (text_of d) p)) = true /\
  means cwd (dirname (abspath (text_of d) p)) = removelast (means d p).
Proof.
  intros P. destruct (means_abspath d p [] P) as [A M].
  destruct (means_dirname cwd _ A) as [A2 ->]. split; auto.
  assert (X : exists n, split (abspath (text_of d) p) = (repeat "" (S n) ++ match means d p with [] => [""] | l => l end)%list /\
    Forall proper (means d p)).
  { unfold abspath in *. destruct (isabs p) eqn:AP.
    - destruct (split_normpath p AP) as (n & E). exists n. rewrite (means_abs d p AP), <- (means_abs [] p AP). split; auto.
      rewrite (means_abs [] p AP). now apply norm_abs.
    - assert (AJ : isabs (join (text_of d) p) = true) by apply isabs_join, isabs_slash.
      destruct (split_normpath _ AJ) as (n & E). exists n. rewrite E.
      rewrite (means_join [] (text_of d) p). rewrite means_text by auto. split; auto.
      replace (means d p) with (means [] (join (text_of d) p)).
      + rewrite (means_abs [] _ AJ). now apply norm_abs.
      + rewrite means_join. now rewrite means_text. }
  destruct X as (n & -> & PM). destruct (means d p) as [|x l].
  - rewrite removelast_app by easy. cbn [removelast]. rewrite app_nil_r. apply walk_empty.
  - rewrite removelast_app by easy. rewrite fold_left_app, walk_empty.
    rewrite walk_proper by now apply removelast_proper. reflexivity.
Qed.

(** * Substrings *)
Lemma prefix_app s t : prefix s t = true <-> exists r, t = s ++ r.
Proof.
  revert t. induction s as [|c s IH]; intros t; cbn [prefix append].
  - split; [eauto|now destruct t].
  - destruct t as [|d t]; [split; [easy|intros (r & E); discriminate]|].
    cbn [prefix]. destruct (ascii_dec c d) as [<-|NE].
    + rewrite IH. split; intros (r & E); exists r; [now rewrite E|now injection E].
    + split; [easy|intros (r & E); injection E as E1 _; now elim NE].
Qed.

Lemma contains_app s t : contains s t = true <-> exists a b, t = a ++ s ++ b.
Proof.
  induction t as [|c t IH]; cbn [contains]; rewrite orb_true_iff, prefix_app.
  - split; [intros [(r & E)|]; [now exists "", r|easy]|].
    intros (a & b & E). left. destruct a; [now exists b|discriminate].
  - rewrite IH. split.
    + intros [(r & E)|(a & b & E)]; [now exists "", r|]. exists (String c a), b. now rewrite E.
    + intros (a & b & E). destruct a as [|d a]; [left; now exists b|]. injection E as <- E. right. now exists a, b.
Qed.

(** After a name, an absolute path in normal form has no empty parts. *)
Lemma no_scheme_norm p : isabs p = true -> contains "://" (normpath p) = false.
Proof.
  intros A. destruct (contains "://" (normpath p)) eqn:C; auto. exfalso.
  apply contains_app in C as (a & b & C). destruct (norm_abs p A) as [P _].
  destruct (split_normpath p A) as (n & S1). rewrite <- (means_abs [] p A) in P.
  assert (S2 : split (normpath p) = (split (a ++ ":") ++ "" :: split b)%list).
  { rewrite C. change (a ++ "://" ++ b) with (a ++ ":" ++ ("/" ++ ("" ++ "/" ++ b))).
    rewrite <- append_assoc, split_app. now rewrite (split_app ""). }
  assert (L : exists l x, split (a ++ ":") = (l ++ [x])%list /\ x <> "").
  { clear. induction a as [|c a (l & x & E & N)]; [now exists [], ":"|]. cbn [append split].
    rewrite E. destruct (Ascii.eqb c slash); [now exists ("" :: l), x|].
    destruct l as [|y l]; [now exists [], (String c x)|now exists (String c y :: l), x]. }
  destruct L as (l & x & E & N). rewrite E, S1, <- app_assoc in S2. cbn [app] in S2.
  remember (S n) as m eqn:EM. clear S1 EM E C. revert l S2. induction m as [|m IH]; cbn [repeat app]; intros l S2.
  - destruct (means [] p) as [|y r].
    + destruct l as [|? [|? ?]]; cbn in S2; discriminate.
    + assert (IN : In "" (y :: r)) by (rewrite S2; apply in_or_app; right; right; now left).
      rewrite Forall_forall in P. now destruct (P _ IN).
  - destruct l as [|y l]; cbn [app] in S2; injection S2 as E1 E2; [congruence|eauto].
Qed.
