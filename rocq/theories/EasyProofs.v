(** Proofs about EasyModel. *)
From Coq Require Import ZArith List Bool Arith String Ascii Lia.
From Verif Require Import PyDict AgentModel FsmModel EasyModel.
Import ListNotations.
Local Open Scope string_scope.
Local Open Scope list_scope.

Section Main.
Context {E : Type}.
Variable run : nat -> list E + exc.
Lemma run_sims_ok sims : forall res, (forall s, In s sims -> exists x, run s = inl x) ->
  exists l, run_sims run false sims res = (map SRun sims, res ++ l, None) /\ map inl l = map run sims.
Proof.
  induction sims as [|s sims IH]; intros res H; cbn [run_sims]; [exists []; now rewrite app_nil_r|].
  destruct (H s (or_introl eq_refl)) as (x & X). rewrite X. destruct (IH (res ++ [x])) as (l & -> & M); [intros; apply H; now right|].
  exists (x :: l). rewrite <- app_assoc. split; [reflexivity|]. cbn. now rewrite X, M.
Qed.
Lemma run_sims_fails pre s post e : forall res, (forall s, In s pre -> exists x, run s = inl x) -> run s = inr e ->
  exists l, run_sims run false (pre ++ s :: post) res = (map SRun (pre ++ [s]), res ++ l, Some e) /\ map inl l = map run pre.
Proof.
  induction pre as [|s0 pre IH]; intros res H R; cbn [run_sims app].
  - rewrite R. exists []. now rewrite app_nil_r.
  - destruct (H s0 (or_introl eq_refl)) as (x & X). rewrite X. destruct (IH (res ++ [x])) as (l & -> & M); [intros; apply H; now right|exact R|].
    exists (x :: l). rewrite <- app_assoc. split; [reflexivity|]. cbn. now rewrite X, M.
Qed.
Lemma run_sims_body conv sims : forall res, ~ In SBody (fst (fst (run_sims run conv sims res))).
Proof.
  induction sims as [|s sims IH]; intros res; cbn [run_sims]; [intros []|]. destruct conv; [apply IH|]. destruct (run s) as [x|e].
  - specialize (IH (res ++ [x])). destruct (run_sims run false sims (res ++ [x])) as [[tr res'] e]. cbn in *. intros [X|X]; [discriminate X|auto].
  - intros [X|[]]. discriminate X.
Qed.
Lemma main_body c pdb debug ex sims pm : ~ In SBody (fst (fst (main run c pdb debug ex sims pm))).
Proof.
  unfold main. destruct (cl_version c); [intros []|]. cbv zeta. destruct (negb ex); [intros []|]. pose proof (run_sims_body (cl_convert c) sims []) as B.
  destruct (run_sims run (cl_convert c) sims []) as [[tr res] [e|]]; cbn [fst] in B |- *.
  - destruct (cl_pdb c); [|exact B]. cbn. rewrite in_app_iff. destruct (debug || cl_debug c); cbn; intuition discriminate.
  - cbn. rewrite in_app_iff. destruct (debug || cl_debug c); cbn; intuition discriminate.
Qed.
Lemma with_easy_never c pdb debug ex sims pm body : let r := with_easy run c pdb debug ex sims pm body in ~ In SBody (fst r) /\ exists e, snd r = Some e.
Proof.
  cbv zeta. unfold with_easy, easy, easy_body. pose proof (main_body c pdb debug ex sims pm) as B.
  destruct (main run c pdb debug ex sims pm) as [[tr pm'] r]. cbn [fst] in B.
  assert (B' : ~ In SBody (tr ++ (if pm' then [SPostMortem] else []))) by (rewrite in_app_iff; destruct pm'; cbn; intuition discriminate).
  destruct r as [[[|x l]|]|e]; cbn; split; auto; eauto.
Qed.
End Main.

Section Dry.
Variable encode : string -> list nat.
Variable decode : list nat -> option string.
Variable repr : list nat -> string.
Definition bytes (t : data) : list nat := match t with DText s => encode s | DBytes l => l end.
Definition shown (t : data) : string := match t with DText s => s | DBytes l => repr l end.
Lemma dry_writes_open fname copy l : forall c cp lg, dry_writes encode repr fname copy l (Dry (Some c) cp lg) =
  Dry (Some (c ++ flat_map bytes l)) (cp ++ if copy then map (fun t => (fname ++ ":::" ++ shown t)%string) l else []) lg.
Proof.
  induction l as [|t l IH]; intros c cp lg; cbn [dry_writes fold_left flat_map].
  - destruct copy; cbn; now rewrite !app_nil_r.
  - change (fold_left _ l ?d) with (dry_writes encode repr fname copy l d). cbn [dry_write fst dy_content dy_copied dy_logged]. rewrite IH.
    destruct copy; cbn [map]; rewrite <- ?app_assoc; reflexivity.
Qed.
Lemma dry_run_shows fname copy l : dry_run encode decode repr fname copy l =
  Dry None (if copy then map (fun t => (fname ++ ":::" ++ shown t)%string) l else [])
    [("**Not** written to " ++ fname ++ " (no_dump mode): " ++ match decode (flat_map bytes l) with Some s => s | None => "(binary data not shown)" end)%string].
Proof. unfold dry_run, new_dry. rewrite dry_writes_open. reflexivity. Qed.
End Dry.

(** * Decorators *)
Section Decorators.
Context {F : Type}.
Lemma own_fold (own : list (option (state F))) : forall acc, snd (fold_left (fun acc o => match o with Some st => add_state acc st | None => acc end) own acc) =
  fold_left (fun a o => match o with Some st => if st_default st then Some st else a | None => a end) own (snd acc).
Proof. induction own as [|[st|] own IH]; intros acc; cbn [fold_left]; [reflexivity|rewrite IH; reflexivity|apply IH]. Qed.
Lemma no_default (own : list (option (state F))) : (forall st, In (Some st) own -> st_default st = false) -> forall a,
  fold_left (fun a o => match o with Some st => if st_default st then Some st else a | None => a end) own a = a.
Proof.
  induction own as [|[st|] own IH]; intros H a; cbn [fold_left]; [reflexivity| |apply IH; intros; apply H; now right].
  rewrite (H st (or_introl eq_refl)). apply IH. intros; apply H; now right.
Qed.
Lemma marked dead pre (s : state F) post : st_default s = true -> (forall e, In e (pre ++ post) -> match e with DState x => st_default x = false | _ => True end) ->
  snd (meta (fsm_with dead (pre ++ DState s :: post))) = Some s.
Proof.
  intros D H. unfold fsm_with. cbn [meta]. rewrite own_fold, map_app. cbn [map in_body]. rewrite fold_left_app. cbn [fold_left]. rewrite D.
  apply no_default. intros st I. apply in_map_iff in I as (e & X & I). specialize (H e ltac:(apply in_app_iff; now right)). destruct e; cbn in X; [discriminate|].
  now injection X as ->.
Qed.
Lemma unmarked dead (body : list (element F)) : (forall e, In e body -> match e with DState x => st_default x = false | _ => True end) ->
  snd (meta (fsm_with dead body)) = None.
Proof.
  intros H. unfold fsm_with. cbn [meta]. rewrite own_fold, no_default; [reflexivity|]. intros st I. apply in_map_iff in I as (e & X & I). specialize (H e I).
  destruct e; cbn in X; [discriminate|]. now injection X as ->.
Qed.
Lemma init_default (c : cls (option (state F))) s : snd (meta c) = Some s -> fsm_init c PNone = Some (Some s).
Proof. intros E. unfold fsm_init. destruct (meta c) as [st d]. cbn [snd] in E. subst d. cbn. now rewrite andb_false_r. Qed.
End Decorators.

(** Text whose characters are one byte each. *)
Fixpoint ascii_encode (s : string) : list nat := match s with EmptyString => [] | String c s' => nat_of_ascii c :: ascii_encode s' end.
Fixpoint ascii_decode (l : list nat) : option string :=
  match l with
  | [] => Some ""
  | n :: l' => if Nat.ltb n 128 then option_map (String (ascii_of_nat n)) (ascii_decode l') else None
  end.
