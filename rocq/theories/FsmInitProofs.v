(** Proofs about the initial state. *)
From Coq Require Import ZArith List Bool Arith String Lia.
From Verif Require Import Num PyDict TimedModel AgentModel FsmModel FsmInitSpec.
Import ListNotations.

Section P.
Context {F : Type}.
Implicit Types (st : state F).

(** The default after some states. *)
Definition pick (d : option (state F)) (l : list (state F)) : option (state F) :=
  fold_left (fun d st => if st_default st then Some st else d) l d.

Lemma pick_app d l1 l2 : pick d (l1 ++ l2) = pick (pick d l1) l2.
Proof. apply fold_left_app. Qed.

Lemma pick_spec l : forall d,
  match pick d l with
  | Some st => last_default l st \/ (no_default l /\ d = Some st)
  | None => no_default l /\ d = None
  end.
Proof.
  induction l as [|st l IH] using rev_ind; intros d.
  - cbn. destruct d; [right|]; split; auto; intros ? [].
  - rewrite pick_app. cbn. destruct (st_default st) eqn:D.
    + left. exists l, []. split; auto. split; auto. intros ? [].
    + specialize (IH d).
      assert (N : no_default l -> no_default (l ++ [st])).
      { intros H s I. apply in_app_iff in I as [I|[<-|[]]]; auto. }
      destruct (pick d l) as [s|].
      * destruct IH as [(l1 & l2 & -> & D1 & D2)|[H E]].
        -- left. exists l1, (l2 ++ [st]). split; [now rewrite <- app_assoc|]. split; auto.
           intros s' I. apply in_app_iff in I as [I|[<-|[]]]; auto.
        -- right. auto.
      * destruct IH. auto.
Qed.

Lemma own_pick own : forall acc : dict string (state F) * option (state F),
  snd (fold_left (fun acc o => match o with Some st => add_state acc st | None => acc end) own acc)
  = pick (snd acc) (written own).
Proof.
  induction own as [|[st|] own IH]; intros acc; cbn [fold_left written]; auto.
  rewrite IH. reflexivity.
Qed.
Lemma base_pick (l : dict string (state F)) : forall acc : dict string (state F) * option (state F),
  snd (fold_left (fun acc kv => (dset (fst kv) (snd kv) (fst acc),
         if st_default (snd kv) then Some (snd kv) else snd acc)) l acc)
  = pick (snd acc) (map snd l).
Proof. induction l as [|[k st] l IH]; intros acc; cbn [fold_left map]; auto. rewrite IH. reflexivity. Qed.
Lemma bases_pick (bases : list (cls (option (state F)))) :
  forall acc : dict string (state F) * option (state F),
  snd (fold_left (fun acc b => fold_left (fun acc kv => (dset (fst kv) (snd kv) (fst acc),
         if st_default (snd kv) then Some (snd kv) else snd acc)) (fst (meta b)) acc) bases acc)
  = pick (snd acc) (flat_map (fun b => map snd (fst (meta b))) bases).
Proof.
  induction bases as [|b bases IH]; intros acc; cbn [fold_left flat_map]; auto.
  rewrite IH, base_pick, pick_app. reflexivity.
Qed.
Lemma meta_pick (c : cls (option (state F))) : snd (meta c) = pick None (sources c).
Proof.
  destruct c as [i bases own]. cbn [meta]. unfold sources. cbn [c_bases c_own].
  rewrite own_pick, bases_pick, pick_app. reflexivity.
Qed.

Lemma last_default_unique l st st' : last_default l st -> last_default l st' -> st = st'.
Proof.
  revert st st'. induction l as [|x l IH] using rev_ind; intros st st' (a & b & E & D & N) (a' & b' & E' & D' & N').
  - destruct a; discriminate.
  - destruct b as [|y b] using rev_ind.
    + apply app_inj_tail in E as [_ ->]. destruct b' as [|y' b'] using rev_ind.
      * apply app_inj_tail in E' as [_ ->]. reflexivity.
      * clear IHb'. rewrite app_comm_cons, app_assoc in E'. apply app_inj_tail in E' as [_ ->].
        rewrite (N' y') in D; [discriminate|]. apply in_app_iff. cbn. auto.
    + clear IHb. rewrite app_comm_cons, app_assoc in E. apply app_inj_tail in E as [E ->].
      destruct b' as [|y' b'] using rev_ind.
      * apply app_inj_tail in E' as [_ ->].
        rewrite (N st') in D'; [discriminate|]. apply in_app_iff. cbn. auto.
      * clear IHb'. rewrite app_comm_cons, app_assoc in E'. apply app_inj_tail in E' as [E' ->].
        apply (IH st st').
        -- exists a, b. split; auto. split; auto. intros s I. apply N, in_app_iff. auto.
        -- exists a', b'. split; auto. split; auto. intros s I. apply N', in_app_iff. auto.
Qed.

Lemma init_default (c : cls (option (state F))) st :
  last_default (sources c) st -> fsm_init c PNone = Some (Some st).
Proof.
  intros L. unfold fsm_init. pose proof (meta_pick c) as M. pose proof (pick_spec (sources c) None) as P.
  destruct (meta c) as [states d]. cbn [snd] in M. subst d. cbn [set_state].
  destruct (pick None (sources c)) as [st'|].
  - destruct P as [P|[_ P]]; [|discriminate]. rewrite (last_default_unique _ _ _ L P).
    now rewrite andb_false_r.
  - destruct P as [P _]. destruct L as (l1 & l2 & E & D & _). rewrite (P st) in D; [discriminate|].
    rewrite E. apply in_elt.
Qed.
Lemma init_no_default (c : cls (option (state F))) :
  no_default (sources c) ->
  fsm_init c PNone = if (1 <? List.length (fst (meta c)))%nat then None else Some None.
Proof.
  intros L. unfold fsm_init. pose proof (meta_pick c) as M. pose proof (pick_spec (sources c) None) as P.
  destruct (meta c) as [states d]. cbn [snd] in M. subst d. cbn [set_state fst].
  destruct (pick None (sources c)) as [st'|].
  - destruct P as [(l1 & l2 & E & D & _)|[_ P]]; [|discriminate]. rewrite (L st') in D; [discriminate|].
    rewrite E. apply in_elt.
  - now rewrite andb_true_r.
Qed.
Lemma init_given (c : cls (option (state F))) :
  (forall n, fsm_init c (PStr n) =
     match dget n (fst (meta c)) with Some st => Some (Some st) | None => None end) /\
  (forall st, fsm_init c (PState st) = Some (Some st)) /\
  (forall v, (exists x, v = PNum x) \/ (exists l, v = PTuple l) \/ v = PObj -> fsm_init c v = None).
Proof.
  unfold fsm_init. destruct (meta c) as [states d]. cbn [fst]. split; [|split].
  - intros n. cbn. destruct (dget n states); auto. now rewrite andb_false_r.
  - intros st. cbn. now rewrite andb_false_r.
  - intros v [(x & ->)|[(l & ->)| ->]]; reflexivity.
Qed.

Lemma length_two {V} a b (d : dict string V) : a <> b -> In a (dkeys d) -> In b (dkeys d) -> 2 <= List.length d.
Proof.
  intros N A B. unfold dkeys in *. rewrite <- (map_length fst).
  destruct (map fst d) as [|x [|y l]]; cbn in *; [tauto| |lia].
  exfalso. apply N. destruct A as [<-|[]], B as [<-|[]]. reflexivity.
Qed.
Lemma own_keys own : forall (acc : dict string (state F) * option (state F)) n,
  In n (dkeys (fst acc)) \/ (exists st, In st (written own) /\ st_name st = n) ->
  In n (dkeys (fst (fold_left (fun acc o => match o with Some st => add_state acc st | None => acc end) own acc))).
Proof.
  induction own as [|[s|] own IH]; intros acc n H; cbn [fold_left written] in *.
  - destruct H as [H|(st & [] & _)]. exact H.
  - apply IH. destruct H as [H|(st & [<-|I] & E)].
    + left. cbn [add_state fst]. rewrite in_dkeys_set. auto.
    + left. cbn [add_state fst]. rewrite in_dkeys_set. auto.
    + right. eauto.
  - apply IH. exact H.
Qed.
Lemma init_needs_default i dead (own : list (option (state F))) st :
  no_default (written own) -> In st (written own) -> st_name st <> "dead"%string ->
  fsm_init (Cls i [fsm_class dead] own) PNone = None.
Proof.
  intros N I D. rewrite init_no_default.
  - replace (1 <? _)%nat with true; auto. symmetry. apply Nat.ltb_lt.
    apply (length_two (st_name st) "dead"); auto.
    + cbn [meta]. apply own_keys. right. eauto.
    + cbn [meta]. apply own_keys. left. cbn. auto.
  - intros s H. unfold sources in H. cbn [c_bases c_own] in H. apply in_app_iff in H as [H|H]; auto.
    cbn in H. destruct H as [<-|[]]. reflexivity.
Qed.
End P.
