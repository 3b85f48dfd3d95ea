(** Proofs about the styles of tests/test_agents.py. *)
From Coq Require Import ZArith List Bool Arith String Lia Permutation.
From Verif Require Import Num PyDict TimedModel TimedSpec TimedProofs TraceProofs AgentModel AgentProofs FsmModel TutorSpec TutorProofs StyleModel StyleSpec.
Import ListNotations.
Local Open Scope nat_scope.
Local Open Scope list_scope.

(** * Where an agent is in its script *)
Section Position.
Variable sc : script.
Definition next (p : nat * nat) : nat * nat :=
  match nth_error (sc_phases sc) (fst p) with
  | None => p
  | Some ph => match nth_error (ph_inner ph) (snd p) with Some _ => (fst p, S (snd p)) | None => (S (fst p), 0) end
  end.
Definition now_wait (p : nat * nat) : wait :=
  match nth_error (sc_phases sc) (fst p) with
  | None => sc_rest sc
  | Some ph => match nth_error (ph_inner ph) (snd p) with Some x => x | None => ph_last ph end
  end.
Fixpoint pos (k : nat) : nat * nat := match k with O => (0, 0) | S k => next (pos k) end.
Definition rem (p : nat * nat) : list (wait * nat) :=
  match nth_error (sc_phases sc) (fst p) with
  | None => []
  | Some ph => map (fun x => (x, fst p)) (skipn (snd p) (ph_inner ph)) ++ (ph_last ph, S (fst p)) :: waits_from (S (fst p)) (skipn (S (fst p)) (sc_phases sc))
  end.
Definition tame (p : nat * nat) : Prop :=
  fst p <= List.length (sc_phases sc) /\ (nth_error (sc_phases sc) (fst p) = None -> snd p = 0).

Lemma skipn_nth {A} (l : list A) n x : nth_error l n = Some x -> skipn n l = x :: skipn (S n) l.
Proof.
  revert n. induction l as [|y l IH]; intros [|n] E; cbn in E; try discriminate.
  - injection E as ->. reflexivity.
  - cbn [skipn]. rewrite (IH n E). reflexivity.
Qed.
Lemma skipn_more {A} (l : list A) n x r : skipn n l = x :: r -> skipn (S n) l = r.
Proof.
  revert n. induction l as [|y l IH]; intros [|n] E; cbn [skipn] in *; try discriminate.
  - now injection E. - destruct l; [destruct n; discriminate|]. apply (IH n E).
Qed.
Lemma next_tame p : tame p -> tame (next p).
Proof.
  unfold tame, next. destruct p as [i j]. cbn [fst snd]. intros [L T].
  destruct (nth_error (sc_phases sc) i) as [ph|] eqn:E; [|cbn; rewrite E; auto].
  assert (i < List.length (sc_phases sc)) by (apply nth_error_Some; congruence).
  destruct (nth_error (ph_inner ph) j); cbn [fst snd]; split; auto; try congruence; lia.
Qed.
Lemma pos_tame k : tame (pos k).
Proof. induction k; cbn; [split; cbn; auto; lia|]. now apply next_tame. Qed.
Lemma rem_next p : tame p -> rem p = [] /\ now_wait p = sc_rest sc /\ next p = p /\ fst p = List.length (sc_phases sc) \/
  rem p = (now_wait p, fst (next p)) :: rem (next p).
Proof.
  intros [L T]. unfold now_wait, next. destruct p as [i j]. cbn [fst snd] in *.
  destruct (nth_error (sc_phases sc) i) as [ph|] eqn:E.
  - right. destruct (nth_error (ph_inner ph) j) as [x|] eqn:E2; unfold rem; cbn [fst snd]; rewrite ?E.
    + now rewrite (skipn_nth _ _ _ E2).
    + apply nth_error_None in E2. rewrite skipn_all2 by lia. cbn [map app]. f_equal.
      destruct (nth_error (sc_phases sc) (S i)) as [ph2|] eqn:E3.
      * rewrite (skipn_nth _ _ _ E3). reflexivity.
      * apply nth_error_None in E3. rewrite skipn_all2 by lia. reflexivity.
  - left. unfold rem. cbn [fst]. rewrite E. apply nth_error_None in E. repeat split; auto. lia.
Qed.
Lemma rem_pos k : skipn k (waits_from 0 (sc_phases sc)) = rem (pos k).
Proof.
  induction k as [|k IH].
  - cbn. unfold rem. cbn [fst snd]. destruct (sc_phases sc) as [|ph l]; reflexivity.
  - cbn [pos]. destruct (rem_next (pos k) (pos_tame k)) as [(E & _ & -> & _)|E]; rewrite E in IH.
    + rewrite E. assert (List.length (skipn k (waits_from 0 (sc_phases sc))) = 0) by now rewrite IH.
      rewrite skipn_length in H. apply skipn_all2. lia.
    + eapply skipn_more; eauto.
Qed.
Lemma nth_skipn_hd {A} (l : list A) k d : nth k l d = match skipn k l with x :: _ => x | [] => d end.
Proof. revert k. induction l as [|x l IH]; intros [|k]; auto. apply IH. Qed.
Lemma pos_wait k : nth_wait sc k = (now_wait (pos k), fst (pos (S k))).
Proof.
  unfold nth_wait. rewrite nth_skipn_hd, rem_pos. destruct (rem_next (pos k) (pos_tame k)) as [(-> & E2 & E3 & E4)| ->].
  - cbn [pos]. now rewrite E2, E3, E4.
  - reflexivity.
Qed.
Lemma pos_state k : state_after sc k = fst (pos k).
Proof. destruct k; [reflexivity|]. cbn [state_after]. now rewrite pos_wait. Qed.
End Position.

(** * One activation *)
Section Act.
Context {AR : Arith} {R : Type}.
Variable scripts : aid -> script.
Notation X := (fworld sfun (sattrs R) * cors (frame spoint))%type.

Definition ok (st : style) (a : aid) (p : nat * nat) (x : X) : Prop :=
  let '(w, c) := x in let '(i, j) := p in
  match st with
  | ByStates => fw_agents w a = FAgent (KFsm (fst (meta (chain_class (scripts a))))) true (Some (chain_state i)) /\
      get_co c a = match j with O => None | _ => Some (GSusp (FIn (QState i j))) end
  | ByHand => fw_agents w a = FAgent (KPlain FHand) true None /\ get_co c a = None /\ x_state (fw_rest w) a = i /\ x_count (fw_rest w) a = j
  | ByGenerator => fw_agents w a = FAgent (KPlain FGen) true None /\
      (get_co c a = Some (GSusp (FIn (QGen i j))) \/ get_co c a = None /\ i = 0 /\ j = 0) /\ x_state (fw_rest w) a = i
  end.

Lemma default_state sc : snd (meta (chain_class sc)) = Some (chain_state 0).
Proof.
  unfold chain_class. cbn [meta fold_left fsm_class map seq fst snd add_state st_default]. 
  match goal with |- snd (fold_left ?f (map ?g (seq 1 ?n)) ?acc) = _ => assert (H : forall k m z, 0 < k -> snd (fold_left f (map g (seq k m)) z) = snd z) end.
  { intros k m. revert k. induction m as [|m IH]; intros k z L; auto. cbn [seq map fold_left]. rewrite IH by lia.
    cbn. destruct k; [lia|]. reflexivity. }
  rewrite H by lia. reflexivity.
Qed.
Lemma new_ok st a g styles : styles a = st -> ok st a (0, 0) (style_world scripts styles g).
Proof.
  intros E. unfold style_world. cbn [ok fw_agents fw_rest]. rewrite E. destruct st; cbn [new_agent].
  - split; [|reflexivity]. f_equal. unfold fsm_init. pose proof (default_state (scripts a)) as D.
    destruct (meta (chain_class (scripts a))) as [states d]. cbn [snd] in D. subst d. cbn [set_state]. now rewrite andb_false_r.
  - repeat split.
  - repeat split. right. auto.
Qed.

Lemma others a (w w' : fworld sfun (sattrs R)) c c' : (forall b, b <> a -> fw_agents w' b = fw_agents w b /\ get_co c' b = get_co c b /\
    x_state (fw_rest w') b = x_state (fw_rest w) b /\ x_count (fw_rest w') b = x_count (fw_rest w) b) ->
  forall st b q, b <> a -> ok st b q (w, c) -> ok st b q (w', c').
Proof.
  intros H st b [i j] N O. destruct (H b N) as (E1 & E2 & E3 & E4). unfold ok in *. rewrite E1, E2, E3, E4. exact O.
Qed.
Lemma finish_goto states a (w : fworld sfun (sattrs R)) now i v :
  finish states a w (goto now i v) = (upd w a (set_cur (fw_agents w a) (Some (chain_state i))), GReturn (Q := frame spoint) (wait_value now v)).
Proof. destruct v; reflexivity. Qed.
Lemma finish_stay states a (w : fworld sfun (sattrs R)) now v : exists w',
  finish states a w (wait_value now v) = (w', GReturn (Q := frame spoint) (wait_value now v)) /\ fw_rest w' = fw_rest w /\
  forall b, fw_agents w' b = fw_agents w b.
Proof.
  destruct v; cbn; eexists; (split; [reflexivity|]); (split; [reflexivity|]); auto.
  intros b. cbn. destruct (Nat.eqb_spec b a) as [->|]; auto. now destruct (fw_agents w a).
Qed.
Lemma get_set c a (x : option (gobj (frame spoint))) b : get_co (set_co c a x) b = if Nat.eqb b a then x else get_co c b.
Proof. apply get_set_co. Qed.

Lemma act st a p s x x' ops o : tame (scripts a) p -> ok st a p x ->
  agent_step (style_code scripts) (fun _ => None) s a x = (x', ops, o) ->
  ok st a (next (scripts a) p) x' /\ ops = [] /\ o = asks (s_time s) (now_wait (scripts a) p) /\
  x_rng (fw_rest (fst x')) = x_rng (fw_rest (fst x)) /\
  forall st' b q, b <> a -> ok st' b q x -> ok st' b q x'.
Proof.
  intros T O E. destruct x as [w c]. destruct p as [i j]. unfold agent_step, decorated in E. cbn [fst snd] in E.
  assert (K : forall w' c' v, (x', ops, o) = (w', c', [], as_delay is_none (to_float (fun _ => None)) (wait_value (s_time s) v)) ->
     o = asks (s_time s) v /\ x' = (w', c') /\ ops = []).
  { intros w' c' v H. injection H as -> -> ->. destruct v; auto. }
  destruct st; cbn [ok] in O.
  - destruct O as [A C]. rewrite C in E.
    assert (E1 : match match j with 0 => None | S _ => Some (GSusp (FIn (QState i j))) end with None => GSusp FStart | Some g => g end
       = match j with 0 => GSusp FStart | _ => GSusp (FIn (QState i j)) end) by (destruct j; reflexivity).
    assert (E2 : send (step_gen (style_code scripts)) PNone s a (match j with 0 => GSusp FStart | _ => GSusp (FIn (QState i j)) end) w
       = send (step_gen (style_code scripts)) PNone s a (GSusp (FIn (QState i j))) w).
    { destruct j; [|reflexivity]. cbn [send step_gen]. rewrite A. reflexivity. }
    cbn [co_class] in E. rewrite E1, E2 in E. cbn [send step_gen inside style_code c_resume] in E. unfold inside in E. cbn [style_code c_resume] in E.
    unfold next, now_wait. cbn [fst snd]. 
    destruct (nth_error (sc_phases (scripts a)) i) as [ph|] eqn:P.
    + destruct (nth_error (ph_inner ph) j) as [y|] eqn:Y; cbn [run_fops] in E.
      * apply eq_sym, K in E. destruct E as (-> & -> & ->). split; [split; [exact A|now rewrite get_set, Nat.eqb_refl]|].
        split; auto. split; auto. split; auto. apply others. intros b N. apply Nat.eqb_neq in N. rewrite !get_set, N. auto.
      * cbn [fw_agents] in E. rewrite A in E. cbn [fa_kind] in E. rewrite finish_goto in E. 
        apply eq_sym, K in E. destruct E as (-> & -> & ->). split; [split|].
        { cbn [upd fw_agents]. rewrite Nat.eqb_refl, A. reflexivity. }
        { now rewrite get_set, Nat.eqb_refl. }
        split; auto. split; auto. split; auto. apply others. intros b N. apply Nat.eqb_neq in N. rewrite !get_set, N. cbn. rewrite N. auto.
    + cbn [run_fops fw_agents] in E. rewrite A in E. cbn [fa_kind] in E.
      match type of E with context [finish ?x1 ?x2 ?x3 (wait_value ?x4 ?x5)] => destruct (finish_stay x1 x2 x3 x4 x5) as (w2 & F & FR & FA) end.
      rewrite F in E. apply eq_sym, K in E. destruct E as (-> & -> & ->). cbn in FR.
      destruct T as [_ T]. cbn [fst snd] in T. specialize (T P). subst j. split; [split|].
      { rewrite FA. exact A. }
      { now rewrite get_set, Nat.eqb_refl. }
      split; auto. split; auto. split; [now rewrite <- FR|]. apply others. intros b N. apply Nat.eqb_neq in N. rewrite !get_set, N, FA, FR. auto.
  - destruct O as (A & C & XS & XC). rewrite C in E. cbn [send step_gen] in E. rewrite A in E. cbn [fa_kind] in E.
    unfold inside in E. cbn [style_code c_resume c_start] in E. rewrite XS, XC in E. unfold next, now_wait. cbn [fst snd].
    destruct (nth_error (sc_phases (scripts a)) i) as [ph|] eqn:P; [destruct (nth_error (ph_inner ph) j) as [y|] eqn:Y|];
      cbn [run_fops fw_agents] in E; rewrite A in E; cbn [fa_kind] in E; apply eq_sym, K in E; destruct E as (-> & -> & ->);
      (split; [split; [exact A|]; split; [now rewrite get_set, Nat.eqb_refl|]; cbn; rewrite ?Nat.eqb_refl; auto|]);
      (split; [auto|]); (split; [auto|]); (split; [auto|]); apply others; intros b N; apply Nat.eqb_neq in N; rewrite !get_set, N; cbn; rewrite ?N; auto.
  - destruct O as (A & C & XS).
    assert (E2 : send (step_gen (style_code scripts)) PNone s a (match get_co c a with None => GSusp FStart | Some g => g end) w
       = send (step_gen (style_code scripts)) PNone s a (GSusp (FIn (QGen i j))) w).
    { destruct C as [->|(-> & -> & ->)]; [reflexivity|]. cbn [send step_gen]. rewrite A. reflexivity. }
    rewrite E2 in E. clear E2 C. cbn [send step_gen] in E. unfold inside in E. cbn [style_code c_resume c_start] in E. unfold next, now_wait. cbn [fst snd].
    destruct (nth_error (sc_phases (scripts a)) i) as [ph|] eqn:P; [destruct (nth_error (ph_inner ph) j) as [y|] eqn:Y|];
      cbn [run_fops fw_agents] in E; apply eq_sym, K in E; destruct E as (-> & -> & ->);
      (split; [split; [exact A|]; split; [left; now rewrite get_set, Nat.eqb_refl|]; cbn; rewrite ?Nat.eqb_refl; auto|]);
      (split; [auto|]); (split; [auto|]); (split; [auto|]); apply others; intros b N; apply Nat.eqb_neq in N; rewrite !get_set, N; cbn; rewrite ?N; auto.
Qed.
End Act.

(** * Runs *)
Section Sim.
Context {AR : Arith} {W : Type}.
Variables (u : user W) (E : W -> W -> Prop).
Hypothesis H1 : forall s a x y x' ops o, E x y -> u_step u s a x = (x', ops, o) -> exists y', u_step u s a y = (y', ops, o) /\ E x' y'.
Hypothesis H2 : forall l x y x' l', E x y -> u_shuffle u l x = (x', l') -> exists y', u_shuffle u l y = (y', l') /\ E x' y'.

Lemma bucket_sim now b : forall s x y s' x' tr e, E x y -> run_bucket u now b s x = (s', x', tr, e) ->
  exists y', run_bucket u now b s y = (s', y', tr, e) /\ E x' y'.
Proof.
  induction b as [|a b IH]; cbn [run_bucket]; intros s x y s' x' tr e R Q.
  { injection Q as <- <- <- <-. eauto. }
  destruct (u_step u s a x) as [[x1 ops] o] eqn:U. destruct (H1 _ _ _ _ _ _ _ R U) as (y1 & V & R1). rewrite V.
  destruct (run_ops s ops) as [s1 tr1]. destruct o as [d| |].
  - destruct (run_bucket u now b _ x1) as [[[s3 x3] tr3] e3] eqn:B. injection Q as <- <- <- <-.
    destruct (IH _ _ _ _ _ _ _ R1 B) as (y3 & -> & R3). eauto.
  - destruct (run_bucket u now b _ x1) as [[[s3 x3] tr3] e3] eqn:B. injection Q as <- <- <- <-.
    destruct (IH _ _ _ _ _ _ _ R1 B) as (y3 & -> & R3). eauto.
  - injection Q as <- <- <- <-. eauto.
Qed.
Lemma tstep_sim s x y s' x' tr e : E x y -> timed_step u s x = (s', x', tr, e) ->
  exists y', timed_step u s y = (s', y', tr, e) /\ E x' y'.
Proof.
  intros R. unfold timed_step. destruct (s_queue s) as [|[t b] q].
  { intros Q. injection Q as <- <- <- <-. eauto. }
  destruct (n_ltb _ t). { intros Q. injection Q as <- <- <- <-. eauto. }
  destruct (if s_shuffle s then u_shuffle u b x else (x, b)) as [x0 b0] eqn:SH.
  assert (K : exists y0, (if s_shuffle s then u_shuffle u b y else (y, b)) = (y0, b0) /\ E x0 y0).
  { destruct (s_shuffle s); [eapply H2; eauto|]. injection SH as <- <-. eauto. }
  destruct K as (y0 & -> & R0).
  destruct (run_bucket u (s_time s) b0 _ x0) as [[[s1 x1] tr1] e1] eqn:B.
  destruct (bucket_sim _ _ _ _ _ _ _ _ _ R0 B) as (y1 & -> & R1).
  destruct e1; intros Q; injection Q as <- <- <- <-; eauto.
Qed.
Lemma hist_sim h : (forall f, ~ In (CWorld f) h) -> forall s x y s' x' tr, E x y -> run_hist u h s x = (s', x', tr) ->
  exists y', run_hist u h s y = (s', y', tr) /\ E x' y'.
Proof.
  induction h as [|c h IH]; cbn [run_hist]; intros Ho s x y s' x' tr R Q.
  { injection Q as <- <- <-. eauto. }
  destruct (run_cmd u s x c) as [[s1 x1] tr1] eqn:C. destruct (run_hist u h s1 x1) as [[s2 x2] tr2] eqn:B.
  injection Q as <- <- <-.
  assert (K : exists y1, run_cmd u s y c = (s1, y1, tr1) /\ E x1 y1).
  { destruct c; cbn [run_cmd] in *.
    - destruct (timed_step u s x) as [[[s3 x3] tr3] e3] eqn:T. injection C as <- <- <-.
      destruct (tstep_sim _ _ _ _ _ _ _ R T) as (y3 & -> & R3). exists y3. auto.
    - injection C as <- <- <-. exists y. auto.
    - injection C as <- <- <-. exists y. auto.
    - destruct (Ho f). now left. }
  destruct K as (y1 & -> & R1). destruct (IH ltac:(intros f F; apply (Ho f); now right) _ _ _ _ _ _ R1 B) as (y2 & -> & R2). eauto.
Qed.
End Sim.

Section Agree.
Context {AR : Arith} {R : Type}.
Variable scripts : aid -> script.
Variable shuffle : list aid -> R -> R * list aid.
Notation X := (fworld sfun (sattrs R) * cors (frame spoint))%type.
Notation u := (style_user scripts shuffle).
Definition all_ok (styles : aid -> style) (ks : aid -> nat) (x : X) : Prop :=
  forall a, ok scripts (styles a) a (pos (scripts a) (ks a)) x.

Lemma all_ok_state styles ks w c a i : all_ok styles ks (w, c) -> in_state styles w a i <-> i = state_after (scripts a) (ks a).
Proof.
  intros O. specialize (O a). rewrite pos_state. unfold in_state, ok in *. destruct (pos (scripts a) (ks a)) as [i0 j0]. cbn [fst].
  destruct (styles a).
  - destruct O as [-> _]. cbn. split; [|intros ->; reflexivity].
    assert (LN : forall n, String.length (name_of n) = S n) by (induction n; cbn; auto).
    intros Q. injection Q as Q. apply (f_equal String.length) in Q. rewrite !LN in Q. congruence.
  - destruct O as (_ & _ & -> & _). split; auto.
  - destruct O as (_ & _ & ->). split; auto.
Qed.
Lemma all_ok_act styles ks s a x x' ops o : all_ok styles ks x -> u_step u s a x = (x', ops, o) ->
  all_ok styles (fun b => if Nat.eqb b a then S (ks b) else ks b) x' /\ ops = [] /\ o = asks (s_time s) (fst (nth_wait (scripts a) (ks a))) /\
  x_rng (fw_rest (fst x')) = x_rng (fw_rest (fst x)).
Proof.
  intros O U. cbn [style_user agent_user u_step] in U. 
  destruct (agent_step (style_code scripts) (fun _ : string => None) s a x) as [[x1 l1] o1] eqn:U1. injection U as <- <- <-.
  destruct (act scripts (styles a) a _ s x x1 l1 o1 (pos_tame (scripts a) (ks a)) (O a) U1) as (K1 & K2 & K3 & K4 & K5).
  rewrite pos_wait. split; [|auto]. intros b. destruct (Nat.eqb_spec b a) as [->|N]; auto.
Qed.
Lemma all_ok_shuffle styles ks l x x' l' : all_ok styles ks x -> u_shuffle u l x = (x', l') ->
  all_ok styles ks x' /\ l' = snd (shuffle l (x_rng (fw_rest (fst x)))) /\ x_rng (fw_rest (fst x')) = fst (shuffle l (x_rng (fw_rest (fst x)))).
Proof.
  intros O U. destruct x as [w c]. cbn in U. destruct (shuffle l (x_rng (fw_rest w))) as [g l1] eqn:S. injection U as <- <-.
  cbn [fst snd]. rewrite S. split; auto. 
Qed.

Lemma styles_agree styles styles' sh di h g s w c tr : (forall f, ~ In (CWorld f) h) ->
  run_hist u h (timed_init sh di) (style_world scripts styles g) = (s, (w, c), tr) ->
  exists w' c', run_hist u h (timed_init sh di) (style_world scripts styles' g) = (s, (w', c'), tr) /\
  forall a i, in_state styles w a i <-> in_state styles' w' a i.
Proof.
  intros Ho Q.
  set (E := fun x y => exists ks, all_ok styles ks x /\ all_ok styles' ks y /\ x_rng (fw_rest (fst x)) = x_rng (fw_rest (fst y))).
  assert (S : exists y, run_hist u h (timed_init sh di) (style_world scripts styles' g) = (s, y, tr) /\ E (w, c) y).
  { eapply hist_sim with (E := E); [| |exact Ho| |exact Q].
    - intros s0 a x y x' ops o (ks & O1 & O2 & G) U. destruct (all_ok_act _ _ _ _ _ _ _ _ O1 U) as (K1 & -> & -> & K4).
      destruct (u_step u s0 a y) as [[y' ops'] o'] eqn:V. destruct (all_ok_act _ _ _ _ _ _ _ _ O2 V) as (L1 & -> & -> & L4).
      eexists. split; [reflexivity|]. eexists. split; [exact K1|]. split; [exact L1|]. congruence.
    - intros l x y x' l' (ks & O1 & O2 & G) U. destruct (all_ok_shuffle _ _ _ _ _ _ O1 U) as (K1 & -> & K3).
      destruct (u_shuffle u l y) as [y' l2] eqn:V. destruct (all_ok_shuffle _ _ _ _ _ _ O2 V) as (L1 & -> & L3).
      exists y'. rewrite G in *. split; [reflexivity|]. exists ks. repeat split; auto. congruence.
    - exists (fun _ => 0). split; [intros a; now apply new_ok|]. split; [intros a; now apply new_ok|]. reflexivity. }
  destruct S as ([w' c'] & Q' & ks & O1 & O2 & _). exists w', c'. split; auto.
  intros a i. rewrite (all_ok_state _ _ _ _ _ _ O1), (all_ok_state _ _ _ _ _ _ O2). reflexivity.
Qed.

Lemma script_track styles sh di h g s w c tr a : (forall f, ~ In (CWorld f) h) ->
  run_hist u h (timed_init sh di) (style_world scripts styles g) = (s, (w, c), tr) ->
  (forall n t o, nth_error (acts_of a tr) n = Some (t, o) -> o = asks t (fst (nth_wait (scripts a) n))) /\
  forall i, in_state styles w a i <-> i = state_after (scripts a) (List.length (acts_of a tr)).
Proof.
  intros Ho Q.
  set (J := fun (l : list (num * outcome)) (x : X) => (exists ks, all_ok styles ks x /\ ks a = List.length l) /\
    forall n t o, nth_error l n = Some (t, o) -> o = asks t (fst (nth_wait (scripts a) n))).
  assert (K : J (acts_of a tr) (w, c)).
  { refine (hist_track u a J _ _ h Ho [] _ _ _ _ _ Q _).
    - intros l s0 b x x' ops o U ((ks & O & L) & N). destruct (all_ok_act _ _ _ _ _ _ _ _ O U) as (K1 & _ & K3 & _). split.
      + eexists. split; [exact K1|]. cbn. rewrite (Nat.eqb_sym a b). destruct (Nat.eqb b a); auto. rewrite app_length, L. cbn. lia.
      + destruct (Nat.eqb_spec b a) as [->|]; auto. intros n t o' E.
        destruct (Nat.lt_ge_cases n (List.length l)) as [H|H]; [rewrite nth_error_app1 in E by auto; now apply N|].
        rewrite nth_error_app2 in E by auto. destruct (n - List.length l) as [|m] eqn:D; [|destruct m; discriminate].
        cbn in E. injection E as <- <-. rewrite K3, L. do 2 f_equal. f_equal. lia.
    - intros l b x ((ks & O & L) & N). destruct (u_shuffle u b x) as [x' b'] eqn:U. destruct (all_ok_shuffle _ _ _ _ _ _ O U) as (K1 & _ & _).
      split; eauto.
    - split; [|intros [|n]; discriminate]. exists (fun _ => 0). split; auto. intros b. now apply new_ok. }
  destruct K as ((ks & O & L) & N). split; auto. intros i. rewrite (all_ok_state _ _ _ _ _ _ O), L. reflexivity.
Qed.
End Agree.

(** * Instants *)
Section Instants.
#[local] Existing Instance exact.
Lemma woken_due di t x : forward_ev (EvAct (Fin t) 0 (asks (Fin t) x)) ->
  next_due (Fin di) (Fin t) (asks (Fin t) x) = option_map Fin (woken di t x).
Proof.
  destruct x as [|[d| | |]|[d| | |]]; cbn; try discriminate; auto; intros _.
  - destruct (Z.eqb d 0); reflexivity.
  - replace (d + - t =? 0)%Z with (d =? t)%Z by (destruct (Z.eqb_spec d t), (Z.eqb_spec (d + - t) 0); auto; lia).
    destruct (Z.eqb_spec d t); cbn; f_equal; f_equal; lia.
Qed.
Lemma timeline_timetable di sc a rest pend t0 : timetable (Fin di) a t0 rest pend -> forall t k, t0 = Fin t ->
  Forall forward_ev rest ->
  (forall n t' o, nth_error (acts_of a rest) n = Some (t', o) -> o = asks t' (fst (nth_wait sc (k + n)))) ->
  instants a rest = timeline di sc (List.length (acts_of a rest)) k t /\
  forall t', nth_error (timeline di sc (S (List.length (acts_of a rest))) k t) (List.length (acts_of a rest)) = Some t' -> pend = Some t'.
Proof.
  induction 1 as [due|due o N|due o due' rest pend N T IH]; intros t k -> F H.
  - cbn. split; auto.
  - pose proof (H 0 (Fin t) o) as H0. cbn [acts_of flat_map] in H0. rewrite Nat.eqb_refl in H0. specialize (H0 eq_refl).
    rewrite Nat.add_0_r in H0. subst o. inversion F as [|? ? F1 _]; subst. rewrite woken_due in N by exact F1.
    cbn [instants acts_of flat_map]. rewrite Nat.eqb_refl. cbn [List.length app timeline nth_error].
    destruct (woken di t (fst (nth_wait sc k))); [discriminate|]. split; [reflexivity|discriminate].
  - pose proof (H 0 (Fin t) o) as H0. cbn [acts_of flat_map] in H0. rewrite Nat.eqb_refl in H0. specialize (H0 eq_refl).
    rewrite Nat.add_0_r in H0. subst o. inversion F as [|? ? F1 F2]; subst. rewrite woken_due in N by exact F1.
    destruct (woken di t (fst (nth_wait sc k))) as [t2|] eqn:WK; [|discriminate]. cbn in N. injection N as <-.
    destruct (IH t2 (S k) eq_refl F2) as [I1 I2].
    { intros n t' o E. replace (S k + n) with (k + S n) by lia. apply H. cbn [acts_of flat_map]. rewrite Nat.eqb_refl. exact E. }
    cbn [instants acts_of flat_map]. fold (acts_of a rest). rewrite Nat.eqb_refl. cbn [List.length app].
    change (timeline di sc (S (List.length (acts_of a rest))) k t) with
      (Fin t :: match woken di t (fst (nth_wait sc k)) with Some t' => timeline di sc (List.length (acts_of a rest)) (S k) t' | None => [] end).
    change (timeline di sc (S (S (List.length (acts_of a rest)))) k t) with
      (Fin t :: match woken di t (fst (nth_wait sc k)) with Some t' => timeline di sc (S (List.length (acts_of a rest))) (S k) t' | None => [] end).
    rewrite WK, I1. cbn [nth_error]. split; auto.
Qed.

Lemma script_life {R} (scripts : aid -> script) (shuffle : list aid -> R -> R * list aid) styles sh di h g s w c tr a t0 :
  (forall l g, Permutation l (snd (shuffle l g))) -> (forall f, ~ In (CWorld f) h) -> (0 <= di)%Z ->
  run_hist (style_user scripts shuffle) h (timed_init sh (Fin di)) (style_world scripts styles g) = (s, (w, c), tr) ->
  forward_trace tr -> adds_of a tr = 1 -> In (EvAdd (Fin t0) a) tr ->
  let n := List.length (instants a tr) in
  instants a tr = timeline di (scripts a) n 0 t0 /\
  (forall t', nth_error (timeline di (scripts a) (S n) 0 t0) n = Some t' -> n_leb (s_time s) t' = true) /\
  in_state styles w a (state_after (scripts a) n).
Proof.
  intros P Ho D Q F A IA. cbn zeta.
  assert (NE : no_exc tr).
  { apply forallb_forall. intros e I. destruct e as [|t b o]; auto.
    assert (J : In (t, o) (acts_of b tr)).
    { apply in_flat_map. eexists. split; [exact I|]. cbn. rewrite Nat.eqb_refl. now left. }
    apply In_nth_error in J. destruct J as [n J]. apply (proj1 (script_track scripts shuffle styles sh _ h g s w c tr b Ho Q)) in J. subst o. reflexivity. }
  assert (FS : sh = true -> fair_shuffle (style_user scripts shuffle)).
  { intros _ l [w0 c0]. cbn. specialize (P l (x_rng (fw_rest w0))). destruct (shuffle l (x_rng (fw_rest w0))). exact P. }
  destruct (trace_wakeup _ _ _ _ _ _ _ _ _ FS (nonneg_fin di D) Q NE F A) as (t1 & rest & pend & FI & TT & PE).
  assert (T1 : t1 = Fin t0).
  { assert (J : In (EvAdd (Fin t0) a) (filter (about a) tr)) by (apply filter_In; cbn; rewrite Nat.eqb_refl; auto).
    assert (L : filter (is_add_of a) (filter (about a) tr) = filter (is_add_of a) tr).
    { clear. induction tr as [|[t b|t b o] tr IH]; cbn; auto; destruct (Nat.eqb a b) eqn:E; cbn; rewrite ?E, ?IH; auto. }
    unfold adds_of in A. rewrite <- L, FI in A. cbn in A. rewrite Nat.eqb_refl in A. cbn in A. injection A as A.
    rewrite FI in J. destruct J as [J|J]; [now injection J|].
    assert (J2 : In (EvAdd (Fin t0) a) (filter (is_add_of a) rest)) by (apply filter_In; cbn; rewrite Nat.eqb_refl; auto).
    destruct (filter (is_add_of a) rest); [contradiction|discriminate]. }
  subst t1. assert (AC : acts_of a tr = acts_of a rest) by (rewrite acts_of_about, FI; reflexivity).
  destruct (script_track scripts shuffle styles sh _ h g s w c tr a Ho Q) as [S1 S2].
  assert (FR : Forall forward_ev rest).
  { apply Forall_forall. intros e I. unfold forward_trace in F; rewrite Forall_forall in F. apply F.
    assert (J : In e (filter (about a) tr)) by (rewrite FI; now right). apply filter_In in J. tauto. }
  rewrite AC in S1. destruct (timeline_timetable di (scripts a) a rest pend _ TT t0 0 eq_refl FR S1) as [I1 I2].
  rewrite instants_acts, map_length, AC. rewrite instants_acts in I1. split; auto.
  split; [intros t' J; rewrite (I2 t' J) in PE; exact PE|]. apply S2. now rewrite AC.
Qed.
End Instants.
