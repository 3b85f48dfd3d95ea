(** Proofs about NewsModel. *)
From Coq Require Import ZArith List Bool Arith String Lia.
From Verif Require Import Num PyDict TimedModel AgentModel AgentProofs FsmModel FsmSpec FsmProofs
  PlainProofs NewsModel NewsSpec.
Import ListNotations.
Local Open Scope string_scope.

Lemma same_refl r : same_setting r r.
Proof. repeat split. Qed.
Lemma same_trans r1 r2 r3 : same_setting r1 r2 -> same_setting r2 r3 -> same_setting r1 r3.
Proof. unfold same_setting. intuition congruence. Qed.

(** What an activation may do to the rest of the world. *)
Record change (H K : aid -> Prop) (r r' : nrest) : Prop := {
  ch_same : same_setting r r';
  ch_hit : forall b, nr_hit r' b <> nr_hit r b -> nr_hit r' b = true /\ H b;
  ch_cure : forall b, nr_cure r' b <> nr_cure r b -> nr_cure r' b = Some true /\ K b }.
Lemma change_refl H K r : change H K r r.
Proof. split; [apply same_refl| |]; intros b N; now contradict N. Qed.
Lemma change_trans H K r1 r2 r3 : change H K r1 r2 -> change H K r2 r3 -> change H K r1 r3.
Proof.
  intros [S1 H1 K1] [S2 H2 K2]. split; [eapply same_trans; eauto| |]; intros b N.
  - destruct (bool_dec (nr_hit r3 b) (nr_hit r2 b)) as [E|E]; auto. rewrite E in *. auto.
  - destruct (nr_cure r3 b) as [x|] eqn:E3; destruct (nr_cure r2 b) as [y|] eqn:E2.
    + destruct (bool_dec x y) as [->|D].
      * specialize (K1 b). rewrite E2 in K1. auto.
      * specialize (K2 b). rewrite E3, E2 in K2. apply K2. congruence.
    + specialize (K2 b). rewrite E3, E2 in K2. apply K2. congruence.
    + specialize (K2 b). rewrite E3, E2 in K2. destruct K2; congruence.
    + specialize (K1 b). rewrite E2 in K1. auto.
Qed.
Lemma change_roll H K p r : change H K r (snd (roll p r)).
Proof. split; [repeat split| |]; intros b N; now contradict N. Qed.
Lemma change_hit (H K : aid -> Prop) b r : H b -> change H K r (set_hit r b).
Proof.
  intros X. split; [repeat split| |]; intros c N; cbn in *; [|now contradict N].
  destruct (Nat.eqb_spec c b); [subst; auto|now contradict N].
Qed.
Lemma change_cured (H K : aid -> Prop) b r : K b -> change H K r (set_cured r b).
Proof.
  intros X. split; [repeat split| |]; intros c N; cbn in *; [now contradict N|].
  destruct (Nat.eqb_spec c b); [subst; auto|now contradict N].
Qed.

Section News.
Variables (share cure_prob : num -> nat -> nat -> num).

Lemma infect_change (H K : aid -> Prop) ag b r : H b -> change H K r (fst (infect share ag b r)).
Proof.
  intros X. unfold infect.
  assert (G : change H K r (fst match nr_spread r with
      | PTupleOf _ => (r, false)
      | PNumber p =>
          let n := List.length (neighbours_in "infected" ag r b) in
          let total := List.length (nr_nbrs r b) in
          if Nat.eqb total 0 then (r, false)
          else let '(yes, r1) := roll (share p n total) r in
               (if yes then set_hit r1 b else r1, true)
      end)).
  { destruct (nr_spread r) as [p|p]; [|apply change_refl]. cbv zeta.
    destruct (Nat.eqb _ 0); [apply change_refl|].
    pose proof (change_roll H K (share p (List.length (neighbours_in "infected" ag r b)) (List.length (nr_nbrs r b))) r) as C.
    destruct (roll _ r) as [yes r1]. cbn [snd fst] in *. destruct yes; auto.
    eapply change_trans; eauto. now apply change_hit. }
  destruct (nr_class r b); auto. now apply change_hit.
Qed.
Lemma spread_change (H K : aid -> Prop) ag l : forall r, (forall b, In b l -> H b) -> change H K r (fst (spread share ag l r)).
Proof.
  induction l as [|b l IH]; intros r X; cbn [spread]; [apply change_refl|].
  destruct (nr_spread r) as [p|p]; [|apply change_roll].
  pose proof (change_roll H K p r) as C. destruct (roll p r) as [yes r1]. cbn [snd] in C.
  assert (X' : forall b, In b l -> H b) by (intros; apply X; simpl; auto).
  destruct yes; [|eapply change_trans; eauto].
  pose proof (infect_change H K ag b r1 (X b (or_introl eq_refl))) as I.
  destruct (infect share ag b r1) as [r2 fine]. cbn [fst] in I.
  destruct fine; eapply change_trans; eauto. eapply change_trans; eauto.
Qed.
Lemma heal_change (H K : aid -> Prop) l : forall r, (forall b, In b l -> K b) -> change H K r (fst (heal l r)).
Proof.
  induction l as [|b l IH]; intros r X; cbn [heal]; [apply change_refl|].
  destruct (nr_prob_cure r) as [p|p]; [|apply change_roll].
  pose proof (change_roll H K p r) as C. destruct (roll p r) as [yes r1]. cbn [snd] in C.
  eapply change_trans; [|apply IH; intros; apply X; simpl; auto].
  destruct yes; auto. destruct (nr_class r1 b); auto.
  eapply change_trans; eauto. apply change_cured, X. simpl. auto.
Qed.

Lemma neighbours_are n ag r a b : In b (neighbours_in n ag r a) -> In b (nr_nbrs r a).
Proof. intros I. now apply filter_In in I. Qed.

Notation code := (news_code share cure_prob).
Lemma news_plain : plain_code code.
Proof.
  intros s a q w r ops g E. cbn [c_resume news_code] in E.
  set (x := match q with NNeutral => _ | _ => _ end) in E. destruct x as [r1 g1] eqn:X. injection E as <- <- <-.
  subst x. destruct q; unfold neutral_fn, infected_fn, infected_wise_fn, cured_fn in X.
  - destruct (nr_tv (fw_rest w) a).
    + destruct (nr_tv_spread _); [|injection X as <- <-; exact I].
      destruct (roll p (fw_rest w)) as [yes r2]. destruct yes; injection X as <- <-; [constructor|].
      destruct (nr_hit _ _); constructor.
    + injection X as <- <-. destruct (nr_hit _ _); constructor.
  - destruct (spread _ _ _ _) as [r2 fine]. injection X as <- <-. destruct fine; [constructor|exact I].
  - destruct (nr_cure _ _) as [[]|]; try (injection X as <- <-; try constructor; exact I).
    destruct (nr_prob_cure _) as [p|p]; [|injection X as <- <-; exact I].
    destruct (roll _ _) as [yes r2]. injection X as <- <-. destruct yes; constructor.
  - destruct (heal _ _) as [r2 fine]. injection X as <- <-. destruct fine; [constructor|exact I].
  - injection X as <- <-. constructor.
Qed.
Lemma news_no_ops s a q w : snd (fst (c_resume code s a q w)) = [].
Proof.
  cbn [c_resume news_code]. destruct (match q with NNeutral => _ | _ => _ end). reflexivity.
Qed.

(** What a state function does. *)
Definition leaves (g : gout nfun (pyval nfun)) (st : state nfun) : option (state nfun) :=
  match g with GReturn x => goes_to x (Some st) | _ => Some st end.
Lemma news_resume s a w st r g : all_viewers w -> fa_cur (fw_agents w a) = Some st ->
  c_resume code s a (c_start code (st_fun st)) w = (r, [], g) ->
  let R := fw_rest w in let v := nr_class R a in
  change (fun b => In b (nr_nbrs R a) /\ st = infected) (fun b => In b (nr_nbrs R a) /\ st = cured) R r /\
  (leaves g st = Some st \/
   st = neutral /\ leaves g st = Some (own_infected v) /\
     (nr_tv R a = true \/ nr_hit R a = true) \/
   st = infected_wise /\ leaves g st = Some cured /\ nr_cure R a <> None).
Proof.
  intros V C E R v. destruct (V a) as (_ & n & st0 & N & D & C0). rewrite C in C0. injection C0 as <-.
  fold R in D. cbn [c_resume c_start news_code] in E. fold R in E.
  set (P := fun st r (g : gout nfun (pyval nfun)) => change (fun b => In b (nr_nbrs R a) /\ st = infected) (fun b => In b (nr_nbrs R a) /\ st = cured) R r /\
  (leaves g st = Some st \/
   st = neutral /\ leaves g st = Some (own_infected v) /\
     (nr_tv R a = true \/ nr_hit R a = true) \/
   st = infected_wise /\ leaves g st = Some cured /\ nr_cure R a <> None)).
  change (P st r g).
  assert (PN : forall r g, neutral_fn a R = (r, g) -> P neutral r g).
  { clear. intros r g E. unfold neutral_fn in E. fold v in E. unfold P.
    destruct (nr_tv R a) eqn:T.
    - destruct (nr_tv_spread R) as [p|p]; [|injection E as <- <-; split; [apply (change_roll _ _ p)|left; reflexivity]].
      pose proof (change_roll (fun b => In b (nr_nbrs R a) /\ neutral = infected) (fun b => In b (nr_nbrs R a) /\ neutral = cured) p R) as C.
      destruct (roll p R) as [yes r1]. cbn [snd] in C. destruct yes; injection E as <- <-; (split; [exact C|]).
      { right. left. auto. }
      destruct (nr_hit r1 a); [|left; reflexivity]. right. left. auto.
    - injection E as <- <-. split; [apply change_refl|]. destruct (nr_hit R a); [|left; reflexivity]. right. left. auto. }
  assert (PI : forall r g, infected_fn share (fw_agents w) a R = (r, g) -> P infected r g).
  { clear. intros r g E. unfold infected_fn in E. unfold P.
    pose proof (spread_change (fun b => In b (nr_nbrs R a) /\ infected = infected) (fun b => In b (nr_nbrs R a) /\ infected = cured)
      (fw_agents w) (neighbours_in "neutral" (fw_agents w) R a) R) as C.
    destruct (spread _ _ _ _) as [r1 fine]. injection E as <- <-. split.
    - apply C. intros b I. apply neighbours_are in I. auto.
    - left. destruct fine; reflexivity. }
  assert (PC : forall r g, cured_fn (fw_agents w) a R = (r, g) -> P cured r g).
  { clear. intros r g E. unfold cured_fn in E. unfold P.
    pose proof (heal_change (fun b => In b (nr_nbrs R a) /\ cured = infected) (fun b => In b (nr_nbrs R a) /\ cured = cured)
      (neighbours_in "infected" (fw_agents w) R a) R) as C.
    destruct (heal _ _) as [r1 fine]. injection E as <- <-. split.
    - apply C. intros b I. apply neighbours_are in I. auto.
    - left. destruct fine; reflexivity. }
  assert (PW : forall r g, infected_wise_fn cure_prob (fw_agents w) a R = (r, g) -> P infected_wise r g).
  { clear. intros r g E. unfold infected_wise_fn in E. unfold P.
    destruct (nr_cure R a) as [[]|] eqn:T; try (injection E as <- <-; split; [apply change_refl|]; auto; fail).
    - injection E as <- <-. split; [apply change_refl|]. right. right. repeat split. congruence.
    - destruct (nr_prob_cure R) as [p|p]; [|injection E as <- <-; split; [apply change_refl|left; reflexivity]].
      match type of E with context [roll ?x R] => 
        pose proof (change_roll (fun b => In b (nr_nbrs R a) /\ infected_wise = infected) (fun b => In b (nr_nbrs R a) /\ infected_wise = cured) x R) as C end.
      destruct (roll _ R) as [yes r1]. cbn [snd] in C. injection E as <- <-. split; auto.
      destruct yes; [|left; reflexivity]. right. right. repeat split. congruence. }
  assert (X : match st_fun st with
    | NNeutral => neutral_fn a R
    | NInfected => infected_fn share (fw_agents w) a R
    | NInfectedWise => infected_wise_fn cure_prob (fw_agents w) a R
    | NCured => cured_fn (fw_agents w) a R
    | NDead => (R, GReturn (PNum PInf))
    end = (r, g)).
  { destruct (match st_fun st with NNeutral => _ | _ => _ end) as [r1 g1]. injection E as <- <-. reflexivity. }
  clear E. destruct (nr_class R a); destruct N as [<-|[<-|[<-|[]]]];
    vm_compute in D; try discriminate D; injection D as <-; cbn [st_fun] in X;
    first [now apply PN|now apply PI|now apply PW|now apply PC].
Qed.

(** An activation. *)
Definition moved (w w' : fworld nfun nrest) (a : aid) : Prop :=
  let R := fw_rest w in
  fa_cur (fw_agents w' a) = fa_cur (fw_agents w a) \/
  fa_cur (fw_agents w a) = Some neutral /\ fa_cur (fw_agents w' a) = Some (own_infected (nr_class R a)) /\
    (nr_tv R a = true \/ nr_hit R a = true) \/
  fa_cur (fw_agents w a) = Some infected_wise /\ fa_cur (fw_agents w' a) = Some cured /\ nr_cure R a <> None.

Lemma news_step fs s a w c w' c' l o : all_viewers w -> rested c ->
  agent_step code fs s a (w, c) = (w', c', l, o) ->
  rested c' /\ all_viewers w' /\
  change (fun b => In b (nr_nbrs (fw_rest w) a) /\ fa_cur (fw_agents w a) = Some infected)
         (fun b => In b (nr_nbrs (fw_rest w) a) /\ fa_cur (fw_agents w a) = Some cured) (fw_rest w) (fw_rest w') /\
  (forall b, b <> a -> fw_agents w' b = fw_agents w b) /\ moved w w' a.
Proof.
  intros V Re E. destruct (V a) as (Kd & n0 & st0 & N0 & D0 & C0).
  destruct (quiet_step _ _ _ _ _ _ _ _ _ _ _ news_plain Re news_no_ops Kd E) as (Re' & -> & H).
  split; auto. destruct H as [->|(st & r & g & C & A & CR & Er & Eo & Ea)].
  { split; [exact V|]. split; [apply change_refl|]. split; auto. now left. }
  destruct (news_resume _ _ _ _ _ _ V C CR) as [Ch Mv]. fold (leaves g st) in Ea.
  assert (Ch' : change (fun b => In b (nr_nbrs (fw_rest w) a) /\ fa_cur (fw_agents w a) = Some infected)
         (fun b => In b (nr_nbrs (fw_rest w) a) /\ fa_cur (fw_agents w a) = Some cured) (fw_rest w) (fw_rest w')).
  { rewrite Er. destruct Ch as [Ch1 Ch2 Ch3]. split; auto; intros b N.
    - destruct (Ch2 b N) as (X & Y & ->). auto.
    - destruct (Ch3 b N) as (X & Y & ->). auto. }
  assert (Mv' : moved w w' a).
  { unfold moved. rewrite Ea. cbn [set_cur fa_cur].
    destruct Mv as [->|[(-> & -> & ?)|(-> & -> & ?)]]; rewrite ?C; auto. }
  split; [|auto]. intros b. destruct Ch' as [(Ec & _) _ _]. rewrite Ec.
  destruct (Nat.eq_dec b a) as [->|NE]; [|rewrite Eo by auto; apply V].
  rewrite Ea. cbn [set_cur fa_kind fa_cur]. split; auto.
  destruct Mv as [->|[(_ & -> & _)|(X & -> & _)]].
  - exists n0, st0. rewrite C in C0. auto.
  - exists "infected", (own_infected (nr_class (fw_rest w) a)). split; [cbn; auto|]. split; auto.
    destruct (nr_class (fw_rest w) a); reflexivity.
  - exists "cured", cured. split; [cbn; auto|]. split; auto. rewrite C in C0. injection C0 as <-. subst st.
    destruct (nr_class (fw_rest w) a); auto; destruct N0 as [<-|[<-|[<-|[]]]]; vm_compute in D0; discriminate.
Qed.

(** Along a whole history. *)
Lemma news_hist {AR : Arith} (I : fworld nfun nrest -> Prop) (shuffle : list aid -> nrest -> nrest * list aid) : only_draws shuffle ->
  (forall w r, same_setting (fw_rest w) r -> nr_hit r = nr_hit (fw_rest w) -> nr_cure r = nr_cure (fw_rest w) ->
     I w -> I (FWorld (fw_agents w) r)) ->
  (forall w w' a, I w -> all_viewers w ->
     change (fun b => In b (nr_nbrs (fw_rest w) a) /\ fa_cur (fw_agents w a) = Some infected)
         (fun b => In b (nr_nbrs (fw_rest w) a) /\ fa_cur (fw_agents w a) = Some cured) (fw_rest w) (fw_rest w') ->
     (forall b, b <> a -> fw_agents w' b = fw_agents w b) -> moved w w' a -> I w') ->
  forall h s w c s' w' c' tr, hands_off h -> all_viewers w -> rested c ->
  run_hist (news_user share cure_prob shuffle) h s (w, c) = (s', (w', c'), tr) -> I w ->
  I w' /\ all_viewers w' /\ rested c'.
Proof.
  intros Sh I1 I2 h s w c s' w' c' tr Ho V Re E Iw.
  set (P := fun x : fworld nfun nrest * cors (frame nfun) => I (fst x) /\ all_viewers (fst x) /\ rested (snd x)).
  change (P (w', c')). eapply (hist_keeps P); [|exact E| |exact (conj Iw (conj V Re))].
  - split.
    + intros s0 a [w0 c0] (X1 & X2 & X3). cbn [news_user u_step agent_user fst snd] in *.
      destruct (agent_step code (fun _ => None) s0 a (w0, c0)) as [[[w1 c1] l1] o1] eqn:E1.
      destruct (news_step _ _ _ _ _ _ _ _ _ X2 X3 E1) as (Y1 & Y2 & Y3 & Y4 & Y5).
      cbn [fst snd]. split; [|split]; auto. cbn. eapply I2; eauto.
    + intros l [w0 c0] (X1 & X2 & X3). cbn [news_user u_shuffle agent_user fst snd] in *.
      destruct (Sh l (fw_rest w0)) as (Z1 & Z2 & Z3).
      destruct (shuffle l (fw_rest w0)) as [r1 l1]. cbn [fst snd] in *. split; [|split]; auto; cbn.
      * now apply I1.
      * intros a. destruct Z1 as (Zc & _). cbn. rewrite Zc. apply X2.
  - apply Forall_forall. intros [| | |f] In; cbn; auto. destruct (Ho f In).
Qed.
End News.

Lemma own_infected_name v : st_name (own_infected v) = "infected".
Proof. destruct v; reflexivity. Qed.

Section Hist.
Context {AR : Arith}.
Variables (share cure_prob : num -> nat -> nat -> num) (shuffle : list aid -> nrest -> nrest * list aid).
Hypothesis (Sh : only_draws shuffle).
Variables (h : list (cmd (W := fworld nfun nrest * cors (frame nfun)))) (s s' : sched) (w w' : fworld nfun nrest)
  (c' : cors (frame nfun)) (tr : list ev).
Hypothesis (Ho : hands_off h) (V : all_viewers w).
Hypothesis (E : run_hist (news_user share cure_prob shuffle) h s (w, no_cors) = (s', (w', c'), tr)).

Lemma rested_nobody : rested (Q := nfun) no_cors.
Proof. intros a. now left. Qed.

Lemma along_the_network (S : aid -> Prop) :
  (forall a b, In b (nr_nbrs (fw_rest w) a) -> S b -> S a) ->
  (forall a, S a -> nr_tv (fw_rest w) a = false /\ nr_hit (fw_rest w) a = false /\ ~ in_state "infected" w a) ->
  forall a, S a -> nr_hit (fw_rest w') a = false /\ ~ in_state "infected" w' a.
Proof.
  intros Cl St.
  set (I := fun x : fworld nfun nrest => same_setting (fw_rest w) (fw_rest x) /\
    forall a, S a -> nr_hit (fw_rest x) a = false /\ ~ in_state "infected" x a).
  enough (G : I w') by (exact (proj2 G)).
  apply (news_hist share cure_prob I shuffle Sh) with (h := h) (s := s) (w := w) (c := no_cors) (s' := s') (c' := c') (tr := tr);
    auto using rested_nobody.
  - intros x r Ss Eh Ek [I1 I2]. split; cbn; [eapply same_trans; eauto|]. intros a Sa. rewrite Eh. apply (I2 a Sa).
  - intros x x' a [I1 I2] Vx [C1 C2 C3] Eo Mv. split; [eapply same_trans; eauto|].
    pose proof I1 as (_ & T & Nb & _).
    intros b Sb. split.
    + destruct (nr_hit (fw_rest x') b) eqn:Hb; auto. exfalso.
      destruct (I2 b Sb) as [Hb0 _]. assert (N : nr_hit (fw_rest x') b <> nr_hit (fw_rest x) b) by congruence.
      destruct (C2 b N) as (_ & Inb & Cur). rewrite Nb in Inb. destruct (I2 a (Cl _ _ Inb Sb)) as [_ NI].
      apply NI. exists infected. auto.
    + destruct (Nat.eq_dec b a) as [->|NE].
      2:{ unfold in_state. rewrite Eo by auto. apply (I2 b Sb). }
      destruct (I2 a Sb) as [Ha NI]. intros (st & Cs & Ns). apply NI.
      destruct Mv as [Mv|[(_ & _ & [Tv|Hh])|(Mv & Mv' & _)]].
      * exists st. split; congruence.
      * rewrite T in Tv. destruct (St a Sb) as (Tf & _). congruence.
      * congruence.
      * rewrite Mv' in Cs. injection Cs as <-. discriminate Ns.
  - split; [apply same_refl|]. intros a Sa. destruct (St a Sa) as (_ & X & Y). auto.
Qed.

(** What may happen to the state of one viewer. *)
Lemma one_way (a : aid) (ok : state nfun -> Prop) :
  (forall st, ok st -> st <> neutral) ->
  (ok infected_wise -> nr_class (fw_rest w) a = Wise -> ok cured) ->
  (exists st, fa_cur (fw_agents w a) = Some st /\ ok st) -> exists st, fa_cur (fw_agents w' a) = Some st /\ ok st.
Proof.
  intros N0 Wi St.
  set (I := fun x : fworld nfun nrest => same_setting (fw_rest w) (fw_rest x) /\
    exists st, fa_cur (fw_agents x a) = Some st /\ ok st).
  enough (G : I w') by (exact (proj2 G)).
  apply (news_hist share cure_prob I shuffle Sh) with (h := h) (s := s) (w := w) (c := no_cors) (s' := s') (c' := c') (tr := tr);
    auto using rested_nobody.
  - intros x r Ss Eh Ek [I1 I2]. split; cbn; [eapply same_trans; eauto|auto].
  - intros x x' b [I1 (st & Cs & Ok)] Vx [C1 C2 C3] Eo Mv. split; [eapply same_trans; eauto|].
    destruct (Nat.eq_dec a b) as [->|NE]; [|exists st; now rewrite Eo].
    destruct Mv as [Mv|[(Mv & _)|(Mv & Mv' & _)]].
    + exists st. split; congruence.
    + rewrite Cs in Mv. injection Mv as ->. destruct (N0 _ Ok eq_refl).
    + exists cured. split; auto. rewrite Cs in Mv. injection Mv as ->. apply Wi; auto.
      destruct (Vx b) as (_ & n & st & Hn & D & Ec). rewrite Cs in Ec. injection Ec as <-.
      destruct I1 as (Ecl & _). rewrite Ecl in D. destruct (nr_class (fw_rest w) b); auto;
        destruct Hn as [<-|[<-|[<-|[]]]]; vm_compute in D; discriminate D.
  - split; [apply same_refl|auto].
Qed.

Lemma none_cured : (forall a, nr_cure (fw_rest w) a = None /\ ~ in_state "cured" w a) ->
  (forall a, nr_cure (fw_rest w') a = None /\ ~ in_state "cured" w' a) /\ all_viewers w' /\ rested c' /\
  same_setting (fw_rest w) (fw_rest w').
Proof.
  intros St.
  set (I := fun x : fworld nfun nrest => same_setting (fw_rest w) (fw_rest x) /\
    forall a, nr_cure (fw_rest x) a = None /\ ~ in_state "cured" x a).
  enough (G : I w' /\ all_viewers w' /\ rested c') by (destruct G as ((? & ?) & ? & ?); auto).
  apply (news_hist share cure_prob I shuffle Sh) with (h := h) (s := s) (w := w) (c := no_cors) (s' := s') (c' := c') (tr := tr);
    auto using rested_nobody.
  - intros x r Ss Eh Ek [I1 I2]. split; cbn; [eapply same_trans; eauto|]. intros b. rewrite Ek. apply I2.
  - intros x x' a [I1 I2] Vx [C1 C2 C3] Eo Mv. split; [eapply same_trans; eauto|]. intros b. split.
    + destruct (nr_cure (fw_rest x') b) eqn:Hb; auto. exfalso.
      destruct (I2 b) as [Hb0 _]. assert (N : nr_cure (fw_rest x') b <> nr_cure (fw_rest x) b) by congruence.
      destruct (C3 b N) as (_ & _ & Cur). apply (proj2 (I2 a)). exists cured. auto.
    + destruct (Nat.eq_dec b a) as [->|NE].
      2:{ unfold in_state. rewrite Eo by auto. apply (I2 b). }
      destruct (I2 a) as [Ha NI]. intros (st & Cs & Ns). 
      destruct Mv as [Mv|[(_ & Mv & _)|(_ & _ & Mv)]].
      * apply NI. exists st. split; congruence.
      * rewrite Mv in Cs. injection Cs as <-. rewrite own_infected_name in Ns. discriminate.
      * congruence.
  - split; [apply same_refl|auto].
Qed.
End Hist.

(** One activation of an infected wise viewer without the attribute. *)
Lemma wise_raises share cure_prob fs s a w c : all_viewers w -> nr_class (fw_rest w) a = Wise ->
  nr_cure (fw_rest w) a = None -> in_state "infected" w a -> fa_alive (fw_agents w a) = true -> get_co c a = None ->
  exists c', agent_step (news_code share cure_prob) fs s a (w, c) = (w, c', [], Exc).
Proof.
  intros V Cl Cu (st & Cs & Ns) A G. destruct (V a) as (K & n & st0 & Hn & D & Ec).
  rewrite Cs in Ec. injection Ec as <-. rewrite Cl in K, D.
  assert (st = infected_wise).
  { destruct Hn as [<-|[<-|[<-|[]]]]; vm_compute in D; injection D as <-; try reflexivity; discriminate Ns. }
  subst st. unfold agent_step, decorated. cbn [fst snd]. rewrite G. cbn [send step_gen]. rewrite K, A, Cs. cbn [negb].
  unfold inside. cbn [c_resume c_start news_code st_fun infected_wise]. unfold infected_wise_fn. rewrite Cu.
  cbn. destruct w. eexists. reflexivity.
Qed.

Lemma how_many_are name w a :
  List.length (neighbours_in name (fw_agents w) (fw_rest w) a) = how_many name w (nr_nbrs (fw_rest w) a).
Proof.
  unfold neighbours_in. induction (nr_nbrs (fw_rest w) a) as [|b l IH]; auto. cbn [filter how_many].
  destruct (fa_cur (fw_agents w b)) as [st|]; auto.
  destruct (string_dec (st_name st) name) as [e|e].
  - apply String.eqb_eq in e. rewrite e. cbn. now rewrite IH.
  - apply String.eqb_neq in e. rewrite e. cbn. now rewrite IH.
Qed.

(** One activation of a neutral viewer, and of an infected wise viewer with the attribute. *)
Lemma neutral_activation share cure_prob fs s a w c p : all_viewers w ->
  nr_tv_spread (fw_rest w) = PNumber p ->
  in_state "neutral" w a -> fa_alive (fw_agents w a) = true -> get_co c a = None ->
  exists w' c', agent_step (news_code share cure_prob) fs s a (w, c) = (w', c', [], Ret None) /\
  in_state (if nr_tv (fw_rest w) a && prob (nr_draws (fw_rest w) 0) p || nr_hit (fw_rest w) a
            then "infected" else "neutral") w' a.
Proof.
  intros V T (st & Cs & Ns) A G. destruct (V a) as (K & n & st0 & Hn & D & Ec).
  rewrite Cs in Ec. injection Ec as <-.
  assert (st = neutral).
  { destruct (nr_class (fw_rest w) a); destruct Hn as [<-|[<-|[<-|[]]]];
      vm_compute in D; try discriminate D; injection D as <-; try reflexivity; discriminate Ns. }
  subst st. unfold agent_step, decorated. cbn [fst snd]. rewrite G. cbn [send step_gen]. rewrite K, A, Cs. cbn [negb].
  unfold inside. cbn [c_resume c_start news_code st_fun neutral]. unfold neutral_fn. rewrite T. unfold roll.
  pose proof (own_infected_name (nr_class (fw_rest w) a)) as On.
  destruct (nr_tv (fw_rest w) a); cbn [andb orb].
  - destruct (prob _ p); cbn [orb].
    + cbn. rewrite K. cbn. eexists _, _. split; [reflexivity|]. unfold in_state. cbn. rewrite Nat.eqb_refl. cbn. eauto.
    + cbn [nr_hit]. destruct (nr_hit (fw_rest w) a); cbn; rewrite K; cbn; (eexists _, _; split; [reflexivity|]);
        unfold in_state; cbn; rewrite ?Nat.eqb_refl; cbn; eauto.
  - destruct (nr_hit (fw_rest w) a); cbn; rewrite K; cbn; (eexists _, _; split; [reflexivity|]);
        unfold in_state; cbn; rewrite ?Nat.eqb_refl; cbn; eauto.
Qed.

Lemma wise_activation share cure_prob fs s a w c p b : all_viewers w ->
  nr_prob_cure (fw_rest w) = PNumber p -> nr_class (fw_rest w) a = Wise -> nr_cure (fw_rest w) a = Some b ->
  in_state "infected" w a -> fa_alive (fw_agents w a) = true -> get_co c a = None ->
  exists w' c', agent_step (news_code share cure_prob) fs s a (w, c) = (w', c', [], Ret None) /\
  in_state (if b || prob (nr_draws (fw_rest w) 0)
                      (cure_prob p (how_many "cured" w (nr_nbrs (fw_rest w) a)) (how_many "infected" w (nr_nbrs (fw_rest w) a)))
            then "cured" else "infected") w' a.
Proof.
  intros V T Cl Cu (st & Cs & Ns) A G. destruct (V a) as (K & n & st0 & Hn & D & Ec).
  rewrite Cs in Ec. injection Ec as <-. rewrite Cl in K, D.
  assert (st = infected_wise).
  { destruct Hn as [<-|[<-|[<-|[]]]]; vm_compute in D; injection D as <-; try reflexivity; discriminate Ns. }
  subst st. unfold agent_step, decorated. cbn [fst snd]. rewrite G. cbn [send step_gen]. rewrite K, A, Cs. cbn [negb].
  unfold inside. cbn [c_resume c_start news_code st_fun infected_wise]. unfold infected_wise_fn. rewrite Cu, T. unfold roll.
  destruct b; cbn [orb].
  - cbn. rewrite K. cbn. eexists _, _. split; [reflexivity|]. unfold in_state. cbn. rewrite Nat.eqb_refl. cbn. eauto.
  - cbv zeta. rewrite !how_many_are. destruct (prob _ _); cbn; rewrite K; cbn; (eexists _, _; split; [reflexivity|]);
        unfold in_state; cbn; rewrite ?Nat.eqb_refl; cbn; eauto.
Qed.

Lemma viewer_state w a st : all_viewers w -> fa_cur (fw_agents w a) = Some st ->
  st = neutral \/ st = own_infected (nr_class (fw_rest w) a) \/ st = cured.
Proof.
  intros V C. destruct (V a) as (K & n & st0 & Hn & D & Ec). rewrite C in Ec. injection Ec as <-.
  destruct (nr_class (fw_rest w) a); destruct Hn as [<-|[<-|[<-|[]]]];
      vm_compute in D; try discriminate D; injection D as <-; auto.
Qed.

Lemma nobody_forgets (AR : Arith) share cure_prob shuffle : only_draws shuffle ->
  forall h s s' w w' c' tr, hands_off h -> all_viewers w ->
  run_hist (news_user share cure_prob shuffle) h s (w, no_cors) = (s', (w', c'), tr) ->
  forall a,
  (in_state "infected" w a -> nr_class (fw_rest w) a <> Wise -> in_state "infected" w' a) /\
  (in_state "infected" w a -> in_state "infected" w' a \/ in_state "cured" w' a) /\
  (in_state "cured" w a -> in_state "cured" w' a).
Proof.
  intros Sh h s s' w w' c' tr Ho V E a. split; [|split].
  - intros (st & C & N) NW. pose proof (viewer_state _ _ _ V C) as X.
    destruct (one_way share cure_prob shuffle Sh h s s' w w' c' tr Ho V E a (fun st => st = infected)) as (st' & C' & ->).
    + intros ? -> X'. discriminate X'.
    + discriminate.
    + exists st. split; auto. destruct X as [->|[->| ->]]; try discriminate N.
      destruct (nr_class (fw_rest w) a); auto. now destruct NW.
    + exists infected. auto.
  - intros (st & C & N). 
    destruct (one_way share cure_prob shuffle Sh h s s' w w' c' tr Ho V E a
      (fun st => st_name st = "infected" \/ st_name st = "cured")) as (st' & C' & [X|X]).
    + intros ? [X|X] ->; discriminate X.
    + auto.
    + exists st. auto.
    + left. exists st'. auto.
    + right. exists st'. auto.
  - intros (st & C & N).
    destruct (one_way share cure_prob shuffle Sh h s s' w w' c' tr Ho V E a
      (fun st => st_name st = "cured")) as (st' & C' & X).
    + intros ? X ->; discriminate X.
    + auto.
    + exists st. auto.
    + exists st'. auto.
Qed.

Lemma never_cured (AR : Arith) share cure_prob shuffle : only_draws shuffle ->
  forall h s s' w w' c' tr, hands_off h -> all_viewers w ->
  run_hist (news_user share cure_prob shuffle) h s (w, no_cors) = (s', (w', c'), tr) ->
  (forall a, nr_cure (fw_rest w) a = None /\ ~ in_state "cured" w a) ->
  forall a, ~ in_state "cured" w' a /\
  (nr_class (fw_rest w) a = Wise -> in_state "infected" w' a -> fa_alive (fw_agents w' a) = true ->
   get_co c' a = None -> forall fs s2,
   exists c2, agent_step (news_code share cure_prob) fs s2 a (w', c') = (w', c2, [], Exc)).
Proof.
  intros Sh h s s' w w' c' tr Ho V E St a.
  destruct (none_cured share cure_prob shuffle Sh h s s' w w' c' tr Ho V E St) as (X & V' & R' & (Ec & _)).
  split; [apply X|]. intros Cl I A G fs s2. apply wise_raises; auto; [congruence|apply X].
Qed.

Lemma defaults_unusable plus given k : In k ["ratio_dumb"; "ratio_herd"; "ratio_wise"] -> ~ In k (map fst given) ->
  news_init plus given = false.
Proof.
  intros I N. apply (proj2 (dget_none k given)) in N. unfold news_init, weights_ok.
  assert (forallb (fun p => match p with Some (PNumber _) => true | _ => false end)
    (map (news_param given) ["ratio_dumb"; "ratio_herd"; "ratio_wise"]) = false) as ->; auto.
  cbn [map forallb]. destruct I as [<-|[<-|[<-|[]]]]; unfold news_param; rewrite N; cbn; rewrite ?andb_false_r; auto.
Qed.

Lemma given_usable plus given d h w :
  In ("ratio_dumb", PNumber d) given -> In ("ratio_herd", PNumber h) given -> In ("ratio_wise", PNumber w) given ->
  NoDup (map fst given) -> n_ltb (Fin 0) (plus (plus (plus (Fin 0) d) h) w) = true -> news_init plus given = true.
Proof.
  intros D H W N P. apply dget_in_wf in D; auto. apply dget_in_wf in H; auto. apply dget_in_wf in W; auto.
  unfold news_init, weights_ok, news_param. cbn [map]. rewrite D, H, W. exact P.
Qed.

Lemma television_raises share cure_prob fs s a w c x : all_viewers w ->
  nr_tv_spread (fw_rest w) = PTupleOf x -> nr_tv (fw_rest w) a = true ->
  in_state "neutral" w a -> fa_alive (fw_agents w a) = true -> get_co c a = None ->
  snd (agent_step (news_code share cure_prob) fs s a (w, c)) = Exc.
Proof.
  intros V T Tv (st & Cs & Ns) A G. destruct (V a) as (K & _).
  assert (st = neutral).
  { destruct (viewer_state _ _ _ V Cs) as [->|[->| ->]]; auto; try discriminate Ns.
    rewrite own_infected_name in Ns. discriminate. }
  subst st. unfold agent_step, decorated. cbn [fst snd]. rewrite G. cbn [send step_gen]. rewrite K, A, Cs. cbn [negb].
  unfold inside. cbn [c_resume c_start news_code st_fun neutral]. unfold neutral_fn. rewrite T, Tv. reflexivity.
Qed.
