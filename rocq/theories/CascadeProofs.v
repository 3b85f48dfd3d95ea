(** Proofs about CascadeModel. *)
From Coq Require Import ZArith List Bool Arith String Lia.
From Verif Require Import Num PyDict TimedModel AgentModel AgentProofs FsmModel FsmSpec FsmProofs PlainProofs
  CascadeModel CascadeSpec.
Import ListNotations.
Local Open Scope string_scope.

Lemma no_aware pred s ag r a : aware_neighbors pred s ag r a = [].
Proof.
  unfold aware_neighbors.
  assert (E : forall l, filter (fun b => match state_id (ag b) with Some i => existsb (sid_eqb i) [Number 1] | None => false end) l = []).
  { induction l as [|b l IH]; auto. cbn [filter]. rewrite IH. unfold state_id.
    destruct (fa_kind (ag b)), (fa_cur (ag b)); reflexivity. }
  rewrite E. reflexivity.
Qed.

Section C.
Variables (times : nat -> num -> num) (pred : num -> num).
Notation code := (cascade_code times pred).

Lemma cascade_plain : plain_code code.
Proof.
  intros s a q w r ops g E. cbn [c_resume cascade_code] in E. destruct q.
  - unfold outside_fn in E. destruct (prob _ _); injection E as <- <- <-; constructor.
  - unfold imitate_fn in E. destruct (prob _ _); injection E as <- <- <-; constructor.
  - injection E as <- <- <-. constructor.
Qed.
Lemma cascade_no_ops s a q w : snd (fst (c_resume code s a q w)) = [].
Proof.
  cbn [c_resume cascade_code]. destruct q; auto.
  - unfold outside_fn. destruct (prob _ _); auto.
  - unfold imitate_fn. destruct (prob _ _); auto.
Qed.

Lemma which w a st : all_cascade w -> fa_cur (fw_agents w a) = Some st -> st = outside \/ st = imitate.
Proof.
  intros V C. destruct (V a) as (_ & n & st0 & I & D & E). rewrite C in E. injection E as <-.
  destruct I as [<-|[<-|[]]]; vm_compute in D; injection D as <-; auto.
Qed.

Lemma not_below d x : n_leb (Fin 0) d = true -> x = Fin 0 \/ x = NaN -> prob d x = false.
Proof.
  unfold prob. intros H [->| ->]; [|destruct d; reflexivity].
  destruct d; try discriminate H; try reflexivity. unfold n_leb in H. cbn in *. apply orb_true_iff in H. apply Z.ltb_ge. destruct H as [H|H]; [apply Z.ltb_lt in H|apply Z.eqb_eq in H]; lia.
Qed.

(** One activation. *)
Lemma cascade_step fs s a w c w' c' l o : zero_product times -> good_draws (fw_rest w) -> all_cascade w -> rested c ->
  agent_step code fs s a (w, c) = (w', c', l, o) ->
  rested c' /\ all_cascade w' /\ good_draws (fw_rest w') /\ (forall b, b <> a -> fw_agents w' b = fw_agents w b) /\
  (forall b, fa_cur (fw_agents w b) = Some imitate -> fa_cur (fw_agents w' b) = Some imitate /\
     ar_correlation (fw_rest w') b = ar_correlation (fw_rest w) b /\ ar_aware (fw_rest w') b = ar_aware (fw_rest w) b).
Proof.
  intros Z G V Re E. destruct (V a) as (Kd & n0 & st0 & N0 & D0 & C0).
  destruct (quiet_step _ _ _ _ _ _ _ _ _ _ _ cascade_plain Re cascade_no_ops Kd E) as (Re' & -> & H).
  split; auto. destruct H as [->|(st & r & g & C & A & CR & Er & Eo & Ea)]; [auto 8|].
  assert (GD : forall r, good_draws r -> good_draws (next_draw r)) by (intros r0 Gr n; apply (Gr (S n))).
  assert (X : good_draws r /\ match st_fun st with
    | Imitate => g = GReturn PNone /\ ar_correlation r = ar_correlation (fw_rest w) /\ ar_aware r = ar_aware (fw_rest w)
    | Outside => (g = GReturn PNone \/ g = GReturn (PState imitate)) /\
       forall b, b <> a -> ar_correlation r b = ar_correlation (fw_rest w) b /\ ar_aware r b = ar_aware (fw_rest w) b
    | ADead => True end).
  { cbn [c_resume c_start cascade_code] in CR. destruct (st_fun st).
    - unfold outside_fn in CR. destruct (prob _ _); injection CR as <- <-; (split; [now apply GD|]); (split; [auto|]).
      + intros b NE. apply Nat.eqb_neq in NE. cbn. unfold set_at. now rewrite NE.
      + auto.
    - unfold imitate_fn in CR. rewrite no_aware in CR. cbn [List.length] in CR.
      rewrite not_below in CR by (auto; apply G). injection CR as <- <-. split; [now apply GD|]. auto.
    - injection CR as <- <-. auto. }
  destruct X as [Gr X]. rewrite <- Er in Gr. rewrite <- Er in X.
  destruct (which _ _ _ V C) as [->| ->]; cbn [st_fun outside imitate] in X.
  - destruct X as [Hg Hb]. split; [|split; [|split]]; auto.
    + intros b. destruct (Nat.eq_dec b a) as [->|NE]; [|rewrite Eo by auto; apply V].
      rewrite Ea. cbn [set_cur fa_kind fa_cur]. split; auto.
      destruct Hg as [->| ->]; cbn [goes_to]; [exists "outside", outside|exists "imitate", imitate]; cbn; auto.
    + intros b Cb. destruct (Nat.eq_dec b a) as [->|NE]; [rewrite Cb in C; discriminate C|].
      rewrite Eo by auto. auto.
  - destruct X as (-> & X1 & X2). split; [|split; [|split]]; auto.
    + intros b. destruct (Nat.eq_dec b a) as [->|NE]; [|rewrite Eo by auto; apply V].
      rewrite Ea. cbn [set_cur fa_kind fa_cur goes_to]. split; auto. exists "imitate", imitate. cbn; auto.
    + intros b Cb. rewrite X1, X2. split; auto. destruct (Nat.eq_dec b a) as [->|NE]; [now rewrite Ea|now rewrite Eo].
Qed.

Lemma for_ever (AR : Arith) (shuffle : list aid -> arest -> arest * list aid) : zero_product times -> only_draws shuffle ->
  forall h s s' w w' c' tr, hands_off h -> good_draws (fw_rest w) -> all_cascade w ->
  run_hist (cascade_user times pred shuffle) h s (w, no_cors) = (s', (w', c'), tr) ->
  forall a, in_state "imitate" w a -> in_state "imitate" w' a /\
    ar_correlation (fw_rest w') a = ar_correlation (fw_rest w) a /\ ar_aware (fw_rest w') a = ar_aware (fw_rest w) a.
Proof.
  intros Z Sh h s s' w w' c' tr Ho G V E a (st & Cs & Ns).
  assert (st = imitate). { destruct (which _ _ _ V Cs) as [->| ->]; auto. discriminate Ns. } subst st.
  set (P := fun x : fworld afun arest * cors (frame afun) => good_draws (fw_rest (fst x)) /\ all_cascade (fst x) /\
    rested (snd x) /\ fa_cur (fw_agents (fst x) a) = Some imitate /\
    ar_correlation (fw_rest (fst x)) a = ar_correlation (fw_rest w) a /\ ar_aware (fw_rest (fst x)) a = ar_aware (fw_rest w) a).
  assert (H : P (w', c')).
  { eapply (hist_keeps P); [|exact E| |].
    - split.
      + intros s0 b [w0 c0] (X1 & X2 & X3 & X4 & X5 & X6). cbn [cascade_user u_step agent_user fst snd] in *.
        destruct (agent_step code (fun _ => None) s0 b (w0, c0)) as [[[w1 c1] l1] o1] eqn:E1.
        destruct (cascade_step _ _ _ _ _ _ _ _ _ Z X1 X2 X3 E1) as (Y1 & Y2 & Y3 & Y4 & Y5).
        destruct (Y5 _ X4) as (Y6 & Y7 & Y8). unfold P. cbn [fst snd].
        split; auto. split; auto. split; auto. split; auto. split; congruence.
      + intros l [w0 c0] (X1 & X2 & X3 & X4 & X5 & X6). cbn [cascade_user u_shuffle agent_user fst snd] in *.
        destruct (Sh l (fw_rest w0) X1) as (Z1 & Z2 & Z3).
        destruct (shuffle l (fw_rest w0)) as [r1 l1]. unfold P. cbn [fst snd] in *. cbn.
        split; auto. split; auto. split; auto. split; auto. split; congruence.
    - apply Forall_forall. intros [| | |f] In; cbn; auto. destruct (Ho f In).
    - unfold P. cbn. split; auto. split; auto. split; [now left|auto]. }
  destruct H as (_ & _ & _ & H1 & H2 & H3). split; auto. exists imitate. auto.
Qed.

Lemma outside_activation fs s a w c : all_cascade w -> in_state "outside" w a ->
  fa_alive (fw_agents w a) = true -> get_co c a = None ->
  exists w' c', agent_step code fs s a (w, c) = (w', c', [], Ret None) /\
  if n_ltb (ar_draws (fw_rest w) 0) (ar_innovation (fw_rest w))
  then in_state "imitate" w' a /\ ar_correlation (fw_rest w') a = 1 /\ ar_aware (fw_rest w') a = s_time s
  else in_state "outside" w' a /\ ar_correlation (fw_rest w') a = ar_correlation (fw_rest w) a /\
       ar_aware (fw_rest w') a = ar_aware (fw_rest w) a.
Proof.
  intros V (st & Cs & Ns) A G. destruct (V a) as (K & _).
  assert (st = outside). { destruct (which _ _ _ V Cs) as [->| ->]; auto. discriminate Ns. } subst st.
  unfold agent_step, decorated. cbn [fst snd]. rewrite G. cbn [send step_gen]. rewrite K, A, Cs. cbn [negb].
  unfold inside. cbn [c_resume c_start cascade_code st_fun outside]. unfold outside_fn, prob.
  destruct (n_ltb _ _); cbn; rewrite K; cbn; (eexists _, _; split; [reflexivity|]); unfold in_state; cbn; unfold set_at;
    rewrite ?Nat.eqb_refl; cbn; (split; [eauto|split; reflexivity]).
Qed.
End C.
