(** C176: how far havens raise and lower vulnerabilities (examples/terrorism), on [TerrorModel]. *)
From Coq Require Import ZArith QArith Qminmax List Bool Arith String Permutation Lia Lqa.
From Verif Require Import Num PyDict TimedModel AgentModel FsmModel FsmProofs PlainProofs TerrorModel TerrorSpec TerrorProofs TerrorProps.
Import ListNotations.
Local Open Scope string_scope.

(** Powers of shares with the same exponent are in the order of the shares. *)
Definition rising (pow : Q -> Q -> Q) : Prop := forall x x' y, share x -> share x' -> share y -> (x <= x')%Q -> (pow x y <= pow x' y)%Q.

Lemma linked_dec w a b : linked w a b \/ ~ linked w a b.
Proof.
  assert (D : forall x y : aid * aid, {x = y} + {x <> y}) by (intros; decide equality; apply Nat.eq_dec).
  unfold linked. destruct (in_dec D (a, b) (te_edges (fw_rest w))); [tauto|]. destruct (in_dec D (b, a) (te_edges (fw_rest w))); tauto.
Qed.
Lemma near_dec cf s w a b : near cf s w a b \/ ~ near cf s w a b.
Proof.
  unfold near. destruct (in_dec Nat.eq_dec b (s_reg s)); [|tauto]. destruct (linked_dec w a b); [|tauto].
  assert (D : person cf b \/ ~ person cf b) by (unfold person; destruct (cf_kind cf b); firstorder congruence). tauto.
Qed.
Lemma in_state_dec x w a : in_state x w a \/ ~ in_state x w a.
Proof.
  unfold in_state. destruct (fa_cur (fw_agents w a)) as [st|] eqn:C.
  - destruct (String.string_dec (st_name st) x) as [E|N]; [left; exists st; auto|]. right. intros (st' & C' & N'). congruence.
  - right. intros (st' & C' & _). congruence.
Qed.
Lemma civil_near cf s w a : (exists b, near cf s w a b /\ in_state "civilian" w b) \/ (forall b, near cf s w a b -> ~ in_state "civilian" w b).
Proof.
  assert (H : forall l, (exists b, In b l /\ near cf s w a b /\ in_state "civilian" w b) \/ (forall b, In b l -> near cf s w a b -> ~ in_state "civilian" w b)).
  { induction l as [|b l IH]; [right; intros b []|]. destruct (near_dec cf s w a b) as [N|N].
    - destruct (in_state_dec "civilian" w b) as [C|C]; [left; exists b; split; [now left|auto]|].
      destruct IH as [(b' & I & R)|IH]; [left; exists b'; split; [now right|auto]|]. right. intros b' [<-|I]; auto.
    - destruct IH as [(b' & I & R)|IH]; [left; exists b'; split; [now right|auto]|]. right. intros b' [<-|I]; auto. }
  destruct (H (s_reg s)) as [(b & _ & R)|R]; [left; eauto|]. right. intros b N. apply R; auto. apply N.
Qed.

(** C176, the part that holds (the maximum is a bound for the old value, not for the new one, and there is no way back):
    a haven leaves every vulnerability at or below the larger of the old value and the power of its maximum;
    one that is a refuge of civilians raises none, and one that is not lowers none and leaves alone those at its maximum or above. *)
Theorem C176_bounds_partial :
  forall cf lib s w c a fs w' c' l o b, powers (l_pow lib) -> rising (l_pow lib) -> sound (cf_attrs cf) -> share (haven_max (cf_attrs cf)) ->
  reached cf lib s w c -> cf_kind cf a = AHaven -> get_co c a = None -> agent_step (terror_code cf lib) fs s a (w, c) = (w', c', l, o) ->
  (vulnerable w' b <= Qmax (vulnerable w b) (l_pow lib (haven_max (cf_attrs cf)) (1 - haven_influence (cf_attrs cf))))%Q /\
  (in_state "civilian" w a -> (vulnerable w' b <= vulnerable w b)%Q) /\
  (in_state "terrorist" w a -> (vulnerable w b <= vulnerable w' b)%Q /\ ((haven_max (cf_attrs cf) <= vulnerable w b)%Q -> vulnerable w' b = vulnerable w b)).
Proof.
  intros cf lib s w c a fs w' c' l o b P RI S SM R K G E.
  assert (V : share (vulnerable w b)) by apply (C168_shares cf lib s w c b P S R).
  assert (SI : share (1 - haven_influence (cf_attrs cf))).
  { destruct S as (_ & _ & _ & [S1 S2] & _). split; lra. }
  destruct (C173_haven cf lib s w c a fs w' c' l o b P S R K G E) as (H1 & H2 & H3).
  assert (CI : in_state "civilian" w a -> (vulnerable w' b <= vulnerable w b)%Q).
  { intros ST. destruct (civil_near cf s w a) as [Y|N].
    - destruct (H1 ST Y) as [A B]. destruct (near_dec cf s w a b) as [N|N]; [|rewrite B by auto; apply Qle_refl].
      destruct (Qlt_le_dec (haven_min (cf_attrs cf)) (vulnerable w b)) as [L|L]; [|rewrite B by auto; apply Qle_refl].
      rewrite A by auto. destruct V as [V1 V2], SI as [I1 I2]. nra.
    - destruct (H2 ST N) as [-> _]. apply Qle_refl. }
  assert (TE : in_state "terrorist" w a -> ((vulnerable w b <= vulnerable w' b)%Q /\ ((haven_max (cf_attrs cf) <= vulnerable w b)%Q -> vulnerable w' b = vulnerable w b)) /\
     (vulnerable w' b <= Qmax (vulnerable w b) (l_pow lib (haven_max (cf_attrs cf)) (1 - haven_influence (cf_attrs cf))))%Q).
  { intros ST. destruct (H3 ST) as [A B].
    destruct (near_dec cf s w a b) as [N|N]; [destruct (Qlt_le_dec (vulnerable w b) (haven_max (cf_attrs cf))) as [L|L]|].
    - rewrite A by auto. split; [split|].
      + apply (P _ _ V SI).
      + intros L'. exfalso. exact (Qlt_not_le _ _ L L').
      + eapply Qle_trans; [|apply Q.le_max_r]. apply RI; auto. now apply Qlt_le_weak.
    - rewrite B by auto. split; [split; auto; apply Qle_refl|apply Q.le_max_l].
    - rewrite B by auto. split; [split; auto; apply Qle_refl|apply Q.le_max_l]. }
  split; [|split; [exact CI|intros ST; apply (TE ST)]].
  destruct (C171_states cf lib s w c a P S R) as (x & X & VX). rewrite K in VX. cbn in VX.
  destruct VX as [<-|[<-|[]]]; [|apply (TE X)]. eapply Qle_trans; [apply (CI X)|apply Q.le_max_l].
Qed.
Print Assumptions C176_bounds_partial.

(** In the run of [C176_not_vacuous] the haven raises 49/100 to 51499/100000, which is less than the power of its maximum, 525/1000. *)
Example C176_bounds_case :
  rising (l_pow some_lib) /\ share (haven_max (cf_attrs hideout)) /\
  Qred (l_pow some_lib (haven_max (cf_attrs hideout)) (1 - haven_influence (cf_attrs hideout))) = (21 # 40)%Q /\ (49 # 100 <= 51499 # 100000)%Q /\ (51499 # 100000 <= 21 # 40)%Q.
Proof.
  split; [|split; [split; cbn; discriminate|split; [vm_compute; reflexivity|split; vm_compute; discriminate]]].
  intros x x' y [A B] [C D] [E F] L. cbn. unfold some_pow.
  assert (H : (0 <= (x' - x) * (1 + (1 - y) * (1 - x - x')))%Q).
  { apply Qmult_le_0_compat; [lra|]. assert ((0 <= (1 - y) * (1 - x))%Q) by (apply Qmult_le_0_compat; lra).
    assert ((0 <= (1 - x') * (1 - y))%Q) by (apply Qmult_le_0_compat; lra). assert ((0 <= 1 - y <= 1)%Q) by lra. nra. }
  nra.
Qed.
