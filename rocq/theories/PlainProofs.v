(** State machines whose state functions are functions, not generators, and return nothing, a
    state, a delay, or a state with a delay. *)
From Coq Require Import ZArith List Bool Arith String Lia.
From Verif Require Import Num PyDict TimedModel AgentModel AgentProofs FsmModel FsmSpec FsmProofs.
Import ListNotations.

Section Plain.
Context {F Q W : Type}.
Variable u : code F Q W.
Variable fs : string -> option num.

(** What such functions return. *)
Inductive plain_value : pyval F -> Prop :=
| pv_none : plain_value PNone
| pv_num d : plain_value (PNum d)
| pv_state st : plain_value (PState st)
| pv_both st d : plain_value (PTuple [PState st; PNum d]).
Definition plain_code : Prop := forall s a q w r ops g, c_resume u s a q w = (r, ops, g) ->
  match g with GYield _ _ => False | GReturn v => plain_value v | GRaise _ => True end.

(** The state that the agent is in afterwards, and how the activation ends. *)
Definition goes_to (v : pyval F) (cur : option (state F)) : option (state F) :=
  match v with PState st => Some st | PTuple (PState st :: _) => Some st | _ => cur end.
Definition ends_in (v : pyval F) : outcome :=
  match v with
  | PNum d => Ret (Some d) | PTuple [_; PNum d] => Ret (Some d) | _ => Ret None
  end.

(** No agent is suspended. *)
Definition rested (c : cors (frame Q)) : Prop := forall a, get_co c a = None \/ get_co c a = Some GDone.

Definition activation (s : sched) (a : aid) (w w' : fworld F W) (l : list sop) (o : outcome) : Prop :=
  (w' = w /\ l = [] /\ (o = Ret None \/ fa_alive (fw_agents w a) = false /\ o = Dead \/
                        fa_cur (fw_agents w a) = None /\ o = Exc)) \/
  exists st r ops g w1, fa_cur (fw_agents w a) = Some st /\ fa_alive (fw_agents w a) = true /\
    c_resume u s a (c_start u (st_fun st)) w = (r, ops, g) /\
    run_fops s ops (FWorld (fw_agents w) r) = (w1, l) /\
    match g with
    | GYield _ _ => False
    | GRaise d => w' = w1 /\ o = (if d then Dead else Exc)
    | GReturn v => plain_value v /\ o = ends_in v /\
        w' = FWorld (fun b => if Nat.eqb b a then set_cur (fw_agents w1 a) (goes_to v (fa_cur (fw_agents w1 a)))
                              else fw_agents w1 b) (fw_rest w1)
           \/ plain_value v /\ o = ends_in v /\ w' = w1 /\ goes_to v (fa_cur (fw_agents w1 a)) = fa_cur (fw_agents w1 a)
    end.

Lemma plain_step s a w c w' c' l o states : plain_code -> rested c ->
  fa_kind (fw_agents w a) = KFsm states -> agent_step u fs s a (w, c) = (w', c', l, o) ->
  rested c' /\ activation s a w w' l o.
Proof.
  intros P R K E. unfold agent_step, decorated in E. cbn [fst snd] in E.
  assert (RS : forall x y, rested (set_co (set_co c a x) a (Some GDone)) /\
    rested (set_co (set_co (set_co c a x) a y) a None)).
  { intros x y. split; intros b; rewrite !get_set_co; destruct (Nat.eqb b a); auto. }
  destruct (R a) as [G|G]; rewrite G in E; cbn [send] in E.
  2:{ injection E as <- <- <- <-. split; [apply RS|]. left. repeat split. now left. }
  cbn [step_gen] in E. rewrite K in E.
  destruct (fa_alive (fw_agents w a)) eqn:A; cbn [negb] in E.
  2:{ injection E as <- <- <- <-. split; [apply (RS _ None)|]. left. auto 8. }
  destruct (fa_cur (fw_agents w a)) as [st|] eqn:C.
  2:{ injection E as <- <- <- <-. split; [apply (RS _ None)|]. left. auto 8. }
  unfold inside in E. destruct (c_resume u s a (c_start u (st_fun st)) w) as [[r ops] g] eqn:CR.
  destruct (run_fops s ops (FWorld (fw_agents w) r)) as [w1 l1] eqn:RF.
  pose proof (P _ _ _ _ _ _ _ CR) as PV. destruct g as [v q'|v|d].
  - destruct PV.
  - pose proof (run_fops_le s ops _ _ _ RF a) as [K1 _]. simpl in K1. rewrite K1, K in E.
    unfold finish in E.
    assert (X : o = ends_in v /\ l = l1 /\ rested c' /\
      (w' = w1 /\ goes_to v (fa_cur (fw_agents w1 a)) = fa_cur (fw_agents w1 a) \/
       w' = upd w1 a (set_cur (fw_agents w1 a) (goes_to v (fa_cur (fw_agents w1 a)))))).
    { inversion PV; subst; cbn in E; injection E as <- <- <- <-; repeat split; auto; apply (RS _ (Some GDone)). }
    destruct X as (-> & -> & X & Y). split; auto. right. exists st, r, ops, (GReturn v), w1.
    repeat split; auto. destruct Y as [[-> Y]| ->]; [right|left]; auto.
  - assert (X : o = (if d then Dead else Exc) /\ l = l1 /\ rested c' /\ w' = w1).
    { destruct d; injection E as <- <- <- <-; repeat split; auto; apply (RS _ None). }
    destruct X as (-> & -> & X & ->). split; auto. right. exists st, r, ops, (GRaise d), w1. repeat split; auto.
Qed.

(** Functions that make no calls: all that an activation may change is the rest of the world and
    the state of the agent. *)
Lemma quiet_step s a w c w' c' l o states : plain_code -> rested c ->
  (forall s a q w, snd (fst (c_resume u s a q w)) = []) ->
  fa_kind (fw_agents w a) = KFsm states -> agent_step u fs s a (w, c) = (w', c', l, o) ->
  rested c' /\ l = [] /\
  (w' = w \/
   exists st r g, fa_cur (fw_agents w a) = Some st /\ fa_alive (fw_agents w a) = true /\
    c_resume u s a (c_start u (st_fun st)) w = (r, [], g) /\ fw_rest w' = r /\
    (forall b, b <> a -> fw_agents w' b = fw_agents w b) /\
    fw_agents w' a = set_cur (fw_agents w a)
      (match g with GReturn v => goes_to v (Some st) | _ => Some st end)).
Proof.
  intros P R N K E. destruct (plain_step s a w c w' c' l o states P R K E) as [R' [(-> & -> & _)|H]]; auto.
  destruct H as (st & r & ops & g & w1 & C & A & CR & RF & H).
  pose proof (N s a (c_start u (st_fun st)) w) as N1. rewrite CR in N1. cbn in N1. subst ops.
  injection RF as <- <-. split; auto. split; auto. right. exists st, r, g. repeat split; auto.
  - destruct g as [|v|]; [destruct H| |destruct H as [-> _]; auto].
    destruct H as [(_ & _ & ->)|(_ & _ & -> & _)]; auto.
  - intros b NE. apply Nat.eqb_neq in NE. destruct g as [|v|]; [destruct H| |destruct H as [-> _]; auto].
    destruct H as [(_ & _ & ->)|(_ & _ & -> & _)]; auto. cbn. now rewrite NE.
  - assert (S : fw_agents w a = set_cur (fw_agents w a) (Some st)).
    { rewrite <- C. destruct (fw_agents w a); reflexivity. }
    destruct g as [|v|]; [destruct H| |destruct H as [-> _]; auto].
    destruct H as [(_ & _ & ->)|(_ & _ & -> & H)]; cbn.
    + rewrite Nat.eqb_refl. cbn in *. now rewrite C.
    + cbn in H. rewrite C in H. now rewrite H.
Qed.
End Plain.
