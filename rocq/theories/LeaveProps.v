(** C166: when passengers of the cars example do leave, on [CarsModel]. *)
From Coq Require Import ZArith List Bool Arith String Permutation Lia.
From Verif Require Import Num PyDict TimedModel TimedProofs AgentModel AgentProofs FsmModel EventModel CarsModel CarsSpec CarsProofs CarsProps.
Import ListNotations.
Local Open Scope string_scope.

(** The passenger is suspended in [driving_home], in a call of [received] with this deadline. *)
Definition rides_until (c : cors (frame cpoint)) (p : aid) (deadline : num) : Prop := get_co c p = Some (GSusp (FIn (CHome deadline))).

Section Leave.
Context {AR : Arith}.
Lemma home_again r p j x : cr_journey r p = Some j -> nth_error (cr_journeys r) j = Some x -> cr_pos r p = j_dest x -> at_home r p = Some true.
Proof. intros J X P. unfold at_home. rewrite J, X, P, !Z.eqb_refl. reflexivity. Qed.

Lemma ride_waits one is_driver turns : forall (s : sched) p deadline w w' l g, ride one is_driver turns s p deadline w = (w', l, g) ->
  match g with GYield _ q => exists d, q = CHome d /\ (d = deadline \/ d = n_add (s_time s) (secs one 60)) | _ => True end.
Proof.
  induction turns as [|turns IH]; intros s p deadline w w' l g E; cbn [ride] in E; [injection E as <- <- <-; eauto|].
  assert (G : forall w1, (match at_home (e_rest w1) p with
        | None => (w1, [], GRaise false)
        | Some true => (w1, [FDie p], GReturn PNone)
        | Some false => ride one is_driver turns s p (received_deadline (s_time s) None (secs one 60)) w1
        end) = (w', l, g) -> match g with GYield _ q => exists d, q = CHome d /\ (d = deadline \/ d = n_add (s_time s) (secs one 60)) | _ => True end).
  { intros w1 E1. destruct (at_home (e_rest w1) p) as [[|]|]; [injection E1 as <- <- <-; exact Logic.I| |injection E1 as <- <- <-; exact Logic.I].
    apply IH in E1. destruct g; auto. destruct E1 as (d & -> & [->| ->]); eexists; split; eauto. }
  match type of E with context [received_resume ?a ?b ?c ?d ?e ?f ?h] => destruct (received_resume a b c d e f h) as [[w1 k] [| | |]] end;
    [injection E as <- <- <-; eauto|exact (G w1 E)|exact (G w1 E)|injection E as <- <- <-; exact Logic.I].
Qed.
(** An agent that is suspended after its activation has run its generator, from where it was or from the start, to a yield. *)
Lemma suspended {F Q W} (cd : code F Q W) fs s p w c w' c' ops o fr : agent_step cd fs s p (w, c) = (w', c', ops, o) -> get_co c' p = Some (GSusp fr) ->
  exists fr0, (get_co c p = Some (GSusp fr0) \/ get_co c p = None /\ fr0 = FStart) /\ exists w2 l v, step_gen cd s p fr0 w = (w2, l, GYield v fr).
Proof.
  unfold agent_step, decorated. cbn [fst snd]. intros E R.
  assert (G : forall fr0, (let '(w2, l2, g', r) := send (step_gen cd) PNone s p (GSusp fr0) w in
     match r with
     | SYield v => (w2, set_co (set_co c p (Some (GSusp fr0))) p (Some g'), l2, as_delay is_none (to_float fs) v)
     | SStop v => (w2, set_co (set_co (set_co c p (Some (GSusp fr0))) p (Some g')) p None, l2, as_delay is_none (to_float fs) v)
     | SRaise true => (w2, set_co (set_co c p (Some (GSusp fr0))) p (Some g'), l2, Dead)
     | SRaise false => (w2, set_co (set_co c p (Some (GSusp fr0))) p (Some g'), l2, Exc)
     end) = (w', c', ops, o) -> exists w2 l v, step_gen cd s p fr0 w = (w2, l, GYield v fr)).
  { intros fr0 X. cbn [send] in X. destruct (step_gen cd s p fr0 w) as [[w2 l2] [v q|v|[|]]]; injection X as <- <- <- <-;
      rewrite get_set_co, Nat.eqb_refl in R; try discriminate R. injection R as ->. eauto. }
  destruct (get_co c p) as [[fr0|]|].
  - exists fr0. split; auto.
  - cbn in E. injection E as <- <- <- <-. rewrite get_set_co, Nat.eqb_refl in R. discriminate R.
  - exists FStart. split; auto.
Qed.
Lemma inside_yields {F Q W} (cd : code F Q W) s p q w w2 l v fr : inside cd s p q w = (w2, l, GYield v fr) ->
  exists r ops q', c_resume cd s p q w = (r, ops, GYield v q') /\ fr = FIn q'.
Proof.
  unfold inside. destruct (c_resume cd s p q w) as [[r ops] g]. destruct (run_fops s ops _) as [w1 l1]. destruct g as [v' q'|v'|d]; intros E.
  - injection E as <- <- <- <-. eauto 6.
  - destruct (fa_kind (fw_agents w1 p)) as [states|]; [|discriminate E]. unfold finish in E.
    destruct (unpack2 v') as [[a b]|]; [destruct (set_state states (fa_cur (fw_agents w1 p)) a)|destruct (set_state states (fa_cur (fw_agents w1 p)) v')]; discriminate E.
  - discriminate E.
Qed.
Lemma inside_dies {F Q W} (cd : code F Q W) s p q w r states : c_resume cd s p q w = (r, [FDie p], GReturn PNone) -> fa_kind (fw_agents w p) = KFsm states ->
  exists w2, inside cd s p q w = (w2, [SRem p], GReturn PNone) /\ fa_alive (fw_agents w2 p) = false.
Proof.
  intros C K. unfold inside. rewrite C. cbn [run_fops fw_agents upd]. rewrite Nat.eqb_refl. cbn [set_alive fa_kind]. rewrite K.
  unfold finish. cbn [fw_agents unpack2 set_state upd]. rewrite ?Nat.eqb_refl. eexists. split; [reflexivity|]. cbn [upd fw_agents]. rewrite Nat.eqb_refl. reflexivity.
Qed.
End Leave.

(** C166, the part that holds: a passenger at its destination leaves when it looks, and it looks when it starts to ride and when a call of received ends
    because its time is over.  (It does not look before, unless there is a message: C166_lingers_refuted.) *)
Theorem C166_leaves_partial :
  forall (AR : Arith) one width height is_driver fs s w c p w' c' ops o j x,
  agent_step (cars_code one width height is_driver) fs s p (w, c) = (w', c', ops, o) ->
  has_journey w p j -> is_journey w j x -> stands_at w p (j_dest x) -> (exists states, fa_kind (fw_agents w p) = KFsm states) ->
  (get_co c p = None /\ alive w p /\ fa_cur (fw_agents w p) = Some driving_home \/
   exists deadline, rides_until c p deadline /\ n_ltb (s_time s) deadline = false) ->
  ~ alive w' p /\ ops = [SRem p] /\ o = Ret None /\ get_co c' p = None.
Proof.
  intros AR one width height is_driver fs s w c p w' c' ops o j x E J X P (states & K) H.
  assert (HO : at_home (e_rest (fw_rest w)) p = Some true) by exact (home_again _ _ _ _ J X P).
  assert (G : forall fr0, (get_co c p = Some (GSusp fr0) \/ get_co c p = None /\ fr0 = FStart) ->
    (exists w2, step_gen (cars_code one width height is_driver) s p fr0 w = (w2, [SRem p], GReturn PNone) /\ fa_alive (fw_agents w2 p) = false) ->
    ~ alive w' p /\ ops = [SRem p] /\ o = Ret None /\ get_co c' p = None).
  { intros fr0 C (w2 & SG & A). unfold agent_step, decorated in E. cbn [fst snd] in E.
    assert (C' : match get_co c p with None => GSusp FStart | Some g => g end = GSusp fr0) by (destruct C as [->|[-> ->]]; reflexivity).
    rewrite C' in E. cbn [send] in E. rewrite SG in E. cbn in E. injection E as <- <- <- <-. split; [|repeat split].
    - unfold alive. rewrite A. discriminate.
    - rewrite get_set_co, Nat.eqb_refl. reflexivity. }
  destruct H as [(C & A & CU)|(deadline & C & L)].
  - apply (G FStart (or_intror (conj C eq_refl))). cbn [step_gen]. unfold alive in A. rewrite K, A, CU. cbn [negb].
    eapply inside_dies; [|exact K]. cbn [cars_code c_resume c_start driving_home st_fun]. unfold home_fn. rewrite HO. reflexivity.
  - apply (G _ (or_introl C)). cbn [step_gen]. eapply inside_dies; [|exact K]. cbn [cars_code c_resume ride].
    unfold received_resume at 1. rewrite L. rewrite HO. reflexivity.
Qed.
Print Assumptions C166_leaves_partial.

(** C166: a passenger that rides and is not gone after an activation waits no longer than it did before, or sixty seconds from then on. *)
Theorem C166_sixty_seconds_partial :
  forall (AR : Arith) one width height is_driver fs s w c p w' c' ops o deadline deadline',
  agent_step (cars_code one width height is_driver) fs s p (w, c) = (w', c', ops, o) ->
  (rides_until c p deadline \/ get_co c p = None /\ deadline = n_add (s_time s) (secs one 60) /\ (exists states, fa_kind (fw_agents w p) = KFsm states) /\
     fa_cur (fw_agents w p) = Some driving_home) ->
  rides_until c' p deadline' -> deadline' = deadline \/ deadline' = n_add (s_time s) (secs one 60).
Proof.
  intros AR one width height is_driver fs s w c p w' c' ops o deadline deadline' E H R.
  destruct (suspended _ _ _ _ _ _ _ _ _ _ _ E R) as (fr0 & C & w2 & l & v & G). unfold rides_until in H.
  destruct H as [H|(H & D & (states & K) & CU)].
  - rewrite H in C. destruct C as [C|[C _]]; [|discriminate C]. injection C as <-. cbn [step_gen] in G.
    apply inside_yields in G as (r & op & q' & G & Q). injection Q as <-. cbn [cars_code c_resume] in G. apply ride_waits in G.
    destruct G as (d & X & D). injection X as ->. exact D.
  - rewrite H in C. destruct C as [C|[_ ->]]; [discriminate C|]. cbn [step_gen] in G. rewrite K, CU in G.
    destruct (negb _); [discriminate G|]. apply inside_yields in G as (r & op & q' & G & Q). injection Q as <-.
    cbn [cars_code c_resume c_start driving_home st_fun] in G. unfold home_fn in G. destruct (at_home (e_rest (fw_rest w)) p) as [[|]|]; [discriminate G| |discriminate G].
    apply ride_waits in G. destruct G as (d & X & [->| ->]); injection X as ->; right; reflexivity.
Qed.
Print Assumptions C166_sixty_seconds_partial.

(** The passenger of [C166_lingers_refuted]: it began to wait at 61, stands at its destination from 69 on, and leaves at 121. *)
Example C166_leaves_case :
  let t := three 67 in let x := Journey (0, 0)%Z (2, 0)%Z 14 1 (Some 0) in
  s_time (sched_of t) = Fin 121 /\ rides_until (cors_of t) 1 (Fin 121) /\ n_ltb (s_time (sched_of t)) (Fin 121) = false /\
  has_journey (world_of t) 1 0 /\ is_journey (world_of t) 0 x /\ stands_at (world_of t) 1 (j_dest x) /\ alive (world_of t) 1 /\
  ~ alive (world_of (three 68)) 1 /\ get_co (cors_of (three 68)) 1 = None /\
  rides_until (cors_of (three 16)) 1 (Fin 121) /\ n_add (Arith := exact) (Fin 61) (secs 1 60) = Fin 121.
Proof. vm_compute. repeat (split; [first [reflexivity|discriminate]|]). reflexivity. Qed.
