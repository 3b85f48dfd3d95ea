(** C156, for agents that die after they were created (soil/agents/network_agents.py:90-95, soil/agents/fsm.py:169-171 and
    soil/agents/__init__.py:232-242). *)
From Coq Require Import List Bool Arith.
From Verif Require Import PyDict ConstructModel ConstructProofs.
Import ListNotations.

Lemma die_sched self m : forall o w o' w', (In PNet m -> o_alive o = true) -> die_from self m o w = (o', w') ->
  cw_sched w' = filter (fun b => negb (Nat.eqb b self)) (cw_sched w).
Proof.
  induction m as [|p m IH]; intros o w o' w' A; cbn [die_from].
  - intros X. injection X as <- <-. reflexivity.
  - destruct p; cbn [In] in A; try (intros X; apply (IH o w o' w'); [tauto|exact X]).
    rewrite A by auto. intros X. apply IH in X; [|auto]. rewrite X. destruct (o_node o); reflexivity.
Qed.
Lemma die_nodes self m : forall o w o' w', o_alive o = true -> dwf (cw_nodes w) -> die_from self m o w = (o', w') ->
  forall n, dget n (cw_nodes w') = if match o_node o with Some n' => Nat.eqb n n' | None => false end && has PNet m then None else dget n (cw_nodes w).
Proof.
  induction m as [|p m IH]; intros o w o' w' A W; cbn [die_from].
  - intros X n. injection X as <- <-. cbn. now rewrite andb_false_r.
  - destruct p; cbn [has existsb part_eqb orb]; try (intros X; apply (IH o w o' w' A W X)). rewrite A. intros X n.
    rewrite andb_true_r. apply (IH _ _ _ _) with (n := n) in X; [|reflexivity|].
    + rewrite X. cbn [o_node andb]. destruct (o_node o) as [k|]; cbn [cw_nodes]; auto. rewrite dget_del by auto. reflexivity.
    + destruct (o_node o); cbn [cw_nodes]; auto. now apply ddel_wf.
Qed.

(** An agent that dies leaves the schedule and, if it is a network agent, its node is removed; all other agents and nodes stay. *)
Theorem C156_after_init_partial : forall mro self o w o' w', o_alive o = true -> dwf (cw_nodes w) -> die mro self o w = (o', w') ->
  o_alive o' = false /\ ~ In self (cw_sched w') /\ (forall b, b <> self -> In b (cw_sched w') <-> In b (cw_sched w)) /\
  (forall n, dget n (cw_nodes w') <> dget n (cw_nodes w) -> In PNet mro /\ o_node o = Some n) /\
  (forall n, In PNet mro -> o_node o = Some n -> dget n (cw_nodes w') = None).
Proof.
  unfold die. intros mro self o w o' w' A W D. pose proof (die_sched _ _ _ _ _ _ (fun _ => A) D) as S. pose proof (die_nodes _ _ _ _ _ _ A W D) as N.
  split; [eapply die_alive; eauto|]. rewrite S. split; [|split; [|split]].
  - rewrite filter_In, Nat.eqb_refl. intros [_ H]. discriminate.
  - intros b H. rewrite filter_In. apply Nat.eqb_neq in H. rewrite H. tauto.
  - intros n H. rewrite N in H. destruct (o_node o) as [k|]; cbn [andb] in H; [|congruence]. destruct (Nat.eqb_spec n k) as [<-|]; cbn [andb] in H; [|congruence].
    destruct (has PNet mro) eqn:E; [|congruence]. split; auto. apply existsb_exists in E. destruct E as (p & I & E). destruct p; try discriminate. auto.
  - intros n I E. rewrite N, E, Nat.eqb_refl. assert (has PNet mro = true) as -> by (apply existsb_exists; exists PNet; auto). reflexivity.
Qed.
Print Assumptions C156_after_init_partial.
Example C156_after_init_case : die [PNet; PFsm] 8 (Obj true true false None (Some 1)) (CWorld [(0, Some 7); (1, Some 8)] [7; 8; 9]) =
  (Obj true false false None None, CWorld [(0, Some 7)] [7; 9]).
Proof. reflexivity. Qed.
