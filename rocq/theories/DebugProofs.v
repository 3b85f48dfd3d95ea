(** Proofs about DebugModel. *)
From Coq Require Import ZArith List Bool Arith String Lia.
From Verif Require Import Num PyDict TimedModel TimedProofs DebugModel DebugSpec.
Import ListNotations.
Local Open Scope string_scope.
Local Open Scope list_scope.

Lemma dget_learn fr k x : frame_ok fr -> dget x (learn fr k) = match lookup fr x with Some v => Some v | None => dget x k end.
Proof.
  intros [G L]. unfold learn, lookup. rewrite (dget_update_wf _ _ _ L), (dget_update_wf _ _ _ G). destruct (dget x (fr_locals fr)); reflexivity.
Qed.

Section Session.
Variable model_of : nat -> nat.
Variable keys_of : nat -> list string.
Variable steps_of : nat -> nat.
Variable step_at : nat -> nat.
Notation wrap := (wrapper model_of).
Notation run1 := (run_dcmd model_of keys_of steps_of step_at).
Notation run := (session model_of keys_of steps_of step_at).

Lemma known_wrap fr attrs d x : frame_ok fr -> x <> "attrs" -> x <> "self" ->
  dget x (known (wrap fr attrs d)) =
    match dget "self" (learn fr (known d)) with
    | Some (VModel m) => if (x =? "model")%string then Some (VModel m) else dget x (learn fr (known d))
    | Some (VAgent a) => if (x =? "model")%string then Some (VModel (model_of a)) else if (x =? "agent")%string then Some (VAgent a) else dget x (learn fr (known d))
    | _ => dget x (learn fr (known d))
    end.
Proof.
  intros F NA NS. unfold wrapper. cbn [known set_known]. rewrite (dget_set_other x "self") by exact NS. rewrite (dget_set_other "self" "attrs") by discriminate.
  assert (B : forall y, dget x (dset "attrs" y (learn fr (known d))) = dget x (learn fr (known d))) by (intros; now rewrite dget_set_other).
  destruct (dget "self" (learn fr (known d))) as [[]|]; rewrite ?(dget_set x "model"), ?(dget_set x "agent"), ?B; reflexivity.
Qed.
Lemma known_self fr attrs d : dget "self" (known (wrap fr attrs d)) = Some VDebugger.
Proof. unfold wrapper. cbn [known set_known]. apply dget_set_same. Qed.
Lemma break_step_known d : known (fst (do_break_step steps_of step_at d)) = known d.
Proof. unfold do_break_step. destruct (dget "model" (known d)) as [[]|]; try reflexivity. destruct (existsb _ _); reflexivity. Qed.
(** [Debug] stays what it is. *)
Lemma debug_wrap fr attrs d : frame_ok fr -> lookup fr "Debug" = None -> dget "Debug" (known (wrap fr attrs d)) = dget "Debug" (known d).
Proof.
  intros F D. rewrite known_wrap by (auto; discriminate). rewrite (dget_learn fr _ "Debug" F), D. cbn.
  destruct (dget "self" (learn fr (known d))) as [[]|]; reflexivity.
Qed.
Lemma debug_run l : forall d, session_ok l -> dget "Debug" (known (run l d)) = dget "Debug" (known d).
Proof.
  induction l as [|[fr c] l IH]; intros d H; [reflexivity|]. cbn [session]. rewrite IH by (intros fr' c' I; apply (H fr' c'); now right).
  destruct (H fr c (or_introl eq_refl)) as [F D]. destruct c; cbn [run_dcmd fst]; try now apply debug_wrap.
  rewrite break_step_known. cbn [known set_known]. rewrite dget_learn by exact F. now rewrite D.
Qed.
Lemma shows fr attrs d keys m : frame_ok fr -> lookup fr "Debug" = None -> dget "Debug" (known d) = Some VDebugClass ->
  dget "model" (known (wrap fr attrs d)) = Some (VModel m) -> soil_agents model_of keys (wrap fr attrs d) = RAgents m keys.
Proof. intros F D E M. unfold soil_agents. rewrite debug_wrap, E, M; auto. Qed.
(** Frames of an agent or a model. *)
Lemma model_self fr attrs d v : frame_ok fr -> lookup fr "self" = Some v ->
  match v with
  | VModel m => dget "model" (known (wrap fr attrs d)) = Some (VModel m)
  | VAgent a => dget "model" (known (wrap fr attrs d)) = Some (VModel (model_of a)) /\ dget "agent" (known (wrap fr attrs d)) = Some (VAgent a)
  | _ => True
  end.
Proof.
  intros F E. pose proof (dget_learn fr (known d) "self" F) as L. rewrite E in L.
  destruct v; auto; [|split]; rewrite known_wrap by (auto; discriminate); rewrite L; reflexivity.
Qed.
(** Without [break_step] no agent or model is left over as [self]. *)
Definition no_steps (l : list (frame * cmd)) : Prop := forall fr, ~ In (fr, CBreakStep) l.
Lemma self_run l : forall d, no_steps l -> dget "self" (known d) = None \/ dget "self" (known d) = Some VDebugger ->
  dget "self" (known (run l d)) = None \/ dget "self" (known (run l d)) = Some VDebugger.
Proof.
  induction l as [|[fr c] l IH]; intros d N H; [exact H|]. cbn [session]. apply IH; [intros fr' I; apply (N fr'); now right|].
  destruct c; cbn [run_dcmd fst]; try (right; apply known_self). destruct (N fr). now left.
Qed.
Lemma model_variable fr attrs d m : frame_ok fr -> (dget "self" (known d) = None \/ dget "self" (known d) = Some VDebugger) ->
  lookup fr "model" = Some (VModel m) -> match lookup fr "self" with Some (VModel _) | Some (VAgent _) => False | _ => True end ->
  dget "model" (known (wrap fr attrs d)) = Some (VModel m).
Proof.
  intros F S M NS. rewrite known_wrap by (auto; discriminate). rewrite !dget_learn, M by exact F.
  destruct (lookup fr "self") as [[]|]; try reflexivity; try contradiction. destruct S as [-> | ->]; reflexivity.
Qed.
(** The agent of a command. *)
Lemma agent_run l : forall d, (forall fr c, In (fr, c) l -> frame_ok fr /\ lookup fr "agent" <> Some VNone) -> dget "agent" (known d) <> Some VNone ->
  dget "agent" (known (run l d)) <> Some VNone.
Proof.
  induction l as [|[fr c] l IH]; intros d H N; [exact N|]. cbn [session]. apply IH; [intros fr' c' I; apply (H fr' c'); now right|].
  destruct (H fr c (or_introl eq_refl)) as [F A].
  assert (L : dget "agent" (learn fr (known d)) <> Some VNone) by (rewrite dget_learn by exact F; destruct (lookup fr "agent"); congruence).
  assert (W : forall at_, dget "agent" (known (wrap fr at_ d)) <> Some VNone).
  { intros at_. rewrite known_wrap by (auto; discriminate). cbn. destruct (dget "self" (learn fr (known d))) as [[]|]; try exact L; discriminate. }
  destruct c; cbn [run_dcmd fst]; try apply W. rewrite break_step_known. exact L.
Qed.
End Session.

Lemma prefix_spec w k : prefix w k = true <-> exists rest, k = (w ++ rest)%string.
Proof.
  revert k. induction w as [|c w IH]; intros k.
  - split; [intros _; now exists k|]. destruct k; reflexivity.
  - destruct k as [|c' k]; [split; [discriminate|intros (r & E); discriminate E]|]. cbn [prefix]. destruct (Ascii.ascii_dec c c') as [->|NE].
    + rewrite IH. split; intros (r & E); exists r; [now rewrite E|]. cbn in E. congruence.
    + split; [discriminate|]. intros (r & E). cbn in E. congruence.
Qed.

(** * Breakpoints on states *)
Lemma break_in_keeps ks st ids temp : forall d, exists new, bps (fst (break_in ks st ids temp d)) = bps d ++ new /\ known (fst (break_in ks st ids temp d)) = known d /\
  forall b, In b new -> b = Bp (bp_at b) temp ids None /\ ~ broken d (bp_at b) /\ exists k, In k ks /\ k st = Some (AFun (bp_at b)).
Proof.
  induction ks as [|k ks IH]; intros d; cbn [break_in].
  - exists []. rewrite app_nil_r. split; [reflexivity|]. split; [reflexivity|]. intros b [].
  - destruct (k st) as [[|l]|] eqn:K.
    + exists []. rewrite app_nil_r. split; [reflexivity|]. split; [reflexivity|]. intros b [].
    + destruct (existsb _ (bps d)) eqn:B.
      * destruct (IH d) as (new & E & E2 & N). exists new. split; [exact E|]. split; [exact E2|]. intros b I. destruct (N b I) as (A1 & A2 & k' & A3 & A4).
        split; [exact A1|]. split; [exact A2|]. exists k'. split; [now right|exact A4].
      * destruct (IH (add_bp d (Bp l temp ids None))) as (new & E & E2 & N). exists (Bp l temp ids None :: new). cbn [bps add_bp known] in *.
        rewrite E, <- app_assoc. split; [reflexivity|]. split; [exact E2|]. intros b [<-|I].
        -- cbn. split; [reflexivity|]. split; [|exists k; split; [now left|exact K]]. intros (b & I & X).
           assert (existsb (fun b => Nat.eqb (bp_at b) l) (bps d) = true); [|congruence]. apply existsb_exists. exists b. split; [exact I|]. now apply Nat.eqb_eq.
        -- destruct (N b I) as (A1 & A2 & k' & A3 & A4). split; [exact A1|]. split; [|exists k'; split; [now right|exact A4]].
           intros (b' & I' & X). apply A2. exists b'. split; [cbn; apply in_app_iff; now left|exact X].
    + destruct (IH d) as (new & E & E2 & N). exists new. split; [exact E|]. split; [exact E2|]. intros b I. destruct (N b I) as (A1 & A2 & k' & A3 & A4).
      split; [exact A1|]. split; [exact A2|]. exists k'. split; [now right|exact A4].
Qed.
Lemma break_in_states ks st ids temp : forall d, (exists k, In k ks /\ k st = Some AState) -> snd (break_in ks st ids temp d) = RAttributeError "__code__".
Proof.
  induction ks as [|k ks IH]; intros d (k0 & I & E); [destruct I|]. cbn [break_in]. destruct (k st) as [[|l]|] eqn:K; [reflexivity|..].
  - destruct I as [->|I]; [congruence|]. destruct (existsb _ _); apply IH; eauto.
  - destruct I as [->|I]; [congruence|]. apply IH. eauto.
Qed.
Lemma break_in_functions ks st ids temp : forall d, (forall k, In k ks -> k st <> Some AState) -> snd (break_in ks st ids temp d) = RDone /\
  (forall k l, In k ks -> k st = Some (AFun l) -> broken (fst (break_in ks st ids temp d)) l).
Proof.
  induction ks as [|k ks IH]; intros d H; cbn [break_in]; [split; [reflexivity|intros k l []]|].
  assert (H' : forall k, In k ks -> k st <> Some AState) by (intros; apply H; now right).
  destruct (k st) as [[|l]|] eqn:K; [destruct (H k (or_introl eq_refl) K)|..].
  - assert (B0 : forall d1, broken d1 l -> broken (fst (break_in ks st ids temp d1)) l).
    { intros d1 (b & I & X). destruct (break_in_keeps ks st ids temp d1) as (new & E & _). exists b. split; [rewrite E; apply in_app_iff; now left|exact X]. }
    destruct (existsb _ (bps d)) eqn:B.
    + destruct (IH d H') as [R1 R2]. split; [exact R1|]. intros k' l' [<-|I] E; [|eauto]. assert (l' = l) as -> by congruence. apply B0.
      apply existsb_exists in B as (b & I & X). apply Nat.eqb_eq in X. now exists b.
    + destruct (IH (add_bp d (Bp l temp ids None)) H') as [R1 R2]. split; [exact R1|]. intros k' l' [<-|I] E; [|eauto]. assert (l' = l) as -> by congruence.
      apply B0. exists (Bp l temp ids None). split; [cbn; apply in_app_iff; right; now left|reflexivity].
  - destruct (IH d H') as [R1 R2]. split; [exact R1|]. intros k' l' [<-|I] E; [congruence|eauto].
Qed.

(** * break_step *)
Section Steps.
Context {AR : Arith} {W : Type}.
Variable u : user W.
Lemma stop_later at_ s w k s1 w1 tr : timed_step u s w = (s1, w1, tr, false) -> s_steps s1 = S (s_steps s) ->
  stops u (Bp at_ true [] (Some (s_steps s))) (S (S k)) s w = Some 1.
Proof.
  intros E N. cbn [stops hit bp_steps]. rewrite Nat.ltb_irrefl, E. cbn [stops hit bp_steps]. rewrite N.
  destruct (Nat.ltb_spec (s_steps s) (S (s_steps s))); [reflexivity|lia].
Qed.
Lemma stop_never at_ s w k : s_queue s = [] -> stops u (Bp at_ true [] (Some (s_steps s))) k s w = None.
Proof.
  intros Q. induction k as [|k IH]; [reflexivity|]. cbn [stops hit bp_steps]. rewrite Nat.ltb_irrefl. unfold timed_step. rewrite Q. now rewrite IH.
Qed.
End Steps.
Section Count.
Context {AR : Arith} {W : Type}.
Variable u : user W.
Lemma ops_steps ops : forall s s' tr, run_ops s ops = (s', tr) -> s_steps s' = s_steps s.
Proof.
  induction ops as [|[a when|a] ops IH]; cbn [run_ops run_op]; intros s s' tr E; [now injection E as <- <-|..];
    (destruct (run_ops _ ops) as [s2 e2] eqn:E2; injection E as <- <-; rewrite (IH _ _ _ E2)); [|reflexivity].
  unfold timed_add, reg_add, timed_schedule. destruct (existsb _ _); reflexivity.
Qed.
Lemma bucket_steps b : forall now s w s' w' tr x, run_bucket u now b s w = (s', w', tr, x) -> s_steps s' = s_steps s.
Proof.
  induction b as [|a b IH]; cbn [run_bucket]; intros now s w s' w' tr x E; [now injection E as <- <- <- <-|].
  destruct (u_step u s a w) as [[w1 ops] o]. destruct (run_ops s ops) as [s1 tr1] eqn:EO. apply ops_steps in EO. rewrite <- EO. destruct o as [r| |].
  - match type of E with context [run_bucket u now b ?s2 w1] => destruct (run_bucket u now b s2 w1) as [[[s3 w3] tr3] x3] eqn:EB end.
    injection E as <- <- <- ->. rewrite (IH _ _ _ _ _ _ _ EB). destruct (negb _); reflexivity.
  - destruct (run_bucket u now b s1 w1) as [[[s3 w3] tr3] x3] eqn:EB. injection E as <- <- <- ->. eauto.
  - now injection E as <- <- <- <-.
Qed.
Lemma due_steps s w s' w' tr t b q : s_queue s = (t, b) :: q -> n_ltb (s_time s) t = false -> timed_step u s w = (s', w', tr, false) ->
  s_steps s' = S (s_steps s).
Proof.
  intros Q L E. unfold timed_step in E. rewrite Q, L in E. destruct (if s_shuffle s then _ else _) as [w0 b0].
  destruct (run_bucket u (s_time s) b0 (set_queue s q) w0) as [[[s1 w1] tr1] x1] eqn:EB. apply bucket_steps in EB. destruct x1; [discriminate|].
  injection E as <- <- <-. cbn [s_queue set_steps]. destruct (s_queue s1) as [|[? ?] ?]; cbn; now rewrite EB.
Qed.
End Count.
