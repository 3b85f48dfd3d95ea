(** Proofs about the captured log: soil/web/__init__.py:183-200 and 250-264. *)
From Coq Require Import List Bool Arith Ascii String Lia.
From Verif Require Import WebLogModel WebLogSpec.
Import ListNotations.

Lemma above_under : forall h p, above h p = true <-> under h p.
Proof.
  induction h as [|x h IH]; intros p; cbn.
  - split; intros _; [exists p; reflexivity | reflexivity].
  - destruct p as [|y p].
    + split; [discriminate | intros [r H]; discriminate].
    + rewrite andb_true_iff, String.eqb_eq, IH. split.
      * intros [-> [r ->]]. exists r. reflexivity.
      * intros [r H]. cbn in H. inversion H; subst. split; [reflexivity | exists r; reflexivity].
Qed.
Lemma underb_under : forall h p, underb h p = true <-> under h p.
Proof.
  intros h p. unfold underb, under. destruct (list_eq_dec string_dec _ _) as [E|E].
  - split; [intros _ | reflexivity]. exists (skipn (List.length h) p). rewrite <- E at 1. symmetry. apply firstn_skipn.
  - split; [discriminate | intros [r ->]]. exfalso. apply E.
    rewrite firstn_app, firstn_all, Nat.sub_diag. cbn. apply app_nil_r.
Qed.
Lemma above_underb : forall h p, above h p = underb h p.
Proof.
  intros h p. destruct (above h p) eqn:A, (underb h p) eqn:B; auto.
  - apply above_under, underb_under in A. congruence.
  - apply underb_under, above_under in B. congruence.
Qed.

Lemma split_ne : forall s, split s <> [].
Proof. induction s as [|c s IH]; cbn; [discriminate|]. destruct (Ascii.eqb c nl); [discriminate|]. destruct (split s); discriminate. Qed.
Lemma split_lines : forall s, Forall (fun l => ~ In nl l) (split s).
Proof.
  induction s as [|c s IH]; cbn.
  - constructor; [intros [] | constructor].
  - destruct (Ascii.eqb c nl) eqn:E.
    + constructor; [intros [] | exact IH].
    + apply Ascii.eqb_neq in E. destruct (split s) as [|l ls].
      * constructor; [|constructor]. intros [H|[]]. congruence.
      * inversion IH; subst. constructor; auto. intros [H|H]; [congruence | auto].
Qed.
Lemma removelast_Forall {A} (P : A -> Prop) : forall l, Forall P l -> Forall P (removelast l).
Proof. induction l as [|x l IH]; intros H; [constructor|]. inversion H; subst. cbn. destruct l; [constructor|]. constructor; auto. Qed.
Lemma split_join : forall s, flat_map (fun l => l ++ [nl]) (removelast (split s)) ++ last (split s) [] = s.
Proof.
  induction s as [|c s IH]; [reflexivity|]. cbn [split]. destruct (Ascii.eqb c nl) eqn:E.
  - apply Ascii.eqb_eq in E. subst c. destruct (split s) eqn:S; [exfalso; exact (split_ne s S)|].
    change (removelast ([] :: t :: l)) with ([] :: removelast (t :: l)). change (last ([] :: t :: l) []) with (last (t :: l) (@nil ascii)).
    cbn [flat_map app]. f_equal. exact IH.
  - destruct (split s) as [|l ls] eqn:S; [exfalso; exact (split_ne s S)|].
    destruct ls as [|l' ls].
    + cbn in *. congruence.
    + change (removelast ((c :: l) :: l' :: ls)) with ((c :: l) :: removelast (l' :: ls)).
      change (last ((c :: l) :: l' :: ls) []) with (last (l' :: ls) (@nil ascii)).
      change (removelast (l :: l' :: ls)) with (l :: removelast (l' :: ls)) in IH.
      change (last (l :: l' :: ls) []) with (last (l' :: ls) (@nil ascii)) in IH.
      cbn [flat_map app] in *. f_equal. exact IH.
Qed.
Lemma split_last : forall s, last (split (s ++ [nl])) [] = [].
Proof.
  induction s as [|c s IH]; [reflexivity|]. cbn [app split]. destruct (split (s ++ [nl])) as [|l ls] eqn:S; [exfalso; exact (split_ne _ S)|].
  destruct (Ascii.eqb c nl).
  - exact IH.
  - destruct ls as [|l' ls]; [|exact IH]. exfalso. clear IH. revert l S. induction s as [|d s IH]; intros l S; cbn in S.
    + discriminate.
    + destruct (split (s ++ [nl])) as [|m ms] eqn:M; [exact (split_ne _ M)|]. destruct (Ascii.eqb d nl); [discriminate|].
      inversion S; subst. exact (IH _ eq_refl).
Qed.

(** A text of whole lines. *)
Definition whole (s : text) : Prop := s = [] \/ exists s', s = s' ++ [nl].
Lemma whole_app : forall s m, whole (s ++ m ++ [nl]).
Proof. intros s m. right. exists (s ++ m). apply app_assoc. Qed.
Lemma whole_sent : forall s, whole s -> flat_map (fun l => l ++ [nl]) (removelast (split s)) = s.
Proof.
  intros s H. rewrite <- (split_join s) at 2. destruct H as [->|[s' ->]]; [reflexivity|]. rewrite split_last, app_nil_r. reflexivity.
Qed.

Lemma set_cap_length : forall l i f, List.length (set_cap l i f) = List.length l.
Proof. intros. unfold set_cap. rewrite map_length, combine_length, seq_length. lia. Qed.
Lemma set_cap_nth : forall l i f j, nth_error (set_cap l i f) j = option_map (fun k => if Nat.eqb j i then f k else k) (nth_error l j).
Proof.
  intros l i f j. unfold set_cap. rewrite nth_error_map.
  assert (H : forall (l : list capture) b j, nth_error (combine (seq b (List.length l)) l) j = option_map (fun k => (b + j, k)) (nth_error l j)).
  { clear. induction l as [|x l IH]; intros b [|j]; cbn; auto.
    - rewrite Nat.add_0_r. reflexivity.
    - rewrite IH. destruct (nth_error l j); cbn; [|reflexivity]. do 2 f_equal. lia. }
  rewrite H. destruct (nth_error l j); reflexivity.
Qed.

Definition note_in (k : capture) (r : path * text) : capture :=
  if k_attached k && negb (k_closed k) && above (k_path k) (fst r)
  then Capture (k_path k) (k_text k ++ snd r ++ [nl]) (k_closed k) (k_attached k) else k.
Lemma write_nth : forall l r j, nth_error (write l r) j = option_map (fun k => note_in k r) (nth_error l j).
Proof. intros. unfold write. rewrite nth_error_map. reflexivity. Qed.
Lemma writes_nth : forall rs l j, nth_error (fold_left write rs l) j = option_map (fun k => fold_left note_in rs k) (nth_error l j).
Proof.
  induction rs as [|r rs IH]; intros l j; cbn; [destruct (nth_error l j); reflexivity|].
  rewrite IH, write_nth. destruct (nth_error l j); reflexivity.
Qed.
Lemma note_static : forall k r, k_path (note_in k r) = k_path k /\ k_closed (note_in k r) = k_closed k /\ k_attached (note_in k r) = k_attached k.
Proof. intros k r. unfold note_in. destruct (_ && _ && _); auto. Qed.
Lemma notes_static : forall rs k,
  k_path (fold_left note_in rs k) = k_path k /\ k_closed (fold_left note_in rs k) = k_closed k /\ k_attached (fold_left note_in rs k) = k_attached k.
Proof.
  induction rs as [|r rs IH]; intros k; cbn; auto. destruct (IH (note_in k r)) as [A [B C]].
  destruct (note_static k r) as [D [E F]]. rewrite A, B, C, D, E, F. auto.
Qed.
Lemma write_length : forall l r, List.length (write l r) = List.length l.
Proof. intros. unfold write. apply map_length. Qed.
Lemma writes_length : forall rs l, List.length (fold_left write rs l) = List.length l.
Proof. induction rs as [|r rs IH]; intros l; cbn; [reflexivity|]. rewrite IH. apply write_length. Qed.

(** ** A run on a quiet connection. *)
(** The capture in use is the last; it is open and attached; what was sent and its text tell what was heard. *)
Definition live (name : path) (n : nat) (s0 : list text) (msgs : list text) (c : conn) : Prop :=
  c_current c = Some n /\ List.length (c_caps c) = S n /\ c_capturing c = true /\ c_open c = true /\ 1 <= c_timers c /\
  exists t ls, nth_error (c_caps c) n = Some (Capture name t false true) /\ whole t /\ c_sent c = s0 ++ ls /\
    Forall (fun l => ~ In nl l) ls /\ flat_map (fun l => l ++ [nl]) ls ++ t = flat_map (fun m => m ++ [nl]) msgs.
Definition quiet (c : conn) : Prop :=
  c_open c = true /\ c_capturing c = false /\ (forall j, c_current c = Some j -> forall k, nth_error (c_caps c) j = Some k -> k_closed k = true).

Lemma live_log : forall name n s0 msgs c p m, live name n s0 msgs c ->
  live name n s0 (msgs ++ heard_at name (p, m)) (wstep c (WLog p m)).
Proof.
  intros name n s0 msgs c p m (A & B & C & D & E & t & ls & F & G & H & I & J).
  unfold live. cbn [wstep c_current c_caps c_capturing c_open c_timers c_sent]. rewrite write_length. do 5 (split; [assumption|]).
  rewrite write_nth, F. cbn [option_map]. unfold note_in. cbn [k_attached k_closed k_path k_text fst snd andb negb].
  rewrite above_underb. unfold heard_at. cbn [fst snd]. destruct (underb name p).
  - exists (t ++ m ++ [nl]), ls. split; [reflexivity|]. split; [apply whole_app|]. split; [exact H|]. split; [exact I|].
    etransitivity; [apply app_assoc|]. etransitivity; [|symmetry; apply flat_map_app]. cbn [flat_map]. rewrite app_nil_r.
    exact (f_equal (fun x => x ++ m ++ [nl]) J).
  - exists t, ls. rewrite app_nil_r. auto.
Qed.

Lemma live_tick : forall name n s0 msgs c, live name n s0 msgs c ->
  live name n s0 msgs (wstep c (WTick [])) /\ exists k, nth_error (c_caps (wstep c (WTick []))) n = Some k /\ k_text k = [].
Proof.
  intros name n s0 msgs c (A & B & C & D & E & t & ls & F & G & H & I & J).
  cbn [wstep]. destruct (c_timers c) as [|tm] eqn:T; [lia|]. unfold update_logging. cbn [c_capturing c_current c_caps c_timers c_open c_sent fold_left].
  rewrite A, F, C, D. cbn [k_closed k_text negb andb orb].
  destruct t as [|x t0] eqn:X.
  - cbn [List.length Nat.eqb negb andb]. split.
    + unfold live. cbn [c_current c_caps c_capturing c_open c_timers c_sent]. do 4 (split; [auto|]). split; [lia|].
      exists [], ls. auto.
    + cbn [c_caps]. eexists. split; [exact F|reflexivity].
  - cbn [List.length Nat.eqb negb andb]. rewrite <- X in *. clear X. split.
    + unfold live. cbn [c_current c_caps c_capturing c_open c_timers c_sent]. rewrite set_cap_length. do 4 (split; [auto|]). split; [lia|].
      exists [], (ls ++ removelast (split t)). rewrite set_cap_nth, F. cbn [option_map]. rewrite Nat.eqb_refl. unfold clear_text. cbn [k_path k_closed k_attached].
      split; [reflexivity|]. split; [left; reflexivity|]. split; [rewrite H; symmetry; apply app_assoc|]. split.
      * apply Forall_app. split; auto. apply removelast_Forall, split_lines.
      * rewrite app_nil_r, flat_map_app, whole_sent by assumption. exact J.
    + cbn [c_caps]. rewrite set_cap_nth, F. cbn [option_map]. rewrite Nat.eqb_refl. eexists. split; [reflexivity|reflexivity].
Qed.

Lemma live_body : forall es name n s0 msgs c, forallb calm es = true -> live name n s0 msgs c -> live name n s0 (msgs ++ heard name es) (wrun es c).
Proof.
  induction es as [|e es IH]; intros name n s0 msgs c H L; cbn [wrun fold_left heard flat_map].
  - rewrite app_nil_r. exact L.
  - cbn in H. apply andb_true_iff in H. destruct H as [H1 H2]. rewrite app_assoc. apply IH; [exact H2|].
    destruct e as [| p m | late | |]; try discriminate.
    + apply live_log, L.
    + destruct late; [|discriminate]. cbn. rewrite app_nil_r. apply live_tick, L.
Qed.

Lemma start_live : forall c name, quiet c -> live name (List.length (c_caps c)) (c_sent c) [] (wstep c (WStart name)).
Proof.
  intros c name (A & B & C). cbn [wstep]. unfold update_logging. cbn [c_capturing c_current c_caps c_timers c_open c_sent fold_left].
  assert (E : nth_error (c_caps c ++ [Capture name [] false true]) (List.length (c_caps c)) = Some (Capture name [] false true)).
  { rewrite nth_error_app2 by lia. rewrite Nat.sub_diag. reflexivity. }
  rewrite E. cbn [k_closed k_text List.length Nat.eqb negb andb].
  unfold live. cbn [c_current c_caps c_capturing c_open c_timers c_sent]. rewrite app_length. cbn [List.length]. split; [reflexivity|].
  split; [lia|]. split; [reflexivity|]. split; [exact A|]. split; [lia|].
  exists [], []. rewrite E, app_nil_r. repeat split; auto. left. reflexivity.
Qed.

Lemma logs_sent : forall es c, forallb only_log es = true -> c_sent (wrun es c) = c_sent c.
Proof.
  induction es as [|e es IH]; intros c H; [reflexivity|]. cbn in H. apply andb_true_iff in H. destruct H as [H1 H2]. cbn [wrun fold_left].
  rewrite IH by exact H2. destruct e; try discriminate. reflexivity.
Qed.
Lemma only_log_calm : forall es, forallb only_log es = true -> forallb calm es = true.
Proof. intros es H. apply forallb_forall. intros e I. rewrite forallb_forall in H. specialize (H e I). destruct e; auto; discriminate. Qed.

Lemma end_quiet : forall name n s0 msgs c, live name n s0 msgs c ->
  quiet (wstep c (WEnd n)) /\ c_sent (wstep c (WEnd n)) = c_sent c /\ List.length (c_caps (wstep c (WEnd n))) = List.length (c_caps c) /\
  c_timers (wstep c (WEnd n)) = c_timers c.
Proof.
  intros name n s0 msgs c (A & B & C & D & E & t & ls & F & _). cbn [wstep]. rewrite D, A, F. cbn [k_path].
  destruct (list_eq_dec string_dec name name) as [_|X]; [|congruence]. cbn [c_sent c_caps c_timers]. rewrite !set_cap_length.
  split; [|auto]. split; [reflexivity|]. split; [reflexivity|]. cbn [c_current c_caps].
  intros j Hj k Hk. inversion Hj; subst j. rewrite set_cap_nth, set_cap_nth, F in Hk. cbn [option_map] in Hk. rewrite Nat.eqb_refl in Hk.
  inversion Hk; subst k. reflexivity.
Qed.

Lemma quiet_idle : forall e c, during e = true -> quiet c ->
  quiet (wstep c e) /\ c_sent (wstep c e) = c_sent c /\ List.length (c_caps (wstep c e)) = List.length (c_caps c).
Proof.
  intros e c H (A & B & C). destruct e as [| p m | late | |]; try discriminate; cbn [wstep].
  - cbn [c_sent c_caps]. rewrite write_length. split; [|auto]. split; [exact A|]. split; [exact B|]. cbn [c_current c_caps].
    intros j Hj k Hk. rewrite write_nth in Hk. destruct (nth_error (c_caps c) j) as [k0|] eqn:K; [|discriminate]. cbn in Hk. inversion Hk; subst k.
    destruct (note_static k0 (p, m)) as [_ [-> _]]. exact (C j Hj k0 K).
  - destruct (c_timers c) as [|tm] eqn:T.
    { repeat split; auto. }
    unfold update_logging. cbn [c_capturing c_current c_caps c_timers c_open c_sent]. rewrite B.
    assert (Q : forall tm', quiet (Conn (fold_left write late (c_caps c)) (c_current c) false tm' (c_open c) (c_sent c))).
    { intros tm'. split; [exact A|]. split; [reflexivity|]. cbn [c_current c_caps]. intros j Hj k Hk. rewrite writes_nth in Hk.
      destruct (nth_error (c_caps c) j) as [k0|] eqn:K; [|discriminate]. cbn in Hk. inversion Hk; subst k.
      destruct (notes_static late k0) as [_ [-> _]]. exact (C j Hj k0 K). }
    destruct (c_current c) as [i|] eqn:CI.
    + destruct (nth_error (c_caps c) i) as [k|] eqn:K.
      * rewrite (C i eq_refl k K). cbn [negb andb]. split; [apply Q|]. cbn [c_sent c_caps]. split; [reflexivity | apply writes_length].
      * split; [apply Q|]. cbn [c_sent c_caps]. split; [reflexivity | apply writes_length].
    + split; [apply Q|]. cbn [c_sent c_caps]. split; [reflexivity | apply writes_length].
Qed.
Lemma quiet_idles : forall es c, forallb during es = true -> quiet c ->
  quiet (wrun es c) /\ c_sent (wrun es c) = c_sent c /\ List.length (c_caps (wrun es c)) = List.length (c_caps c).
Proof.
  induction es as [|e es IH]; intros c H Q; [auto|]. cbn in H. apply andb_true_iff in H. destruct H as [H1 H2].
  destruct (quiet_idle e c H1 Q) as [Q1 [S1 L1]]. destruct (IH _ H2 Q1) as [Q2 [S2 L2]]. cbn [wrun fold_left]. unfold wrun in *.
  split; [exact Q2|]. split; congruence.
Qed.

Lemma wrun_app : forall a b c, wrun (a ++ b) c = wrun b (wrun a c).
Proof. intros. unfold wrun. apply fold_left_app. Qed.

Lemma run_told : forall r c, good_run r -> quiet c ->
  let c' := wrun (events_of (List.length (c_caps c)) r) c in
  quiet c' /\ List.length (c_caps c') = S (List.length (c_caps c)) /\
  exists ls, c_sent c' = c_sent c ++ ls /\ told ls (heard (r_name r) (r_body r)).
Proof.
  intros r c (G1 & G2 & G3) Q. unfold events_of. set (n := List.length (c_caps c)).
  change (WStart (r_name r) :: r_body r ++ WTick [] :: r_tail r ++ WEnd n :: r_idle r)
    with ([WStart (r_name r)] ++ r_body r ++ [WTick []] ++ r_tail r ++ [WEnd n] ++ r_idle r).
  rewrite !wrun_app. cbn [wrun fold_left]. fold (wrun (r_body r)).
  pose proof (start_live c (r_name r) Q) as L0. fold n in L0.
  pose proof (live_body _ _ _ _ _ _ G1 L0) as L1. cbn [app] in L1.
  destruct (live_tick _ _ _ _ _ L1) as [L2 [k [K1 K2]]].
  pose proof (live_body _ _ _ _ _ _ (only_log_calm _ G2) L2) as L3.
  destruct (end_quiet _ _ _ _ _ L3) as [Q4 [S4 [N4 _]]].
  destruct (quiet_idles _ _ G3 Q4) as [Q5 [S5 N5]]. unfold wrun in *. cbv zeta. split; [exact Q5|]. split.
  - rewrite N5, N4. destruct L3 as (_ & L3 & _). exact L3.
  - fold (wrun (r_tail r)) in S4. rewrite S5, S4, logs_sent by exact G2. destruct L2 as (_ & _ & _ & _ & _ & t & ls & F & W & S & I & J).
    exists ls. split; [exact S|]. split; [exact I|]. rewrite K1 in F. inversion F; subst k. cbn in K2. subst t. rewrite app_nil_r in J. exact J.
Qed.

Lemma session_told : forall rs c, (forall r, In r rs -> good_run r) -> quiet c ->
  exists ls, c_sent (wrun (session (List.length (c_caps c)) rs) c) = c_sent c ++ ls /\ told ls (flat_map (fun r => heard (r_name r) (r_body r)) rs).
Proof.
  induction rs as [|r rs IH]; intros c H Q; cbn [session].
  - exists []. rewrite app_nil_r. repeat split; constructor.
  - rewrite wrun_app. destruct (run_told r c (H r (or_introl eq_refl)) Q) as [Q1 [N1 [ls [S1 [T1 T2]]]]]. cbv zeta in *. 
    destruct (IH _ (fun r' I => H r' (or_intror I)) Q1) as [ls' [S2 [T3 T4]]]. rewrite N1 in S2.
    exists (ls ++ ls'). split; [rewrite S2, S1; symmetry; apply app_assoc|]. split.
    + apply Forall_app. auto.
    + cbn [flat_map]. etransitivity; [apply flat_map_app|]. etransitivity; [|symmetry; apply flat_map_app]. exact (f_equal2 (@app _) T2 T4).
Qed.
Lemma connected_quiet : quiet connected.
Proof. split; [reflexivity|]. split; [reflexivity|]. intros j H. discriminate. Qed.

(** ** What is logged where nobody listens. *)
Definition sim_caps (b : nat) (l l' : list capture) : Prop :=
  List.length l = List.length l' /\
  forall j, match nth_error l j, nth_error l' j with
            | Some k, Some k' => k_path k = k_path k' /\ k_closed k = k_closed k' /\ k_attached k = k_attached k' /\ (b <= j -> k = k')
            | None, None => True
            | _, _ => False
            end.
Definition sim (b : nat) (c c' : conn) : Prop :=
  sim_caps b (c_caps c) (c_caps c') /\ c_current c = c_current c' /\ (exists j, c_current c = Some j /\ b <= j) /\ b <= List.length (c_caps c) /\
  c_capturing c = c_capturing c' /\ c_timers c = c_timers c' /\ c_open c = c_open c' /\ c_sent c = c_sent c'.

Lemma sim_map : forall b l l' (f : nat -> capture -> capture) l1 l1',
  (forall j, nth_error l1 j = option_map (f j) (nth_error l j)) -> (forall j, nth_error l1' j = option_map (f j) (nth_error l' j)) ->
  List.length l1 = List.length l -> List.length l1' = List.length l' ->
  (forall j k k', k_path k = k_path k' -> k_closed k = k_closed k' -> k_attached k = k_attached k' ->
     k_path (f j k) = k_path (f j k') /\ k_closed (f j k) = k_closed (f j k') /\ k_attached (f j k) = k_attached (f j k')) ->
  sim_caps b l l' -> sim_caps b l1 l1'.
Proof.
  intros b l l' f l1 l1' H1 H2 L1 L2 F [N S]. split; [congruence|]. intros j. rewrite H1, H2. specialize (S j).
  destruct (nth_error l j) as [k|], (nth_error l' j) as [k'|]; cbn; try contradiction; auto.
  destruct S as (A & B & C & D). destruct (F j k k' A B C) as (A' & B' & C'). repeat split; auto. intros Hb. rewrite (D Hb). reflexivity.
Qed.
Lemma sim_write : forall b l l' r, sim_caps b l l' -> sim_caps b (write l r) (write l' r).
Proof.
  intros b l l' r. apply sim_map with (f := fun _ k => note_in k r); intros; rewrite ?write_nth, ?write_length; auto.
  destruct (note_static k r) as (-> & -> & ->), (note_static k' r) as (-> & -> & ->). auto.
Qed.
Lemma sim_writes : forall rs b l l', sim_caps b l l' -> sim_caps b (fold_left write rs l) (fold_left write rs l').
Proof. induction rs as [|r rs IH]; intros b l l' H; cbn; auto. apply IH, sim_write, H. Qed.
Lemma sim_set : forall b l l' i f,
  (forall k k', k_path k = k_path k' -> k_closed k = k_closed k' -> k_attached k = k_attached k' ->
     k_path (f k) = k_path (f k') /\ k_closed (f k) = k_closed (f k') /\ k_attached (f k) = k_attached (f k')) ->
  sim_caps b l l' -> sim_caps b (set_cap l i f) (set_cap l' i f).
Proof.
  intros b l l' i f F. apply sim_map with (f := fun j k => if Nat.eqb j i then f k else k); intros; rewrite ?set_cap_nth, ?set_cap_length; auto.
  destruct (Nat.eqb j i); auto.
Qed.
Lemma sim_app : forall b l l' k, sim_caps b l l' -> sim_caps b (l ++ [k]) (l' ++ [k]).
Proof.
  intros b l l' k [N S]. split; [rewrite !app_length; congruence|]. intros j. destruct (Nat.lt_ge_cases j (List.length l)) as [H|H].
  - rewrite !nth_error_app1 by congruence. apply S.
  - rewrite !nth_error_app2 by congruence. rewrite <- N. destruct (nth_error [k] (j - List.length l)); auto.
Qed.

Lemma sim_update : forall b late c c', sim b c c' -> sim b (update_logging late c) (update_logging late c').
Proof.
  intros b late c c' (A & B & (i & C & D) & D' & E & F & G & H). unfold update_logging. rewrite <- B, C, <- E, <- F, <- G, <- H.
  destruct A as [N S]. pose proof (S i) as Si.
  assert (X : forall t, sim b (Conn (fold_left write late (c_caps c)) (Some i) (c_capturing c) t (c_open c) (c_sent c))
                          (Conn (fold_left write late (c_caps c')) (Some i) (c_capturing c) t (c_open c) (c_sent c))).
  { intros t. split; [apply sim_writes; split; assumption|]. cbn [c_current c_caps c_capturing c_timers c_open c_sent]. rewrite writes_length.
    split; [reflexivity|]. split; [exists i; auto|]. auto. }
  destruct (nth_error (c_caps c) i) as [k|] eqn:K, (nth_error (c_caps c') i) as [k'|] eqn:K'; try contradiction; [|apply X].
  destruct Si as (_ & _ & _ & Si). rewrite <- (Si D). destruct (_ && _ && _); [|apply X].
  split; [|cbn [c_current c_caps c_capturing c_timers c_open c_sent]; rewrite set_cap_length, writes_length; split; [reflexivity|]; split; [exists i; auto | auto]].
  cbn [c_caps]. apply sim_set; [|apply sim_writes; split; assumption]. intros ? ? P Q R. cbn. auto.
Qed.

Lemma sim_step : forall b e c c', sim b c c' -> sim b (wstep c e) (wstep c' e).
Proof.
  intros b e c c' Z. pose proof Z as (A & B & (i & C & D) & D' & E & F & G & H). destruct e as [name | p m | late | n |]; cbn [wstep].
  - rewrite <- F, <- G, <- H. destruct A as [N S]. rewrite <- N. apply sim_update. split; [apply sim_app; split; assumption|].
    cbn [c_current c_caps c_capturing c_timers c_open c_sent]. split; [reflexivity|]. split; [eexists; split; [reflexivity|exact D']|].
    rewrite app_length. split; [lia|]. auto.
  - rewrite <- B, <- E, <- F, <- G, <- H. split; [apply sim_write, A|]. cbn [c_current c_caps c_capturing c_timers c_open c_sent].
    rewrite write_length. split; [reflexivity|]. split; [exists i; auto|]. auto.
  - rewrite <- F. destruct (c_timers c) as [|t] eqn:T.
    + exact Z.
    + rewrite <- B, <- E, <- G, <- H. apply sim_update. split; [exact A|]. cbn [c_current c_caps c_capturing c_timers c_open c_sent].
      split; [reflexivity|]. split; [exists i; auto|]. auto.
  - rewrite <- G. destruct (c_open c) eqn:O.
    2:{ exact Z. }
    rewrite <- B, C. destruct A as [N S]. pose proof (S n) as Sn. pose proof (S i) as Si.
    destruct (nth_error (c_caps c) n) as [k|] eqn:K, (nth_error (c_caps c') n) as [k'|] eqn:K'; try contradiction.
    2:{ exact Z. }
    destruct Sn as (P & _). rewrite <- P.
    assert (W : match nth_error (c_caps c) i with Some k0 => if list_eq_dec string_dec (k_path k0) (k_path k) then true else false | None => false end =
                match nth_error (c_caps c') i with Some k0 => if list_eq_dec string_dec (k_path k0) (k_path k) then true else false | None => false end).
    { destruct (nth_error (c_caps c) i), (nth_error (c_caps c') i); try contradiction; auto. destruct Si as (-> & _). reflexivity. }
    rewrite <- W. clear W. set (own := match nth_error (c_caps c) i with Some k0 => _ | None => _ end).
    split.
    + cbn [c_caps]. assert (Y : sim_caps b (set_cap (c_caps c) i close_text) (set_cap (c_caps c') i close_text)).
      { apply sim_set; [|split; assumption]. intros ? ? P1 Q1 R1. cbn. auto. }
      destruct own; [|exact Y]. apply sim_set; [|exact Y]. intros ? ? P1 Q1 R1. cbn. auto.
    + cbn [c_current c_caps c_capturing c_timers c_open c_sent]. split; [reflexivity|]. split; [exists i; auto|]. split.
      { destruct own; rewrite ?set_cap_length; exact D'. }
      auto.
  - rewrite <- B, <- E, <- F, <- H. split; [exact A|]. cbn [c_current c_caps c_capturing c_timers c_open c_sent]. split; [reflexivity|]. split; [exists i; auto|]. auto.
Qed.
Lemma sim_run : forall b es c c', sim b c c' -> sim b (wrun es c) (wrun es c').
Proof. induction es as [|e es IH]; intros c c' H; [exact H|]. cbn [wrun fold_left]. apply IH, sim_step, H. Qed.

(** The captures from the [b]-th on do not listen to [p]. *)
Definition deaf (b : nat) (p : path) (c : conn) : Prop :=
  b <= List.length (c_caps c) /\ (exists j, c_current c = Some j /\ b <= j) /\
  forall j k, b <= j -> nth_error (c_caps c) j = Some k -> above (k_path k) p = false.

Lemma update_static : forall late c, c_current (update_logging late c) = c_current c /\ List.length (c_caps (update_logging late c)) = List.length (c_caps c) /\
  c_open (update_logging late c) = c_open c /\ c_capturing (update_logging late c) = c_capturing c /\
  c_timers (update_logging late c) = (if c_capturing c then S (c_timers c) else c_timers c) /\
  forall j, exists f, nth_error (c_caps (update_logging late c)) j = option_map f (nth_error (c_caps c) j) /\
    forall k, k_path (f k) = k_path k /\ k_attached (f k) = k_attached k.
Proof.
  intros late c.
  assert (N : forall j, exists f, nth_error (fold_left write late (c_caps c)) j = option_map f (nth_error (c_caps c) j) /\
                forall k, k_path (f k) = k_path k /\ k_attached (f k) = k_attached k).
  { intros j. exists (fold_left note_in late). split; [apply writes_nth|]. intros k. destruct (notes_static late k) as (A & _ & B). auto. }
  assert (X : let c' := Conn (fold_left write late (c_caps c)) (c_current c) (c_capturing c) (if c_capturing c then S (c_timers c) else c_timers c) (c_open c) (c_sent c) in
    c_current c' = c_current c /\ List.length (c_caps c') = List.length (c_caps c) /\ c_open c' = c_open c /\ c_capturing c' = c_capturing c /\
    c_timers c' = (if c_capturing c then S (c_timers c) else c_timers c) /\
    forall j, exists f, nth_error (c_caps c') j = option_map f (nth_error (c_caps c) j) /\
      forall k, k_path (f k) = k_path k /\ k_attached (f k) = k_attached k).
  { cbv zeta. cbn [c_current c_caps c_open c_capturing c_timers]. rewrite writes_length. do 5 (split; [reflexivity|]). exact N. }
  unfold update_logging. destruct (c_current c) as [i|]; [|exact X]. destruct (nth_error (c_caps c) i) as [k|]; [|exact X].
  destruct (_ && _ && _); [|exact X]. cbn [c_current c_caps c_open c_capturing c_timers]. rewrite set_cap_length, writes_length. do 5 (split; [reflexivity|]).
  intros j. exists (fun k => if Nat.eqb j i then clear_text (fold_left note_in late k) else fold_left note_in late k). split.
  - rewrite set_cap_nth, writes_nth. destruct (nth_error (c_caps c) j); reflexivity.
  - intros k'. destruct (notes_static late k') as (A & _ & B). destruct (Nat.eqb j i); auto.
Qed.

Lemma deaf_step : forall b p e c, no_start_above p e -> deaf b p c -> deaf b p (wstep c e).
Proof.
  intros b p e c NS Z. pose proof Z as (A & (i & B & B') & C).
  assert (U : forall late c, deaf b p c -> deaf b p (update_logging late c)).
  { clear. intros late c (A & (i & B & B') & C). destruct (update_static late c) as (U1 & U2 & _ & _ & _ & U3). split; [rewrite U2; exact A|]. split.
    - rewrite U1. exists i. auto.
    - intros j k Hb Hk. destruct (U3 j) as [f [Hf Pf]]. rewrite Hf in Hk. destruct (nth_error (c_caps c) j) as [k0|] eqn:K; [|discriminate].
      cbn in Hk. inversion Hk; subst k. destruct (Pf k0) as [-> _]. exact (C j k0 Hb K). }
  destruct e as [name | q m | late | n |]; cbn [wstep].
  - apply U. split; [cbn [c_caps]; rewrite app_length; lia|]. split; [cbn [c_current]; eexists; split; [reflexivity | exact A]|].
    cbn [c_caps]. intros j k Hb Hk. destruct (Nat.lt_ge_cases j (List.length (c_caps c))) as [H|H].
    + rewrite nth_error_app1 in Hk by exact H. exact (C j k Hb Hk).
    + rewrite nth_error_app2 in Hk by exact H. destruct (j - List.length (c_caps c)) as [|x]; [|destruct x; discriminate].
      cbn in Hk. inversion Hk; subst k. cbn [k_path]. destruct (above name p) eqn:E; [|reflexivity].
      apply above_under in E. exfalso. exact (NS name eq_refl E).
  - split; [cbn [c_caps]; rewrite write_length; exact A|]. split; [exists i; auto|]. cbn [c_caps]. intros j k Hb Hk. rewrite write_nth in Hk.
    destruct (nth_error (c_caps c) j) as [k0|] eqn:K; [|discriminate]. cbn in Hk. inversion Hk; subst k. destruct (note_static k0 (q, m)) as [-> _]. exact (C j k0 Hb K).
  - destruct (c_timers c); [exact Z|]. apply U. exact Z.
  - destruct (c_open c); [|exact Z]. rewrite B. destruct (nth_error (c_caps c) n) as [k|]; [|exact Z].
    match goal with |- context [if ?o then set_cap _ _ _ else _] => set (own := o) end.
    split; [cbn [c_caps]; destruct own; rewrite ?set_cap_length; exact A|]. split; [exists i; auto|]. cbn [c_caps]. intros j k' Hb Hk.
    assert (exists k0, nth_error (c_caps c) j = Some k0 /\ k_path k' = k_path k0) as [k0 [K P]].
    { destruct own; rewrite ?set_cap_nth in Hk; destruct (nth_error (c_caps c) j) as [k0|]; try discriminate; cbn in Hk; inversion Hk; exists k0; split; auto;
        destruct (Nat.eqb j i), (Nat.eqb j n); reflexivity. }
    rewrite P. exact (C j k0 Hb K).
  - exact Z.
Qed.
Lemma deaf_run : forall b p es c, (forall e, In e es -> no_start_above p e) -> deaf b p c -> deaf b p (wrun es c).
Proof.
  induction es as [|e es IH]; intros c H D; [exact D|]. cbn [wrun fold_left]. apply IH; [intros e' I; apply H; right; exact I|].
  apply deaf_step; [apply H; left; reflexivity | exact D].
Qed.
Lemma deaf_log : forall b p m c, deaf b p c -> sim b (wstep c (WLog p m)) c.
Proof.
  intros b p m c (A & (i & B & B') & C). cbn [wstep]. split; [|cbn [c_current c_caps c_capturing c_timers c_open c_sent]; rewrite write_length; split; [reflexivity|]; split; [exists i; auto | auto]].
  cbn [c_caps]. split; [apply write_length|]. intros j. rewrite write_nth. destruct (nth_error (c_caps c) j) as [k|] eqn:K; cbn; auto.
  destruct (note_static k (p, m)) as (-> & -> & ->). do 3 (split; [reflexivity|]). intros Hb. unfold note_in. cbn [fst]. rewrite (C j k Hb K).
  rewrite andb_false_r. reflexivity.
Qed.
Lemma overlap : forall es1 n2 es3 es4 p m, ~ under n2 p -> (forall e, In e es3 -> no_start_above p e) ->
  c_sent (wrun (es1 ++ WStart n2 :: es3 ++ WLog p m :: es4) connected) = c_sent (wrun (es1 ++ WStart n2 :: es3 ++ es4) connected).
Proof.
  intros es1 n2 es3 es4 p m H1 H2. rewrite !wrun_app. set (c1 := wrun es1 connected).
  change (WStart n2 :: es3 ++ WLog p m :: es4) with ([WStart n2] ++ es3 ++ [WLog p m] ++ es4). change (WStart n2 :: es3 ++ es4) with ([WStart n2] ++ es3 ++ es4).
  rewrite !wrun_app.
  assert (D0 : deaf (List.length (c_caps c1)) p (wrun [WStart n2] c1)).
  { cbn [wrun fold_left wstep]. match goal with |- deaf _ _ (update_logging [] ?x) => set (c := x) end.
    destruct (update_static [] c) as (U1 & U2 & _ & _ & _ & U3). split; [rewrite U2; subst c; cbn [c_caps]; rewrite app_length; lia|]. split.
    - rewrite U1. eexists. split; [reflexivity | lia].
    - intros j k Hb Hk. destruct (U3 j) as [f [Hf Pf]]. rewrite Hf in Hk. subst c. cbn [c_caps] in Hk. rewrite nth_error_app2 in Hk by exact Hb.
      destruct (j - List.length (c_caps c1)) as [|x]; [|destruct x; discriminate]. cbn in Hk. inversion Hk; subst k. destruct (Pf (Capture n2 [] false true)) as [-> _].
      cbn [k_path]. destruct (above n2 p) eqn:E; [|reflexivity]. apply above_under in E. contradiction. }
  pose proof (deaf_run _ _ _ _ H2 D0) as D1. pose proof (sim_run _ es4 _ _ (deaf_log _ _ m _ D1)) as S. apply S.
Qed.

(** ** Names. *)
Lemma own_logger : forall name rest, under name (sim_logger name rest) <-> Forall (eq "soil"%string) name.
Proof.
  intros name rest. unfold sim_logger, under.
  assert (G : forall a, (exists r, a :: name ++ rest = name ++ r) <-> Forall (eq a) name).
  { induction name as [|x name IH]; intros a.
    - split; [constructor | intros _; eexists; reflexivity].
    - split.
      + intros [r H]. cbn in H. inversion H; subst. constructor; [reflexivity|]. apply IH. exists r. assumption.
      + intros H. inversion H; subst. destruct (proj2 (IH x) H3) as [r Hr]. exists r. cbn. rewrite Hr. reflexivity. }
  apply G.
Qed.

(** ** Timers. *)
Definition timed (c : conn) : Prop := c_capturing c = true -> 1 <= c_timers c.
Lemma timed_step : forall e c, timed c -> timed (wstep c e).
Proof.
  intros e c H. destruct e as [name | p m | late | n |]; cbn [wstep].
  - match goal with |- timed (update_logging [] ?x) => destruct (update_static [] x) as (_ & _ & _ & U1 & U2 & _) end. intros _. rewrite U2. cbn. lia.
  - exact H.
  - destruct (c_timers c) eqn:T; [exact H|]. match goal with |- timed (update_logging late ?x) => destruct (update_static late x) as (_ & _ & _ & U1 & U2 & _) end.
    intros C. rewrite U1 in C. rewrite U2, C. lia.
  - destruct (c_open c); [|exact H]. destruct (c_current c); [|exact H]. destruct (nth_error (c_caps c) n); [|exact H]. intros C. discriminate.
  - exact H.
Qed.
Lemma timed_run : forall es c, timed c -> timed (wrun es c).
Proof. induction es as [|e es IH]; intros c H; [exact H|]. apply IH, timed_step, H. Qed.
Lemma gone_step : forall e c, c_open c = false -> c_capturing c = true -> c_open (wstep c e) = false /\ c_capturing (wstep c e) = true.
Proof.
  intros e c O C. destruct e as [name | p m | late | n |]; cbn [wstep].
  - match goal with |- context [update_logging [] ?x] => destruct (update_static [] x) as (_ & _ & -> & -> & _) end. auto.
  - auto.
  - destruct (c_timers c); [auto|]. match goal with |- context [update_logging late ?x] => destruct (update_static late x) as (_ & _ & -> & -> & _) end. auto.
  - rewrite O. auto.
  - auto.
Qed.
Lemma gone_run : forall es c, c_open c = false -> c_capturing c = true -> c_open (wrun es c) = false /\ c_capturing (wrun es c) = true.
Proof.
  induction es as [|e es IH]; intros c O C; [auto|]. destruct (gone_step e c O C) as [O' C']. exact (IH _ O' C').
Qed.

Definition starts (es : list wevent) : nat := List.length (filter is_start es).
Lemma few_step : forall e c, c_timers (wstep c e) <= c_timers c + (if is_start e then 1 else 0).
Proof.
  intros e c. destruct e as [name | p m | late | n |]; cbn [wstep is_start].
  - match goal with |- context [update_logging [] ?x] => destruct (update_static [] x) as (_ & _ & _ & _ & -> & _) end. cbn. lia.
  - cbn. lia.
  - destruct (c_timers c) eqn:T; [lia|]. match goal with |- context [update_logging late ?x] => destruct (update_static late x) as (_ & _ & _ & _ & -> & _) end.
    cbn. destruct (c_capturing c); lia.
  - destruct (c_open c); [|lia]. destruct (c_current c); [|lia]. destruct (nth_error (c_caps c) n); cbn; lia.
  - cbn. lia.
Qed.
Lemma few_run : forall es c, c_timers (wrun es c) <= c_timers c + starts es.
Proof.
  induction es as [|e es IH]; intros c; [cbn; lia|]. cbn [wrun fold_left]. etransitivity; [apply IH|]. pose proof (few_step e c).
  unfold starts. cbn [filter]. destruct (is_start e); cbn [List.length]; lia.
Qed.
Lemma idle_end : forall n c, c_capturing c = false -> c_timers c <= n ->
  c_timers (wrun (repeat (WTick []) n) c) = 0.
Proof.
  induction n as [|n IH]; intros c C T; cbn [repeat wrun fold_left]; [lia|].
  assert (H : c_capturing (wstep c (WTick [])) = false /\ c_timers (wstep c (WTick [])) <= n).
  { cbn [wstep]. destruct (c_timers c) eqn:T'; [split; [exact C | lia]|].
    match goal with |- context [update_logging [] ?x] => destruct (update_static [] x) as (_ & _ & _ & -> & -> & _) end. cbn. rewrite C. split; [reflexivity | lia]. }
  apply IH; apply H.
Qed.

(** ** Runs that hear nothing. *)
Definition mute (P : path -> Prop) (c : conn) : Prop :=
  c_sent c = [] /\ Forall (fun k => k_text k = [] /\ forall p, P p -> above (k_path k) p = false) (c_caps c).
Lemma mute_write : forall (P : path -> Prop) l r, P (fst r) ->
  Forall (fun k => k_text k = [] /\ forall p, P p -> above (k_path k) p = false) l ->
  Forall (fun k => k_text k = [] /\ forall p, P p -> above (k_path k) p = false) (write l r).
Proof.
  intros P l r H F. unfold write. apply Forall_map. eapply Forall_impl; [|exact F]. intros k [A B]. rewrite (B _ H), andb_false_r. auto.
Qed.
Lemma mute_writes : forall (P : path -> Prop) rs l, (forall p, In p (map fst rs) -> P p) ->
  Forall (fun k => k_text k = [] /\ forall p, P p -> above (k_path k) p = false) l ->
  Forall (fun k => k_text k = [] /\ forall p, P p -> above (k_path k) p = false) (fold_left write rs l).
Proof.
  induction rs as [|r rs IH]; intros l H F; cbn; auto. apply IH; [intros p I; apply H; right; exact I|].
  apply mute_write; auto. apply H. left. reflexivity.
Qed.
Lemma mute_update : forall (P : path -> Prop) late c, (forall p, In p (map fst late) -> P p) -> mute P c -> mute P (update_logging late c).
Proof.
  intros P late c H [S F]. pose proof (mute_writes P late _ H F) as W. unfold update_logging.
  assert (X : forall t, mute P (Conn (fold_left write late (c_caps c)) (c_current c) (c_capturing c) t (c_open c) (c_sent c))) by (intros t; split; assumption).
  destruct (c_current c) as [i|]; [|apply X]. destruct (nth_error (c_caps c) i) as [k|] eqn:K; [|apply X].
  rewrite Forall_forall in F. destruct (F k (nth_error_In _ _ K)) as [-> _]. cbn [List.length Nat.eqb negb]. rewrite andb_false_r. apply X.
Qed.
Lemma mute_set : forall P l i f, (forall k, k_path (f k) = k_path k /\ k_text (f k) = k_text k) ->
  Forall (fun k => k_text k = [] /\ forall p, P p -> above (k_path k) p = false) l ->
  Forall (fun k => k_text k = [] /\ forall p, P p -> above (k_path k) p = false) (set_cap l i f).
Proof.
  intros P l i f H F. rewrite Forall_forall in *. intros k I. apply In_nth_error in I. destruct I as [j I]. rewrite set_cap_nth in I.
  destruct (nth_error l j) as [k0|] eqn:K; [|discriminate]. cbn in I. inversion I; subst k. destruct (F k0 (nth_error_In _ _ K)) as [A B].
  destruct (Nat.eqb j i); [|auto]. destruct (H k0) as [-> ->]. auto.
Qed.
Lemma mute_step : forall (P : path -> Prop) e c, (forall p, In p (logs_to e) -> P p) -> (forall n, e = WStart n -> forall p, P p -> ~ under n p) ->
  mute P c -> mute P (wstep c e).
Proof.
  intros P e c H1 H2 M. pose proof M as [S F]. destruct e as [name | p m | late | n |]; cbn [wstep].
  - apply mute_update; [intros p []|]. split; [exact S|]. cbn [c_caps]. apply Forall_app. split; [exact F|]. constructor; [|constructor]. split; [reflexivity|].
    intros p I. cbn [k_path]. destruct (above name p) eqn:E; [|reflexivity]. apply above_under in E. exfalso. exact (H2 name eq_refl p I E).
  - split; [exact S|]. cbn [c_caps]. apply mute_write; [apply H1; left; reflexivity | exact F].
  - destruct (c_timers c); [exact M|]. apply mute_update; [exact H1|]. split; assumption.
  - destruct (c_open c); [|exact M]. destruct (c_current c) as [i|]; [|exact M]. destruct (nth_error (c_caps c) n) as [k|]; [|exact M].
    match goal with |- context [if ?o then set_cap _ _ _ else _] => set (own := o) end. split; [exact S|]. cbn [c_caps].
    destruct own; repeat (apply mute_set; [intros k'; split; reflexivity|]); exact F.
  - exact M.
Qed.
Lemma mute_run : forall (P : path -> Prop) es c, (forall e, In e es -> forall p, In p (logs_to e) -> P p) ->
  (forall n, In (WStart n) es -> forall p, P p -> ~ under n p) -> mute P c -> mute P (wrun es c).
Proof.
  induction es as [|e es IH]; intros c H1 H2 M; [exact M|]. cbn [wrun fold_left]. apply IH.
  - intros e' I. apply H1. right. exact I.
  - intros n I. apply H2. right. exact I.
  - apply mute_step; [apply H1; left; reflexivity | | exact M]. intros n ->. apply H2. left. reflexivity.
Qed.
Lemma told_nil : forall ls, told ls [] -> ls = [].
Proof. intros [|l ls] [_ H]; [reflexivity|]. cbn in H. destruct l; discriminate. Qed.
