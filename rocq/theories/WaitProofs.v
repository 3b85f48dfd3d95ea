(** Proofs about agents that wait for messages. *)
From Coq Require Import ZArith List Bool Arith String Lia Permutation.
From Verif Require Import Num PyDict TimedModel TimedSpec TimedProofs TraceProofs AgentModel AgentProofs FsmModel EventModel PingModel TutorSpec TutorProofs WaitModel WaitSpec.
Import ListNotations.
Local Open Scope nat_scope.
Local Open Scope list_scope.

(** A statement about what [a] has done, the clock and the world, along a history from the beginning. *)
Section Clock.
Context {AR : Arith} {W : Type}.
Variables (u : user W) (a : aid) (I : list (num * outcome) -> num -> W -> Prop).
Hypothesis H1 : forall l s b w w' ops o, u_step u s b w = (w', ops, o) -> I l (s_time s) w ->
  I (if Nat.eqb b a then l ++ [(s_time s, o)] else l) (s_time s) w'.
Hypothesis H2 : forall l t b w, I l t w -> I l t (fst (u_shuffle u b w)).
Hypothesis H3 : forall l t t' w, n_leb t t' = true -> I l t w -> I l t' w.

Lemma clock_bucket now b : forall l s w s' w' tr x, s_time s = now -> run_bucket u now b s w = (s', w', tr, x) ->
  I l now w -> I (l ++ acts_of a tr) now w'.
Proof.
  induction b as [|c b IH]; cbn [run_bucket]; intros l s w s' w' tr x T E J.
  { injection E as <- <- <- <-. cbn. rewrite app_nil_r. auto. }
  destruct (u_step u s c w) as [[w1 ops] o] eqn:U. apply (H1 l) in U; [|now rewrite T].
  pose proof (acts_of_ops a s ops) as AO. pose proof (ops_time s ops) as [TO _].
  destruct (run_ops s ops) as [s1 tr1] eqn:O. cbn [fst snd] in AO, TO.
  assert (K : I (l ++ acts_of a (tr1 ++ [EvAct now c o])) now w1).
  { rewrite acts_of_app, AO. cbn. rewrite T in U. destruct (Nat.eqb c a); cbn; rewrite ?app_nil_r; auto. }
  assert (T1 : s_time s1 = now) by congruence.
  destruct o as [d| |].
  - destruct (run_bucket u now b _ w1) as [[[s3 w3] tr3] x3] eqn:B. injection E as <- <- <- <-.
    rewrite acts_of_app, app_assoc. eapply IH; [|exact B|exact K].
    destruct (negb _); auto.
  - destruct (run_bucket u now b _ w1) as [[[s3 w3] tr3] x3] eqn:B. injection E as <- <- <- <-.
    rewrite acts_of_app, app_assoc. eapply IH; [|exact B|exact K]. auto.
  - injection E as <- <- <- <-. auto.
Qed.
Lemma clock_step l s w s' w' tr x : timed_step u s w = (s', w', tr, x) -> I l (s_time s) w -> I (l ++ acts_of a tr) (s_time s) w'.
Proof.
  unfold timed_step. destruct (s_queue s) as [|[t b] q].
  { intros E J. injection E as <- <- <- <-. now rewrite app_nil_r. }
  destruct (n_ltb _ t). { intros E J. injection E as <- <- <- <-. now rewrite app_nil_r. }
  intros E J.
  assert (K : I l (s_time s) (fst (if s_shuffle s then u_shuffle u b w else (w, b)))) by (destruct (s_shuffle s); auto).
  destruct (if s_shuffle s then u_shuffle u b w else (w, b)) as [w0 b0]. cbn [fst] in K.
  destruct (run_bucket u (s_time s) b0 _ w0) as [[[s1 w1] tr1] x1] eqn:B.
  pose proof (clock_bucket (s_time s) b0 l (set_queue s q) w0 s1 w1 tr1 x1 eq_refl B K) as R.
  destruct x1; injection E as <- <- <- <-; auto.
Qed.
Lemma clock_track sh di h w : nonneg di = true -> I [] (s_time (timed_init sh di)) w -> (forall f, ~ In (CWorld f) h) ->
  forall s' w' tr, run_hist u h (timed_init sh di) w = (s', w', tr) -> forward_trace tr -> I (acts_of a tr) (s_time s') w'.
Proof.
  intros D I0. induction h as [|c h IH] using rev_ind; intros Ho s' w' tr E F.
  { injection E as <- <- <-. exact I0. }
  rewrite run_hist_app in E. destruct (run_hist u h (timed_init sh di) w) as [[s1 w1] tr1] eqn:Q.
  destruct (run_hist u [c] s1 w1) as [[s2 w2] tr2] eqn:Q2. injection E as <- <- <-.
  pose proof (trace_clock u sh di h [c] w s1 w1 tr1 s2 w2 tr2 D Q Q2 F) as C.
  apply Forall_app in F. destruct F as [F1 F2].
  assert (J : I (acts_of a tr1) (s_time s1) w1).
  { apply IH; auto. intros f Hf. apply (Ho f). apply in_or_app. auto. }
  rewrite acts_of_app. apply (H3 _ _ _ _ C). cbn [run_hist] in Q2. destruct (run_cmd u s1 w1 c) as [[s3 w3] tr3] eqn:K. injection Q2 as <- <- <-.
  rewrite app_nil_r. destruct c; cbn [run_cmd] in K.
  - destruct (timed_step u s1 w1) as [[[s4 w4] tr4] x4] eqn:T. injection K as <- <- <-. eapply clock_step; eauto.
  - injection K as <- <- <-. cbn. now rewrite app_nil_r.
  - injection K as <- <- <-. cbn. now rewrite app_nil_r.
  - destruct (Ho f). apply in_or_app. right. now left.
Qed.
End Clock.

Section Act.
Context {AR : Arith} {V R : Type}.
Variables (v_none : V) (plan : aid -> option (num * num)) (script : aid -> nat -> list (aid * V) * option num).
Variable shuffle : list aid -> R -> R * list aid.
Notation X := (fworld unit (wworld V R) * cors (frame wpoint))%type.
Notation u := (wait_user v_none plan script shuffle).
Notation told w := (l_told (e_rest w)).
Notation done w := (l_done (e_rest w)).
Notation runs w := (l_runs (e_rest w)).

Definition plain (m : msg V) : Prop := m_exp m = None /\ m_ask m = None.
Definition boxes (w : wworld V R) : Prop := forall b, exists box, e_inbox w b = Some box /\ Forall plain box.
Definition waits (c : cors (frame wpoint)) (b : aid) : Prop := exists dl, get_co c b = Some (GSusp (FIn (WIn dl))).
Record base (x : X) : Prop := Base {
  ba_agents : forall b, fw_agents (fst x) b = FAgent (KPlain tt) true None;
  ba_cos : forall b, get_co (snd x) b = None \/ plan b <> None /\ waits (snd x) b;
  ba_boxes : boxes (fw_rest (fst x)) }.
(** Nothing of [b] has changed but perhaps what it wrote down about timeouts. *)
Record same (b : aid) (w w' : wworld V R) : Prop := Same {
  sa_box : e_inbox w' b = e_inbox w b; sa_told : told w' b = told w b; sa_done : done w' b = done w b; sa_runs : runs w' b = runs w b }.

Lemma same_refl b w : same b w w. Proof. now split. Qed.
Lemma same_trans b w1 w2 w3 : same b w1 w2 -> same b w2 w3 -> same b w1 w3.
Proof. intros [A1 A2 A3 A4] [B1 B2 B3 B4]. split; congruence. Qed.

Notation handled now i := (fun m : msg V => (now, i, m_payload m)).
Lemma loop_plain now a l : Forall plain l -> forall w : wworld V R, exists w' calls,
  process_loop v_none (on_msg_w v_none) now a l w = (w', calls, POk l) /\
  (forall b, e_inbox w' b = e_inbox w b) /\ (forall b, told w' b = told w b) /\ (forall b, runs w' b = runs w b) /\
  done w' a = done w a ++ map (handled now (runs w a)) l /\ forall b, b <> a -> done w' b = done w b.
Proof.
  induction 1 as [|m l [PE PA] F IH]; intros w; cbn [process_loop].
  { exists w, []. rewrite app_nil_r. repeat split; auto. }
  unfold expired. rewrite PE. cbn [on_msg_w run_sendings fold_left existsb]. rewrite PA.
  match goal with |- context [process_loop _ _ _ _ l ?w1] => destruct (IH w1) as (w' & calls & E & B & T & RU & D1 & D2) end.
  rewrite E. eexists w', _. split; [reflexivity|]. cbn in B, T, RU, D1, D2. split; [exact B|]. split; [exact T|]. split; [exact RU|]. split.
  - rewrite D1. unfold pushed. rewrite Nat.eqb_refl, <- app_assoc. reflexivity.
  - intros b N. rewrite D2; auto. unfold pushed. apply Nat.eqb_neq in N. now rewrite N.
Qed.

(** What an activation of an agent that waits does. *)
Inductive turned (now : num) (a : aid) (T d : num) (w : wworld V R) (co : option num) : wworld V R -> option num -> outcome -> Prop :=
| tu_wait w' dl : dl = match co with None => received_deadline now None T | Some dl => dl end -> n_ltb now dl = true -> e_inbox w a = Some [] ->
    e_inbox w' a = Some [] -> told w' a = told w a -> done w' a = done w a -> runs w' a = S (runs w a) ->
    (forall b, b <> a -> same b w w') -> turned now a T d w co w' (Some dl) (Ret (Some d))
| tu_got w' dl box : dl = match co with None => received_deadline now None T | Some dl => dl end -> n_ltb now dl = true ->
    e_inbox w a = Some box -> box <> [] ->
    e_inbox w' a = Some [] -> told w' a = told w a -> done w' a = done w a ++ map (handled now (runs w a)) box -> runs w' a = S (runs w a) ->
    (forall b, b <> a -> same b w w') -> turned now a T d w co w' None (Ret None)
| tu_out w' dl : dl = match co with None => received_deadline now None T | Some dl => dl end -> n_ltb now dl = false ->
    e_inbox w' a = e_inbox w a -> told w' a = told w a -> done w' a = done w a -> runs w' a = S (runs w a) ->
    (forall b, b <> a -> same b w w') -> turned now a T d w co w' None (Ret None).

Lemma turn now a T d w (co : option num) : boxes w ->
  exists w' co' o, turned now a T d w co w' co' o /\
  wait_turn v_none now a d match co with None => received_deadline now None T | Some dl => dl end w =
  (w', [], match o with Ret (Some d) => GYield (PNum d) (WIn (match co' with Some dl => dl | None => d end)) | _ => GReturn PNone end).
Proof.
  intros B. unfold wait_turn, received_resume. set (dl := match co with None => _ | Some _ => _ end).
  destruct (B a) as (box & E & P). destruct (n_ltb now dl) eqn:L.
  - rewrite E. destruct box as [|m box].
    + eexists _, (Some dl), (Ret (Some d)). split; [|reflexivity]. eapply tu_wait; try reflexivity; auto; cbn.
      * now rewrite Nat.eqb_refl.
      * intros b N. apply Nat.eqb_neq in N. split; cbn; rewrite ?N; auto.
    + unfold process_messages. rewrite E. destruct (loop_plain now a _ P w) as (w1 & calls & E1 & I1 & T1 & R1 & D1 & D2). rewrite E1.
      eexists _, None, (Ret None). split; [|reflexivity]. eapply tu_got; try reflexivity; eauto; cbn.
      * discriminate.
      * now rewrite Nat.eqb_refl.
      * now rewrite Nat.eqb_refl, R1.
      * intros b N. pose proof N as N2. apply Nat.eqb_neq in N. split; cbn; rewrite ?N; auto.
  - eexists _, None, (Ret None). split; [|reflexivity]. eapply tu_out; try reflexivity; auto; cbn.
    + now rewrite Nat.eqb_refl.
    + intros b N. apply Nat.eqb_neq in N. split; cbn; rewrite ?N; auto.
Qed.

Definition mine (a : aid) (l : list (aid * V)) : list V := map snd (filter (fun x => Nat.eqb (fst x) a) l).
Lemma tells now b l : forall w : wworld V R, boxes w -> let w' := fold_left (tell_one now b) l w in
  boxes w' /\ forall a, exists more, e_inbox w' a = match e_inbox w a with Some box => Some (box ++ more) | None => None end /\
  map m_payload more = mine a l /\
  told w' a = told w a ++ map (fun v => (now, runs w a, v)) (mine a l) /\ done w' a = done w a /\ runs w' a = runs w a.
Proof.
  induction l as [|[c v] l IH]; cbn zeta; intros w B; cbn [fold_left].
  { split; auto. intros a. exists []. destruct (B a) as (box & E & _). rewrite E, !app_nil_r. repeat split; auto. }
  assert (B1 : boxes (tell_one now b w (c, v))).
  { intros a. unfold tell_one, tell, append. cbn [fst snd set_rest e_inbox]. destruct (B c) as (box & E & P). rewrite E. cbn.
    destruct (Nat.eqb a c); [|apply B]. eexists. split; [reflexivity|]. apply Forall_app. split; auto. repeat constructor. }
  assert (F : forall a, e_inbox (tell_one now b w (c, v)) a = (if Nat.eqb a c then option_map (fun l => l ++ [Msg v (Some b) None None]) (e_inbox w a) else e_inbox w a) /\
     told (tell_one now b w (c, v)) a = (if Nat.eqb a c then told w a ++ [(now, runs w a, v)] else told w a) /\
     done (tell_one now b w (c, v)) a = done w a /\ runs (tell_one now b w (c, v)) a = runs w a).
  { intros a. unfold tell_one, tell, append. cbn [fst snd set_rest e_inbox]. destruct (B c) as (box & E & P). rewrite E. cbn. unfold pushed.
    destruct (Nat.eqb_spec a c) as [->|N]; rewrite ?E; auto. }
  destruct (IH _ B1) as [B2 K]. split; [exact B2|]. intros a. destruct (K a) as (more & E1 & E2 & E3 & E4 & E5).
  destruct (F a) as (F1 & F2 & F3 & F4). rewrite F1 in E1. rewrite F2, F4 in E3. rewrite F3 in E4. rewrite F4 in E5.
  destruct (B a) as (box & EB & _). rewrite EB in *.
  unfold mine in *. cbn [filter fst]. rewrite (Nat.eqb_sym c a). destruct (Nat.eqb_spec a c) as [->|N]; cbn [map snd].
  - rewrite ?Nat.eqb_refl in E1, E3. eexists (_ :: more). rewrite E1, E3. cbn [map option_map]. rewrite <- !app_assoc. cbn [app]. rewrite E2. repeat split; auto.
  - apply Nat.eqb_neq in N. rewrite ?N in E1, E3. exists more. rewrite E1, E3. repeat split; auto.
Qed.

(** What an activation does. *)
Definition co_of (c : cors (frame wpoint)) (b : aid) : option num :=
  match get_co c b with Some (GSusp (FIn (WIn dl))) => Some dl | _ => None end.
Lemma act s b (x x' : X) ops o : u_step u s b x = (x', ops, o) -> base x ->
  base x' /\ ops = [] /\ (forall a, a <> b -> co_of (snd x') a = co_of (snd x) a) /\
  match plan b with
  | Some (T, d) => turned (s_time s) b T d (fw_rest (fst x)) (co_of (snd x) b) (fw_rest (fst x')) (co_of (snd x') b) o
  | None => let '(l, d) := script b (runs (fw_rest (fst x)) b) in o = Ret d /\
      forall a, exists more, e_inbox (fw_rest (fst x')) a = match e_inbox (fw_rest (fst x)) a with Some box => Some (box ++ more) | None => None end /\
        map m_payload more = mine a l /\
        told (fw_rest (fst x')) a = told (fw_rest (fst x)) a ++ map (fun v => (s_time s, runs (fw_rest (fst x)) a, v)) (mine a l) /\
        done (fw_rest (fst x')) a = done (fw_rest (fst x)) a /\
        runs (fw_rest (fst x')) a = if Nat.eqb a b then S (runs (fw_rest (fst x)) a) else runs (fw_rest (fst x)) a
  end.
Proof.
  intros U [A C B]. destruct x as [w c]. cbn [fst snd] in *. cbn [wait_user agent_user u_step] in U.
  destruct (agent_step _ _ s b (w, c)) as [[x1 l1] o1] eqn:E. injection U as <- <- <-.
  unfold agent_step, decorated in E. cbn [fst snd] in E. destruct (plan b) as [[T d]|] eqn:PL.
  - assert (K : exists q, match q with WBegin => received_deadline (s_time s) None T | WIn dl => dl end =
                 match co_of c b with None => received_deadline (s_time s) None T | Some dl => dl end /\
               (get_co c b = None /\ q = WBegin \/ get_co c b = Some (GSusp (FIn q)))).
    { unfold co_of. destruct (C b) as [G|[_ [dl G]]]; rewrite G; [exists WBegin|exists (WIn dl)]; auto. }
    destruct K as (q & EQ & G). destruct (turn (s_time s) b T d (fw_rest w) (co_of c b) B) as (w' & co' & o & TU & E2). rewrite <- EQ in E2.
    assert (E3 : exists c' y, x1 = (FWorld (fw_agents w) w', c') /\ l1 = [] /\ o1 = o /\ (forall a, get_co c' a = if Nat.eqb a b then y else get_co c a) /\
       match co' with None => y = None | Some dl => y = Some (GSusp (FIn (WIn dl))) end).
    { destruct G as [[G ->]|G]; rewrite G in E; cbn [send step_gen] in E.
      - rewrite A in E. cbn [fa_kind] in E. unfold inside in E. cbn [wait_code c_resume c_start] in E. rewrite PL, E2 in E.
        destruct TU; cbn [run_fops fw_agents] in E; rewrite ?A in E; cbn in E; injection E as <- <- <-; do 2 eexists; (split; [reflexivity|split; [reflexivity|split; [reflexivity|split; [|reflexivity]]]]);
        intros a; rewrite !get_set_co; destruct (Nat.eqb a b); reflexivity.
      - unfold inside in E. cbn [wait_code c_resume c_start] in E. rewrite PL, E2 in E.
        destruct TU; cbn [run_fops fw_agents] in E; rewrite ?A in E; cbn in E; injection E as <- <- <-; do 2 eexists; (split; [reflexivity|split; [reflexivity|split; [reflexivity|split; [|reflexivity]]]]);
        intros a; rewrite !get_set_co; destruct (Nat.eqb a b); reflexivity. }
    destruct E3 as (c' & y & -> & -> & -> & GC & EY). cbn [fst snd fw_rest fw_agents].
    assert (CO : co_of c' b = co') by (unfold co_of; rewrite GC, Nat.eqb_refl; destruct co'; rewrite EY; reflexivity).
    split; [split|split; [reflexivity|split]]; cbn [fst snd fw_rest fw_agents].
    + exact A.
    + intros a. unfold waits. rewrite GC. destruct (Nat.eqb_spec a b) as [->|N]; [|apply C].
      destruct co'; rewrite EY; [right|left; reflexivity]. split; [congruence|eauto].
    + intros a. destruct (Nat.eq_dec a b) as [->|N].
      * destruct (B b) as (box & E5 & F5). destruct TU as [w' dl ? ? ? E4|w' dl bx ? ? ? ? E4|w' dl ? ? E4]; rewrite E4; eauto.
      * destruct (B a) as (box & E5 & F5). exists box. split; auto.
        destruct TU as [w' dl ? ? ? ? ? ? ? S1|w' dl bx ? ? ? ? ? ? ? ? S1|w' dl ? ? ? ? ? ? S1]; destruct (S1 a N) as [S2 _ _ _]; congruence.
    + intros a N. unfold co_of. rewrite GC. apply Nat.eqb_neq in N. now rewrite N.
    + rewrite CO. exact TU.
  - destruct (C b) as [G|[N _]]; [|congruence]. rewrite G in E. cbn [send step_gen] in E. rewrite A in E. cbn [fa_kind] in E.
    unfold inside in E. cbn [wait_code c_resume c_start] in E. rewrite PL in E.
    destruct (script b (runs (fw_rest w) b)) as [l d] eqn:SC.
    destruct (tells (s_time s) b l (fw_rest w) B) as [B2 K]. set (w1 := fold_left (tell_one (s_time s) b) l (fw_rest w)) in *.
    assert (E3 : exists c', x1 = (FWorld (fw_agents w) (count_run b w1), c') /\ l1 = [] /\ o1 = Ret d /\
      forall a, get_co c' a = if Nat.eqb a b then None else get_co c a).
    { destruct d; cbn [run_fops fw_agents] in E; rewrite ?A in E; cbn in E; injection E as <- <- <-; eexists; (split; [reflexivity|split; [reflexivity|split; [reflexivity|]]]);
        intros a; rewrite !get_set_co; destruct (Nat.eqb a b); reflexivity. }
    destruct E3 as (c' & -> & -> & -> & GC). cbn [fst snd fw_rest fw_agents].
    split; [split|split; [reflexivity|split; [|split; [reflexivity|]]]]; cbn [fst snd fw_rest fw_agents].
    + exact A.
    + intros a. unfold waits. rewrite GC. destruct (Nat.eqb a b); [now left|apply C].
    + exact B2.
    + intros a N. unfold co_of. rewrite GC. apply Nat.eqb_neq in N. now rewrite N.
    + intros a. destruct (K a) as (more & E1 & E2 & E4 & E5 & E6). exists more. cbn. rewrite E6. repeat split; auto.
Qed.

(** What the agents return. *)
Definition replies (b : aid) (o : outcome) : Prop :=
  match plan b with Some (_, d) => o = Ret (Some d) \/ o = Ret None | None => exists i, o = Ret (snd (script b i)) end.
Lemma act_replies s b (x x' : X) ops o : u_step u s b x = (x', ops, o) -> base x -> base x' /\ replies b o.
Proof.
  intros U Ba. destruct (act _ _ _ _ _ _ U Ba) as (B2 & _ & _ & K). split; auto. unfold replies.
  destruct (plan b) as [[T d]|]; [destruct K; auto|]. destruct (script b _) as [l d] eqn:SC. destruct K as [-> _].
  eexists. rewrite SC. reflexivity.
Qed.
Lemma base_shuffle b (x : X) : base x -> base (fst (u_shuffle u b x)).
Proof. destruct x as [w c]. intros [A C B]. cbn. destruct (shuffle b _) as [g l']. split; auto. Qed.
Lemma base_init g : base (wait_world v_none g).
Proof. split; cbn; auto. intros b. exists []. auto. Qed.
Lemma run_replies sh di h g s x tr : (forall f, ~ In (CWorld f) h) ->
  run_hist u h (timed_init sh di) (wait_world v_none g) = (s, x, tr) -> base x /\ forall t b o, In (EvAct t b o) tr -> replies b o.
Proof.
  intros Ho Q.
  assert (K : forall a, base x /\ forall t o, In (t, o) (acts_of a tr) -> replies a o).
  { intros a. set (J := fun (l : list (num * outcome)) (x : X) => base x /\ forall t o, In (t, o) l -> replies a o).
    refine (hist_track u a J _ _ h Ho [] _ _ _ _ _ Q _).
    - intros l s0 b x0 x' ops o U (O & K2). destruct (act_replies _ _ _ _ _ _ U O) as (H1 & H2). split; auto.
      destruct (Nat.eqb_spec b a) as [->|N]; auto. intros t o' I. apply in_app_or in I. destruct I as [I|[I|[]]]; eauto. injection I as <- <-. auto.
    - intros l b x0 (O & K2). split; auto. now apply base_shuffle.
    - split; [apply base_init|]. intros t o []. }
  split; [apply (K 0)|]. intros t b o I. apply (proj2 (K b) t).
  apply in_flat_map. eexists. split; [exact I|]. cbn. rewrite Nat.eqb_refl. now left.
Qed.

(** Nothing is lost. *)
Lemma wait_fifo sh di h g s x tr a : (forall f, ~ In (CWorld f) h) ->
  run_hist u h (timed_init sh di) (wait_world v_none g) = (s, x, tr) ->
  exists box, e_inbox (fw_rest (fst x)) a = Some box /\
  map text_of (told (fw_rest (fst x)) a) = map text_of (done (fw_rest (fst x)) a) ++ map m_payload box.
Proof.
  intros Ho Q.
  set (J := fun (l : list (num * outcome)) (x : X) => base x /\ exists box, e_inbox (fw_rest (fst x)) a = Some box /\
    map text_of (told (fw_rest (fst x)) a) = map text_of (done (fw_rest (fst x)) a) ++ map m_payload box).
  enough (K : J (acts_of a tr) x) by apply K.
  refine (hist_track u a J _ _ h Ho [] _ _ _ _ _ Q _).
  - intros l s0 b x0 x' ops o U (B0 & box & E1 & E2). destruct (act _ _ _ _ _ _ U B0) as (B1 & _ & _ & E). split; auto.
    destruct (plan b) as [[T d]|].
    + destruct (Nat.eq_dec a b) as [->|N].
      * destruct E as [w' dl _ _ F1 F2 F3 F4 _ _|w' dl bx _ _ F1 _ F2 F3 F4 _ _|w' dl _ _ F2 F3 F4 _ _]; rewrite F2, F3, F4; rewrite ?E1 in *.
        -- injection F1 as ->. eauto.
        -- injection F1 as ->. exists []. split; auto. cbn. rewrite app_nil_r, E2, map_app, map_map. reflexivity.
        -- eauto.
      * exists box. destruct E as [w' dl ? ? ? ? ? ? ? S1|w' dl bx ? ? ? ? ? ? ? ? S1|w' dl ? ? ? ? ? ? S1]; destruct (S1 a N) as [-> -> -> _]; auto.
    + destruct (script b _) as [l2 d2]. destruct E as [_ E]. destruct (E a) as (more & F1 & F2 & F3 & F4 & _). rewrite F1, F3, F4, E1.
      exists (box ++ more). split; auto. rewrite !map_app, E2, F2, <- app_assoc, map_map. unfold text_of. cbn. now rewrite map_id.
  - intros l b x0 (B0 & K). split; [now apply base_shuffle|]. destruct x0 as [w c]. cbn. destruct (shuffle b _) as [g' l']. exact K.
  - split; [apply base_init|]. exists []. auto.
Qed.

(** The life of one agent that waits. *)
Section One.
Variables (a : aid) (T d : num).
Hypothesis PL : plan a = Some (T, d).
Notation log := (list (num * outcome)).
(** The activation number [i] timed out, after a wait. *)
Definition missed (l : log) (i : nat) : Prop :=
  exists i' t t', i = S i' /\ nth_error l i' = Some (t, Ret (Some d)) /\ nth_error l i = Some (t', Ret None).
Record good (l : log) (now : num) (x : X) : Prop := Good {
  g_base : base x;
  g_now : is_time now = true;
  g_runs : runs (fw_rest (fst x)) a = List.length l;
  g_box : exists box, e_inbox (fw_rest (fst x)) a = Some box /\
    map text_of (told (fw_rest (fst x)) a) = map text_of (done (fw_rest (fst x)) a) ++ map m_payload box;
  g_past : forall i t o, nth_error l i = Some (t, o) -> n_leb t now = true;
  g_told : forall k e, nth_error (told (fw_rest (fst x)) a) k = Some e -> turn_of e <= List.length l /\ n_leb (when_of e) now = true /\
    (forall i t o, turn_of e = S i -> nth_error l i = Some (t, o) -> n_leb t (when_of e) = true) /\
    (forall t o, nth_error l (turn_of e) = Some (t, o) -> n_leb (when_of e) t = true);
  g_co : forall dl, co_of (snd x) a = Some dl -> exists l0 t, l = l0 ++ [(t, Ret (Some d))];
  g_done : forall k e f, nth_error (told (fw_rest (fst x)) a) k = Some e -> nth_error (done (fw_rest (fst x)) a) k = Some f ->
    (turn_of f = turn_of e \/ turn_of f = S (turn_of e) /\ missed l (turn_of e)) /\
    exists o, nth_error l (turn_of f) = Some (when_of f, o);
  g_pend : forall k e, List.length (done (fw_rest (fst x)) a) <= k -> nth_error (told (fw_rest (fst x)) a) k = Some e ->
    List.length l = turn_of e \/ List.length l = S (turn_of e) /\ co_of (snd x) a = None /\ missed l (turn_of e) }.

Lemma nth_more {A} (l : list A) i x y : nth_error l i = Some x -> nth_error (l ++ [y]) i = Some x.
Proof. intros H. rewrite nth_error_app1; auto. apply nth_error_Some. congruence. Qed.
Lemma nth_new {A} (l : list A) y : nth_error (l ++ [y]) (List.length l) = Some y.
Proof. rewrite nth_error_app2, Nat.sub_diag; auto. Qed.
Lemma nth_snoc {A} (l : list A) i x y : nth_error (l ++ [y]) i = Some x -> nth_error l i = Some x \/ i = List.length l /\ x = y.
Proof.
  intros H. destruct (Nat.lt_ge_cases i (List.length l)) as [L|L]; [rewrite nth_error_app1 in H; auto|].
  rewrite nth_error_app2 in H by auto. destruct (i - List.length l) as [|k] eqn:E; [|destruct k; discriminate]. injection H as <-. right. split; auto. lia.
Qed.
Lemma missed_more l i y : missed l i -> missed (l ++ [y]) i.
Proof. intros (i' & t & t' & -> & A & B). exists i', t, t'. auto using nth_more. Qed.

(** Nothing of the agent changes. *)
Lemma good_same l now x x' : good l now x -> base x' -> same a (fw_rest (fst x)) (fw_rest (fst x')) -> co_of (snd x') a = co_of (snd x) a -> good l now x'.
Proof. intros [G1 G2 G3 G4 G5 G6 G7 G8 G9] B [S1 S2 S3 S4] C. split; auto; rewrite ?S1, ?S2, ?S3, ?S4, ?C; auto. Qed.
Lemma good_later l t t' x : n_leb t t' = true -> good l t x -> good l t' x.
Proof.
  intros L [G1 G2 G3 G4 G5 G6 G7 G8 G9]. split; auto.
  - eapply n_leb_is_time; eauto.
  - intros i t1 o H. eapply n_leb_trans; eauto.
  - intros k e H. destruct (G6 k e H) as (A & B & C & D). repeat split; auto. eapply n_leb_trans; eauto.
Qed.

(** It is told something. *)
Lemma good_told l now x x' vs more : good l now x -> base x' -> co_of (snd x') a = co_of (snd x) a ->
  e_inbox (fw_rest (fst x')) a = match e_inbox (fw_rest (fst x)) a with Some box => Some (box ++ more) | None => None end ->
  map m_payload more = vs ->
  told (fw_rest (fst x')) a = told (fw_rest (fst x)) a ++ map (fun v => (now, runs (fw_rest (fst x)) a, v)) vs ->
  done (fw_rest (fst x')) a = done (fw_rest (fst x)) a -> runs (fw_rest (fst x')) a = runs (fw_rest (fst x)) a -> good l now x'.
Proof.
  intros [G1 G2 G3 G4 G5 G6 G7 G8 G9] B C EI EM ET ED ER.
  assert (NEW : forall k e, nth_error (told (fw_rest (fst x')) a) k = Some e ->
    nth_error (told (fw_rest (fst x)) a) k = Some e \/ List.length (told (fw_rest (fst x)) a) <= k /\ when_of e = now /\ turn_of e = List.length l).
  { intros k e H. rewrite ET in H. destruct (Nat.lt_ge_cases k (List.length (told (fw_rest (fst x)) a))) as [L|L].
    - rewrite nth_error_app1 in H; auto.
    - right. split; auto. rewrite nth_error_app2 in H by auto. apply nth_error_In, in_map_iff in H. destruct H as (v & <- & _).
      unfold when_of, turn_of. cbn. auto. }
  assert (LE : List.length (done (fw_rest (fst x)) a) <= List.length (told (fw_rest (fst x)) a)).
  { destruct G4 as (box & _ & H). apply (f_equal (@List.length _)) in H. rewrite app_length, !map_length in H. lia. }
  split; auto.
  - congruence.
  - destruct G4 as (box & E1 & E2). rewrite E1 in EI. exists (box ++ more). split; auto. rewrite ET, ED, !map_app, E2, EM, <- app_assoc. do 2 f_equal.
    rewrite map_map. unfold text_of. cbn. now rewrite map_id.
  - intros k e H. destruct (NEW k e H) as [O|(_ & W & K)]; [rewrite ?ER; exact (G6 k e O)|]. rewrite W, K. split; auto. split; [now apply n_leb_refl|]. split.
    + intros i t o _ N. eauto.
    + intros t o N. exfalso. assert (List.length l < List.length l) by (apply nth_error_Some; congruence). lia.
  - intros dl H. rewrite C in H. eauto.
  - intros k e f H1 H2. rewrite ED in H2. destruct (NEW k e H1) as [O|(L & _)]; [eauto|]. exfalso.
    assert (k < List.length (done (fw_rest (fst x)) a)) by (apply nth_error_Some; congruence). lia.
  - intros k e H1 H2. rewrite ED in H1. rewrite C. destruct (NEW k e H2) as [O|(_ & _ & K)]; [eauto|]. left. congruence.
Qed.

(** It is activated. *)
Lemma good_turn l now x x' o : good l now x -> base x' -> n_ltb now (n_add now T) = true ->
  turned now a T d (fw_rest (fst x)) (co_of (snd x) a) (fw_rest (fst x')) (co_of (snd x') a) o -> good (l ++ [(now, o)]) now x'.
Proof.
  intros [G1 G2 G3 G4 G5 G6 G7 G8 G9] B LT TU.
  assert (PAST : forall i t o', nth_error (l ++ [(now, o)]) i = Some (t, o') -> n_leb t now = true).
  { intros i t o' H. destruct (nth_snoc _ _ _ _ H) as [H'|[_ E]]; [eauto|]. injection E as -> ->. now apply n_leb_refl. }
  assert (TOLD : forall k e, nth_error (told (fw_rest (fst x)) a) k = Some e -> turn_of e <= List.length (l ++ [(now, o)]) /\ n_leb (when_of e) now = true /\
    (forall i t o', turn_of e = S i -> nth_error (l ++ [(now, o)]) i = Some (t, o') -> n_leb t (when_of e) = true) /\
    (forall t o', nth_error (l ++ [(now, o)]) (turn_of e) = Some (t, o') -> n_leb (when_of e) t = true)).
  { intros k e H. destruct (G6 k e H) as (A1 & A2 & A3 & A4). rewrite app_length. cbn [List.length]. split; [lia|]. split; auto. split.
    - intros i t o' E N. destruct (nth_snoc _ _ _ _ N) as [N'|[N' _]]; [eauto|]. lia.
    - intros t o' N. destruct (nth_snoc _ _ _ _ N) as [N'|[N' E]]; [eauto|]. injection E as -> _. auto. }
  assert (DONE : forall k e f, nth_error (told (fw_rest (fst x)) a) k = Some e -> nth_error (done (fw_rest (fst x)) a) k = Some f ->
    (turn_of f = turn_of e \/ turn_of f = S (turn_of e) /\ missed (l ++ [(now, o)]) (turn_of e)) /\
    exists o', nth_error (l ++ [(now, o)]) (turn_of f) = Some (when_of f, o')).
  { intros k e f H1 H2. destruct (G8 k e f H1 H2) as [[A|[A1 A2]] [o' A3]]; (split; [auto using missed_more|exists o'; now apply nth_more]). }
  destruct G4 as (box0 & EB & EQ). remember (fw_rest (fst x')) as wx eqn:EW. remember (co_of (snd x') a) as cx eqn:EC.
  destruct TU as [w' dl E1 E2 E3 E4 E5 E6 E7 _|w' dl box E1 E2 E3 E4 E5 E6 E7 E8 _|w' dl E1 E2 E3 E4 E5 E6 _].
  - rewrite EB in E3. injection E3 as ->. cbn in EQ. rewrite app_nil_r in EQ.
    assert (LE : List.length (done (fw_rest (fst x)) a) = List.length (told (fw_rest (fst x)) a)).
    { apply (f_equal (@List.length _)) in EQ. rewrite !map_length in EQ. auto. }
    split; auto; rewrite <- ?EW, <- ?EC; rewrite ?E5, ?E6; auto.
    + rewrite E7, app_length, G3. cbn. lia.
    + exists []. cbn. rewrite app_nil_r. auto.
    + intros dl' _. eauto.
    + intros k e H1 H2. exfalso. assert (k < List.length (told (fw_rest (fst x)) a)) by (apply nth_error_Some; congruence). lia.
  - rewrite EB in E3. injection E3 as ->.
    assert (LE : List.length (told (fw_rest (fst x)) a) = List.length (done (fw_rest (fst x)) a) + List.length box).
    { apply (f_equal (@List.length _)) in EQ. rewrite app_length, !map_length in EQ. auto. }
    split; auto; rewrite <- ?EW, <- ?EC; rewrite ?E6, ?E7; auto.
    + rewrite E8, app_length, G3. cbn. lia.
    + exists []. split; auto. cbn. rewrite app_nil_r, EQ, map_app, map_map. reflexivity.
    + intros dl' H. discriminate.
    + intros k e f H1 H2. destruct (Nat.lt_ge_cases k (List.length (done (fw_rest (fst x)) a))) as [L|L]; [rewrite nth_error_app1 in H2; eauto|].
      rewrite nth_error_app2 in H2 by auto. apply nth_error_In, in_map_iff in H2. destruct H2 as (m & <- & _).
      assert (TF : forall i (v : V), turn_of (now, i, v) = i) by reflexivity. assert (WF : forall i (v : V), when_of (now, i, v) = now) by reflexivity.
      rewrite !TF, !WF, G3, nth_new. split; [|eauto].
      destruct (G9 k e L H1) as [P|(P1 & P2 & P3)]; auto. right. split; [lia|]. now apply missed_more.
    + intros k e H1 H2. exfalso. assert (k < List.length (told (fw_rest (fst x)) a)) by (apply nth_error_Some; congruence).
      rewrite app_length, map_length in H1. lia.
  - destruct (co_of (snd x) a) as [dl0|] eqn:CO.
    2:{ subst dl. unfold received_deadline, or_num in E2. congruence. }
    destruct (G7 dl0 eq_refl) as (l0 & t0 & EL).
    split; auto; rewrite <- ?EW, <- ?EC; rewrite ?E3, ?E4, ?E5; auto.
    + rewrite E6, app_length, G3. cbn. lia.
    + exists box0. auto.
    + intros dl' H. discriminate.
    + intros k e H1 H2. destruct (G9 k e H1 H2) as [P|(_ & P & _)]; [|discriminate]. right.
      rewrite app_length. cbn [List.length]. split; [lia|]. split; auto. rewrite <- P. exists (List.length l0), t0, now.
      split; [rewrite EL, app_length; cbn; lia|]. split; [|apply nth_new]. apply nth_more. rewrite EL. apply nth_new.
Qed.

Lemma wait_track sh di h g s x tr : nonneg di = true -> (forall f, ~ In (CWorld f) h) ->
  run_hist u h (timed_init sh di) (wait_world v_none g) = (s, x, tr) -> forward_trace tr ->
  (forall t, In t (instants a tr) -> n_ltb t (n_add t T) = true) -> good (acts_of a tr) (s_time s) x.
Proof.
  intros D Ho Q F LT.
  set (J := fun (l : log) (now : num) (x : X) => base x /\ ((exists t o, In (t, o) l /\ n_ltb t (n_add t T) = false) \/ good l now x)).
  assert (K : J (acts_of a tr) (s_time s) x).
  { refine (clock_track u a J _ _ _ sh di h _ D _ Ho _ _ _ Q F).
    - intros l s0 b x0 x' ops o U (B0 & K). destruct (act _ _ _ _ _ _ U B0) as (B1 & _ & C1 & E). split; auto.
      destruct K as [(t & o' & I & N)|G].
      { left. exists t, o'. split; auto. destruct (Nat.eqb b a); auto using in_or_app. }
      destruct (Nat.eqb_spec b a) as [->|N].
      + rewrite PL in E. destruct (n_ltb (s_time s0) (n_add (s_time s0) T)) eqn:L.
        * right. eapply good_turn; eauto.
        * left. exists (s_time s0), o. split; auto. apply in_or_app. right. now left.
      + right. apply not_eq_sym in N. specialize (C1 a N). destruct (plan b) as [[T2 d2]|].
        * eapply good_same; eauto.
          destruct E as [w' dl ? ? ? ? ? ? ? S1|w' dl bx ? ? ? ? ? ? ? ? S1|w' dl ? ? ? ? ? ? S1]; apply (S1 a N).
        * destruct (script b _) as [l2 d2]. destruct E as [_ E]. destruct (E a) as (more & E1 & E2 & E3 & E4 & E5).
          apply Nat.eqb_neq in N. rewrite N in E5. eapply good_told; eauto.
    - intros l t b x0 (B0 & K). split; [now apply base_shuffle|]. destruct K as [K|G]; [now left|right]. eapply good_same; eauto; [now apply base_shuffle|..].
      + destruct x0 as [w c]. cbn. destruct (shuffle b _) as [g' l']. split; reflexivity.
      + destruct x0 as [w c]. cbn. destruct (shuffle b _) as [g' l']. reflexivity.
    - intros l t t' x0 L (B0 & K). split; auto. destruct K as [K|G]; [now left|right]. eapply good_later; eauto.
    - split; [apply base_init|]. right. split; cbn; auto; try (now intros [|?] ? ?); try (now intros [|?] ? ? ?).
      + apply base_init.
      + exists []. auto.
      + discriminate. }
  destruct K as [_ [(t & o & I & N)|G]]; auto. exfalso. rewrite LT in N; [discriminate|]. rewrite instants_acts. apply in_map_iff. exists (t, o). auto.
Qed.
End One.
End Act.

(** Exact arithmetic. *)
Section Times.
#[local] Existing Instance exact.
Local Open Scope Z_scope.
Lemma dates (d di : Z) a due rest pend : 0 < d -> timetable (Fin di) a due rest pend -> forall z, due = Fin z ->
  (forall t o, In (t, o) (acts_of a rest) -> o = Ret (Some (Fin d)) \/ o = Ret None) ->
  exists f : nat -> Z, f O = z /\ pend = Some (Fin (f (List.length (acts_of a rest)))) /\
    forall i t o, nth_error (acts_of a rest) i = Some (t, o) -> t = Fin (f i) /\ f (S i) = f i + match o with Ret (Some _) => d | _ => di end.
Proof.
  intros D TT. induction TT as [due|due o N|due o due' rest pend N TT IH]; intros z -> H.
  - exists (fun _ => z). cbn. repeat split; auto; destruct i; discriminate.
  - exfalso. cbn in H. rewrite Nat.eqb_refl in H. destruct (H _ _ (or_introl eq_refl)) as [->| ->]; cbn in N; [|discriminate].
    destruct (Z.eqb d 0); discriminate.
  - assert (O : o = Ret (Some (Fin d)) \/ o = Ret None).
    { apply (H (Fin z)). cbn. rewrite Nat.eqb_refl. now left. }
    assert (E : due' = Fin (z + match o with Ret (Some _) => d | _ => di end)).
    { destruct O as [->| ->]; cbn in N.
      - destruct (Z.eqb_spec d 0); [lia|]. injection N as <-. f_equal; lia.
      - injection N as <-. f_equal; lia. }
    destruct (IH _ E) as (f & F1 & F2 & F3).
    { intros t o' I. apply (H t). cbn. rewrite Nat.eqb_refl. now right. }
    exists (fun i => match i with O => z | S i => f i end). cbn [acts_of flat_map]. fold (acts_of a rest). rewrite Nat.eqb_refl. cbn [app List.length].
    split; [reflexivity|]. split; [exact F2|]. intros [|i] t o' I; cbn [nth_error] in I; [|auto]. injection I as <- <-. rewrite F1. auto.
Qed.

Lemma leb_fin x y : n_leb (Fin x) (Fin y) = true <-> x <= y.
Proof.
  unfold n_leb. cbn. rewrite orb_true_iff, Z.ltb_lt, Z.eqb_eq. lia.
Qed.
Lemma between x y t : n_leb (Fin x) t = true -> n_leb t (Fin y) = true -> exists z, t = Fin z /\ x <= z <= y.
Proof. intros A B. destruct t; try discriminate. apply leb_fin in A, B. eauto. Qed.
Lemma fin_leb x y : x <= y -> n_leb (Fin x) (Fin y) = true.
Proof. apply leb_fin. Qed.

Section Life.
Context {V R : Type}.
Variables (v_none : V) (plan : aid -> option (num * num)) (script : aid -> nat -> list (aid * V) * option num).
Variable shuffle : list aid -> R -> R * list aid.
Notation u := (wait_user v_none plan script shuffle).
(** Nobody goes back in time. *)
Definition onward : Prop :=
  (forall b T d, plan b = Some (T, d) -> nonneg d = true) /\ forall b i d, snd (script b i) = Some d -> nonneg d = true.

Lemma wait_life sh di h g s w c tr a t0 T d :
  (forall l g, Permutation l (snd (shuffle l g))) -> (forall f, ~ In (CWorld f) h) -> 0 <= di -> onward ->
  run_hist u h (timed_init sh (Fin di)) (wait_world v_none g) = (s, (w, c), tr) ->
  adds_of a tr = 1%nat -> In (EvAdd (Fin t0) a) tr -> plan a = Some (Fin T, Fin d) -> 0 < T -> 0 < d ->
  let told := l_told (e_rest (fw_rest w)) a in
  let done := l_done (e_rest (fw_rest w)) a in
  (exists box, e_inbox (fw_rest w) a = Some box /\ map text_of told = map text_of done ++ map m_payload box) /\
  (forall k e f, nth_error told k = Some e -> nth_error done k = Some f ->
     in_turn (acts_of a tr) (turn_of e) (turn_of f) /\ nth_error (instants a tr) (turn_of f) = Some (when_of f) /\
     n_leb (when_of e) (when_of f) = true /\ n_leb (when_of f) (handled_by t0 d di (turn_of e) (when_of e)) = true) /\
  (forall k e, (List.length done <= k)%nat -> nth_error told k = Some e ->
     n_leb (s_time s) (handled_by t0 d di (turn_of e) (when_of e)) = true).
Proof.
  intros P Ho DI [ON1 ON2] Q A IA PA TP DP. cbn zeta.
  destruct (run_replies v_none plan script shuffle sh _ h g s _ tr Ho Q) as [_ RP].
  assert (NE : no_exc tr).
  { apply forallb_forall. intros e I. destruct e as [|t b o]; auto. apply RP in I. unfold replies in I.
    destruct (plan b) as [[T2 d2]|]; [destruct I as [->| ->]; reflexivity|]. destruct I as [i ->]. reflexivity. }
  assert (F : forward_trace tr).
  { apply Forall_forall. intros e I. destruct e as [|t b o]; [exact Logic.I|]. apply RP in I. unfold replies in I.
    destruct (plan b) as [[T2 d2]|] eqn:PB; [destruct I as [->| ->]; cbn; eauto|]. destruct I as [i ->]. cbn.
    destruct (snd (script b i)) eqn:SB; cbn; eauto. }
  assert (FS : sh = true -> fair_shuffle u).
  { intros _ l [w0 c0]. cbn. specialize (P l (l_rng (e_rest (fw_rest w0)))). destruct (shuffle l (l_rng (e_rest (fw_rest w0)))). exact P. }
  pose proof (nonneg_fin di DI) as DN.
  destruct (trace_wakeup _ _ _ _ _ _ _ _ _ FS DN Q NE F A) as (t1 & rest & pend & FI & TT & PE).
  assert (T1 : t1 = Fin t0).
  { assert (J : In (EvAdd (Fin t0) a) (filter (about a) tr)) by (apply filter_In; cbn; rewrite Nat.eqb_refl; auto).
    assert (L : filter (is_add_of a) (filter (about a) tr) = filter (is_add_of a) tr).
    { clear. induction tr as [|[t b|t b o] tr IH]; cbn; auto; destruct (Nat.eqb a b) eqn:E; cbn; rewrite ?E, ?IH; auto. }
    unfold adds_of in A. rewrite <- L, FI in A. cbn in A. rewrite Nat.eqb_refl in A. cbn in A. injection A as A.
    rewrite FI in J. destruct J as [J|J]; [now injection J|].
    assert (J2 : In (EvAdd (Fin t0) a) (filter (is_add_of a) rest)) by (apply filter_In; cbn; rewrite Nat.eqb_refl; auto).
    destruct (filter (is_add_of a) rest); [contradiction|discriminate]. }
  subst t1. assert (AC : acts_of a tr = acts_of a rest) by (rewrite acts_of_about, FI; reflexivity).
  assert (RA : forall t o, In (t, o) (acts_of a tr) -> o = Ret (Some (Fin d)) \/ o = Ret None).
  { intros t o I. apply in_flat_map in I. destruct I as ([|t2 b o2] & I1 & I2); [destruct I2|]. cbn in I2.
    destruct (Nat.eqb_spec b a) as [->|N]; [|destruct I2]. destruct I2 as [I2|[]]. injection I2 as -> ->. apply RP in I1. unfold replies in I1. now rewrite PA in I1. }
  rewrite AC in RA. destruct (dates d di a _ _ _ DP TT t0 eq_refl RA) as (f & F0 & FP & FN). rewrite <- AC in *. subst pend.
  assert (G : good plan a (Fin d) (acts_of a tr) (s_time s) (w, c)).
  { refine (wait_track v_none plan script shuffle a (Fin T) (Fin d) PA sh _ h g s _ tr DN Ho Q F _). intros t I. rewrite instants_acts in I.
    apply in_map_iff in I. destruct I as ([t' o] & <- & I). apply In_nth_error in I. destruct I as [i I]. apply FN in I. destruct I as [-> _].
    cbn. apply Z.ltb_lt. lia. }
  destruct G as [G1 G2 G3 G4 G5 G6 G7 G8 G9]. cbn [fst snd] in *.
  set (l := acts_of a tr) in *.
  assert (GAP : forall i t o, nth_error l i = Some (t, o) -> f i <= f (S i) <= f i + Z.max d di).
  { intros i t o N. destruct (FN _ _ _ N) as [_ E]. destruct o as [[?|]| |]; lia. }
  split; [exact G4|]. split.
  - intros k e fe E1 E2. destruct (G6 _ _ E1) as (B1 & B2 & B3 & B4). destruct (G8 _ _ _ E1 E2) as [C1 [o C2]].
    assert (NI : nth_error (instants a tr) (turn_of fe) = Some (when_of fe)) by (rewrite instants_acts; fold l; rewrite nth_error_map, C2; reflexivity).
    destruct (FN _ _ _ C2) as [WF _].
    assert (IT : in_turn l (turn_of e) (turn_of fe)).
    { destruct C1 as [C1|[C1 (i' & t & t' & M1 & M2 & M3)]]; [now left|right]. split; auto. exists i', t, (Fin d), t'. auto. }
    split; auto. split; auto. destruct C1 as [C1|[C1 (i' & t & t' & M1 & M2 & M3)]].
    + rewrite C1 in C2. pose proof (B4 _ _ C2) as LE. rewrite WF, C1 in *. split; auto. destruct (turn_of e) as [|i] eqn:TE; cbn [handled_by].
      * rewrite F0. apply fin_leb. lia.
      * destruct (nth_error l i) as [[ti oi]|] eqn:NN.
        2:{ apply nth_error_None in NN. assert (S i < List.length l)%nat by (apply nth_error_Some; congruence). lia. }
        pose proof (B3 i _ _ eq_refl NN) as GE. destruct (FN _ _ _ NN) as [-> _]. pose proof (GAP _ _ _ NN) as GP.
        destruct (between _ _ _ GE LE) as (z & -> & Z1). apply fin_leb. lia.
    + pose proof (B4 _ _ M3) as LE. pose proof (B3 _ _ _ M1 M2) as GE. destruct (FN _ _ _ M2) as [-> E5]. destruct (FN _ _ _ M3) as [-> E6].
      rewrite M1 in E6, LE. destruct (between _ _ _ GE LE) as (z & WE & Z1). rewrite WF, WE, C1, M1. cbn [handled_by].
      split; apply fin_leb; lia.
  - intros k e K1 K2. destruct (G6 _ _ K2) as (B1 & B2 & B3 & B4).
    destruct (G9 _ _ K1 K2) as [L|(L & _ & (i' & t & t' & M1 & M2 & M3))].
    + rewrite L in PE. destruct (turn_of e) as [|i] eqn:TE; cbn [handled_by]; [now rewrite F0 in PE|].
      destruct (nth_error l i) as [[ti oi]|] eqn:NN; [|apply nth_error_None in NN; lia].
      pose proof (B3 i _ _ eq_refl NN) as GE. destruct (FN _ _ _ NN) as [-> _]. pose proof (GAP _ _ _ NN) as GP.
      pose proof (n_leb_trans _ _ _ B2 PE) as LE. destruct (between _ _ _ GE LE) as (z & -> & Z1).
      refine (n_leb_trans _ _ _ PE (fin_leb _ _ _)). lia.
    + rewrite L in PE. pose proof (B4 _ _ M3) as LE. pose proof (B3 _ _ _ M1 M2) as GE. destruct (FN _ _ _ M2) as [-> E5]. destruct (FN _ _ _ M3) as [-> E6].
      rewrite M1 in E6, LE, PE. destruct (between _ _ _ GE LE) as (z & WE & Z1). rewrite WE, M1. cbn [handled_by].
      refine (n_leb_trans _ _ _ PE (fin_leb _ _ _)). lia.
Qed.
End Life.
End Times.
