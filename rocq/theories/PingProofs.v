(** Proofs about agents that send messages to one another at each step. *)
From Coq Require Import ZArith List Bool Arith Lia Permutation.
From Verif Require Import Num PyDict TimedModel TimedProofs AgentModel FsmModel EventModel NoopModel NoopSpec NoopProofs RoundProofs PingModel.
Import ListNotations.
Local Open Scope nat_scope.

(** Agents that always come back after the same delay: each step activates all of them, in some order. *)
Section Forever.
Context {AR : Arith} {W : Type}.
Variable u : user W.
Variables di d : num.
Variable reg : list aid.
Variable sh : bool.
(** Before step [k], whose bucket is [l]; and within it. *)
Variable K : nat -> list aid -> W -> Prop.
Variable J : nat -> list aid -> list aid -> W -> Prop.
Hypothesis HB : forall k l w w' l', K k l w -> (if sh then u_shuffle u l w else (w, l)) = (w', l') -> J k [] l' w' /\ List.length l' = List.length l.
Hypothesis HS : forall k s done a todo w w' ops o, s_reg s = reg -> s_time s = tick d k -> n_ltb (tick d k) PInf = true -> J k done (a :: todo) w -> u_step u s a w = (w', ops, o) ->
  J k (done ++ [a]) todo w' /\ ops = [] /\ exists r, o = Ret r /\ or_num r di = d.
Hypothesis HE : forall k l w, J k l [] w -> K (S k) l w.

Lemma bucket_forever k now when : now = tick d k -> n_ltb (tick d k) PInf = true -> n_add d now = when -> n_truthy when = true -> n_eqb when when = true -> n_eqb when PInf = false ->
  forall todo s w done, s_reg s = reg -> s_time s = now -> s_di s = di -> s_queue s = single when done -> J k done todo w ->
  exists w' tr, run_bucket u now todo s w = (set_queue s (single when (done ++ todo)), w', tr, false) /\ J k (done ++ todo) [] w'.
Proof.
  intros TK FT A T R NP. induction todo as [|a todo IH]; intros s w done RG TM D Q HJ; cbn [run_bucket].
  - exists w, []. rewrite app_nil_r, <- Q. split; [now destruct s|exact HJ].
  - destruct (u_step u s a w) as [[w1 ops] o] eqn:E1. destruct (HS k s done a todo w w1 ops o RG ltac:(congruence) FT HJ E1) as (J1 & -> & r & -> & OR).
    cbn [run_ops app]. rewrite D, OR, A, NP. cbn [negb].
    assert (Q2 : s_queue (timed_schedule s a (Some when)) = single when (done ++ [a])).
    { unfold timed_schedule. cbn [set_queue s_queue or_num]. rewrite T, Q. destruct done as [|c done]; [reflexivity|].
      cbn [single insert_bucket fst snd]. rewrite R. reflexivity. }
    destruct (IH (timed_schedule s a (Some when)) w1 (done ++ [a])%list RG TM D Q2 J1) as (w2 & tr2 & E2 & J2).
    rewrite E2. rewrite <- app_assoc in *. exists w2, (EvAct now a (Ret r) :: tr2). split; [reflexivity|exact J2].
Qed.

Lemma step_forever k n : ticks d n -> k < n -> forall l w st, l <> [] -> K k l w ->
  exists w' l' tr, timed_step u (Sched (tick d k) st [(tick d k, l)] reg sh di) w =
    (Sched (tick d (S k)) (S st) [(tick d (S k), l')] reg sh di, w', tr, false) /\ K (S k) l' w' /\ l' <> [].
Proof.
  intros T L l w st NE HK. destruct (tick_good NStep d d n k T L) as (T1 & T2 & T3 & T4). cbn [pause] in *.
  unfold timed_step. cbn [s_queue s_time s_shuffle]. rewrite n_ltb_irrefl.
  destruct (if sh then u_shuffle u l w else (w, l)) as [w0 l0] eqn:E0. destruct (HB k l w w0 l0 HK E0) as (J0 & LL).
  set (s0 := set_queue (Sched (tick d k) st [(tick d k, l)] reg sh di) []).
  assert (FT : n_ltb (tick d k) PInf = true) by (destruct k; [reflexivity|apply (T k); lia]).
  destruct (bucket_forever k (tick d k) (n_add d (tick d k)) eq_refl FT eq_refl T1 T2 T3 l0 s0 w0 [] eq_refl eq_refl eq_refl eq_refl J0) as (w1 & tr & E1 & J1).
  rewrite E1. cbn [app] in *. assert (NE0 : l0 <> []) by (intros ->; destruct l; [now apply NE|discriminate LL]).
  exists w1, l0, tr. split; [|split; [now apply HE|exact NE0]].
  subst s0. destruct l0 as [|b l0]; [now destruct NE0|]. reflexivity.
Qed.

Lemma forever n : ticks d n -> forall j k l w st, k + j = n -> l <> [] -> K k l w ->
  exists w' l' tr, run_hist u (repeat CStep j) (Sched (tick d k) st [(tick d k, l)] reg sh di) w =
    (Sched (tick d n) (j + st) [(tick d n, l')] reg sh di, w', tr) /\ K n l' w'.
Proof.
  intros T. induction j as [|j IH]; intros k l w st E NE HK.
  - cbn. replace n with k by lia. exists w, l, []. auto.
  - cbn [repeat run_hist run_cmd]. destruct (step_forever k n T ltac:(lia) l w st NE HK) as (w1 & l1 & tr1 & E1 & K1 & NE1). rewrite E1.
    destruct (IH (S k) l1 w1 (S st) ltac:(lia) NE1 K1) as (w2 & l2 & tr2 & E2 & K2). rewrite E2. exists w2, l2, (tr1 ++ tr2)%list.
    split; [|exact K2]. f_equal. f_equal. f_equal. lia.
Qed.
Lemma forever_start n N w : reg = seq 0 N -> 0 < N -> ticks d n -> K 0 (seq 0 N) w ->
  exists s' w' l' tr, run_hist u (with_agents N n) (timed_init sh di) w = (s', w', tr) /\
    s_time s' = tick d n /\ s_steps s' = n /\ s_reg s' = seq 0 N /\ K n l' w'.
Proof.
  intros RG P T HK. unfold with_agents. rewrite run_hist_app, start_single by apply seq_NoDup. rewrite <- RG.
  assert (Q : single (Fin 0) reg = [(tick d 0, seq 0 N)]) by (rewrite RG; destruct N; [lia|reflexivity]). rewrite Q.
  assert (NE : seq 0 N <> []) by (destruct N; [lia|discriminate]).
  destruct (forever n T n 0 (seq 0 N) w 0 eq_refl NE HK) as (w' & l' & tr & E & KE). cbn [tick] in *. rewrite Nat.add_0_r in E.
  do 4 eexists. split; [|split; [|split; [|split; [|exact KE]]]].
  1:{ etransitivity; [apply (f_equal (fun x => let '(s2, w2, t2) := x in (s2, w2, map (EvAdd (Fin 0)) reg ++ t2)%list) E)|]. reflexivity. }
  all: reflexivity.
Qed.
End Forever.

(** * Everybody broadcasts once *)
Section Broadcast.
Context {AR : Arith} {R : Type}.
Definition plain (m : msg unit) : Prop := m_exp m = None /\ m_ask m = None.

Lemma bcast_loop now a l : Forall plain l -> forall w : bworld (R := R), exists w' calls, process_loop tt on_ping now a l w = (w', calls, POk l) /\ e_inbox w' = e_inbox w /\
  forall b, p_received (e_rest w') b = p_received (e_rest w) b + if Nat.eqb b a then List.length l else 0.
Proof.
  induction 1 as [|m l [M1 M2] F IH]; intros w.
  - exists w, []. split; [reflexivity|]. split; [reflexivity|]. intros b. cbn. destruct (Nat.eqb b a); lia.
  - cbn [process_loop]. unfold expired. rewrite M1. unfold on_ping. cbn [run_sendings fold_left existsb]. rewrite M2.
    match goal with |- context [process_loop _ _ _ _ l ?x] => destruct (IH x) as (w' & calls & E & I & P) end.
    unfold on_ping in E. rewrite E. exists w', ((m, Some tt) :: calls). split; [reflexivity|]. split; [exact I|].
    intros b. rewrite P. cbn. destruct (Nat.eqb b a); lia.
Qed.
Lemma broadcast_all now l : forall w : bworld (R := R), NoDup l -> (forall b, e_inbox w b <> None) ->
  let w' := broadcast now l tt None None None w in e_rest w' = e_rest w /\
  forall b, e_inbox w' b = if existsb (Nat.eqb b) l then option_map (fun i => i ++ [Msg tt None None None])%list (e_inbox w b) else e_inbox w b.
Proof.
  induction l as [|a l IH]; intros w N H; [cbn; auto|]. apply NoDup_cons_iff in N as [N1 N2]. cbn [broadcast expiration_of].
  set (w1 := append w a (Msg tt None None None)).
  assert (I1 : forall b, e_inbox w1 b = if Nat.eqb b a then option_map (fun i => i ++ [Msg tt None None None])%list (e_inbox w b) else e_inbox w b).
  { intros b. subst w1. unfold append. destruct (e_inbox w a) as [i|] eqn:E; [|now destruct (H a)].
    cbn. destruct (Nat.eqb b a) eqn:B; [|reflexivity]. apply Nat.eqb_eq in B. subst b. now rewrite E. }
  assert (R1 : e_rest w1 = e_rest w) by (subst w1; unfold append; now destruct (e_inbox w a)).
  destruct (IH w1 N2) as (A & B).
  { intros b. rewrite I1. specialize (H b). destruct (Nat.eqb b a), (e_inbox w b); cbn; congruence. }
  split; [now rewrite A|]. intros b. rewrite B, I1. cbn [existsb]. destruct (Nat.eqb b a) eqn:E; [|reflexivity].
  apply Nat.eqb_eq in E. subst b. destruct (existsb (Nat.eqb a) l) eqn:X; [|reflexivity].
  apply existsb_exists in X as (y & Y & E). apply Nat.eqb_eq in E. subst y. contradiction.
Qed.

(** One activation. *)
Definition started (x : option (gobj (frame bool))) : bool := match x with None => false | _ => true end.
Lemma bcast_act s a (w : fworld unit (bworld (R := R))) c : fw_agents w a = FAgent (KPlain tt) true None ->
  get_co c a = None \/ get_co c a = Some (GSusp (FIn true)) -> NoDup (s_reg s) -> In a (s_reg s) ->
  (forall b, exists l, e_inbox (fw_rest w) b = Some l /\ Forall plain l) ->
  exists w' c', agent_step bcast no_float s a (w, c) = (w', c', [], Ret None) /\ fw_agents w' = fw_agents w /\
    get_co c' a = Some (GSusp (FIn true)) /\ (forall b, b <> a -> get_co c' b = get_co c b) /\
    forall b l, e_inbox (fw_rest w) b = Some l -> exists l', e_inbox (fw_rest w') b = Some l' /\ Forall plain l' /\
      let sent := if existsb (Nat.eqb b) (s_reg s) && negb (started (get_co c a)) then 1 else 0 in
      if Nat.eqb b a then l' = [] /\ p_received (e_rest (fw_rest w')) b = p_received (e_rest (fw_rest w)) b + (List.length l + sent)
      else List.length l' = List.length l + sent /\ p_received (e_rest (fw_rest w')) b = p_received (e_rest (fw_rest w)) b.
Proof.
  intros KA HC ND IN HI.
  set (w1 := if started (get_co c a) then fw_rest w else broadcast (s_time s) (s_reg s) tt None None None (fw_rest w)).
  assert (W1 : e_rest w1 = e_rest (fw_rest w) /\ forall b l, e_inbox (fw_rest w) b = Some l ->
            exists l', e_inbox w1 b = Some l' /\ Forall plain l' /\ List.length l' = List.length l + if existsb (Nat.eqb b) (s_reg s) && negb (started (get_co c a)) then 1 else 0).
  { subst w1. destruct (started (get_co c a)).
    - split; [reflexivity|]. intros b l E. rewrite andb_false_r. exists l. destruct (HI b) as (l0 & E0 & F). rewrite E in E0. injection E0 as <-. auto.
    - destruct (broadcast_all (s_time s) (s_reg s) (fw_rest w) ND) as (A & B).
      { intros b. destruct (HI b) as (l0 & E0 & _). congruence. }
      split; [exact A|]. intros b l E. rewrite B, E. cbn [negb]. rewrite andb_true_r. destruct (HI b) as (l0 & E0 & F). rewrite E in E0. injection E0 as <-.
      destruct (existsb (Nat.eqb b) (s_reg s)); cbn [option_map]; eexists; (split; [reflexivity|]).
      + rewrite app_length. split; [|reflexivity]. apply Forall_app. split; [exact F|]. repeat constructor.
      + auto. }
  destruct W1 as (W1 & W2). destruct (HI a) as (la & Ea & _). destruct (W2 a la Ea) as (la' & Ea' & Fa & La).
  destruct (bcast_loop (s_time s) a la' Fa w1) as (w2 & calls & E2 & I2 & P2).
  assert (ST : inside bcast s a (started (get_co c a)) w = (FWorld (fw_agents w) (set_inbox w2 a []), [], GYield PNone (FIn true))).
  { assert (PM : process_messages tt on_ping (s_time s) a w1 = (set_inbox w2 a [], calls, POk la')) by (unfold process_messages; rewrite Ea', E2; reflexivity).
    unfold inside. cbn [c_resume bcast].
    match goal with |- context [process_messages ?b ?c ?d ?e ?x] => replace (process_messages b c d e x) with (set_inbox w2 a [], calls, POk la') by (symmetry; exact PM) end.
    reflexivity. }
  exists (FWorld (fw_agents w) (set_inbox w2 a [])), (set_co (set_co c a (Some match get_co c a with None => GSusp FStart | Some g => g end)) a (Some (GSusp (FIn true)))).
  split.
  { unfold agent_step, decorated. cbn [fst snd]. destruct HC as [HC|HC]; rewrite HC in *; cbn [started] in ST; cbn [send step_gen].
    - rewrite KA. cbn [fa_kind]. change (c_start bcast tt) with false. rewrite ST. reflexivity.
    - rewrite ST. reflexivity. }
  split; [reflexivity|]. split; [now rewrite AgentProofs.get_set_co, Nat.eqb_refl|]. split.
  { intros b N. rewrite !AgentProofs.get_set_co. apply Nat.eqb_neq in N. now rewrite N. }
  intros b l E. cbn [fw_rest set_inbox e_inbox e_rest]. cbv zeta. rewrite P2, W1.
  destruct (Nat.eqb b a) eqn:B.
  - apply Nat.eqb_eq in B. subst b. rewrite E in Ea. injection Ea as <-. exists []. rewrite La. auto.
  - rewrite I2. destruct (W2 b l E) as (l' & E' & F' & L'). exists l'. rewrite Nat.add_0_r. auto.
Qed.

Variable n : nat.
Notation bstate := (fworld unit (bworld (R := R)) * cors (frame bool))%type.
Definition received (x : bstate) (a : aid) : nat := p_received (e_rest (fw_rest (fst x))) a.
Definition loop_co : option (gobj (frame bool)) := Some (GSusp (FIn true)).
Definition boxes (B : nat) (x : bstate) : Prop := (forall a, fw_agents (fst x) a = FAgent (KPlain tt) true None) /\
  forall b, exists l, e_inbox (fw_rest (fst x)) b = Some l /\ Forall plain l /\ if b <? n then received x b + List.length l = B else received x b = 0.
Definition within (k : nat) (done todo : list aid) (x : bstate) : Prop :=
  Permutation (done ++ todo) (seq 0 n) /\ boxes (if k =? 0 then List.length done else n) x /\
  (forall a, In a done -> get_co (snd x) a = loop_co) /\ (forall a, In a todo -> get_co (snd x) a = if k =? 0 then None else loop_co) /\
  (k = 0 -> forall i a, nth_error done i = Some a -> received x a = S i) /\ (0 < k -> forall a, In a done -> received x a = n).
Definition between (k : nat) (l : list aid) (x : bstate) : Prop :=
  Permutation l (seq 0 n) /\ boxes (if k =? 0 then 0 else n) x /\ (forall a, In a l -> get_co (snd x) a = if k =? 0 then None else loop_co) /\
  (k = 1 -> forall i a, nth_error l i = Some a -> received x a = S i) /\ (1 < k -> forall a, In a l -> received x a = n).

Lemma in_seq_ltb b : existsb (Nat.eqb b) (seq 0 n) = (b <? n).
Proof.
  apply eq_true_iff_eq. rewrite existsb_exists, Nat.ltb_lt. split.
  - intros (y & I & E). apply Nat.eqb_eq in E. subst y. apply in_seq in I. lia.
  - intros L. exists b. split; [apply in_seq; lia|apply Nat.eqb_refl].
Qed.
Lemma bcast_within k s done a todo (x x' : bstate) ops o : s_reg s = seq 0 n -> within k done (a :: todo) x ->
  agent_step bcast no_float s a x = (x', ops, o) -> within k (done ++ [a]) todo x' /\ ops = [] /\ o = Ret None.
Proof.
  intros RG (P & (BA & BI) & CD & CT & R0 & R1) E. destruct x as [w c].
  assert (IA : In a (seq 0 n)) by (eapply Permutation_in; [exact P|]; apply in_or_app; right; now left).
  assert (LA : a <? n = true) by (apply in_seq in IA; apply Nat.ltb_lt; lia).
  assert (ND : NoDup (done ++ a :: todo)) by (eapply Permutation_NoDup; [symmetry; exact P|apply seq_NoDup]).
  assert (NA : ~ In a done /\ ~ In a todo) by (apply NoDup_remove_2 in ND; rewrite in_app_iff in ND; tauto).
  assert (CA : get_co c a = if k =? 0 then None else loop_co) by (apply CT; now left).
  destruct (bcast_act s a w c) as (w' & c' & E' & AG & C1 & C2 & HB); auto.
  { rewrite CA. destruct (k =? 0); auto. } { rewrite RG. apply seq_NoDup. } { now rewrite RG. }
  { intros b. destruct (BI b) as (l & ? & ? & _). eauto. }
  rewrite E' in E. injection E as <- <- <-. split; [|auto].
  assert (ST : negb (started (get_co c a)) = (k =? 0)) by (rewrite CA; now destruct (k =? 0)).
  rewrite ST, RG in HB. cbn [fst snd] in *.
  assert (HB' : forall b, exists l', e_inbox (fw_rest w') b = Some l' /\ Forall plain l' /\
            if b <? n then received (w', c') b + List.length l' = (if k =? 0 then List.length (done ++ [a]) else n) /\
              received (w', c') b = if Nat.eqb b a then (if k =? 0 then S (List.length done) else n) else received (w, c) b
            else received (w', c') b = 0).
  { intros b. destruct (BI b) as (l & I1 & I2 & I3). destruct (HB b l I1) as (l' & I1' & I2' & I3'). exists l'. split; [exact I1'|]. split; [exact I2'|].
    rewrite in_seq_ltb in I3'. cbv zeta in I3'. unfold received in *. cbn [fst snd] in *. rewrite app_length. cbn [List.length].
    destruct (b <? n) eqn:BN.
    - cbn [andb] in I3'. destruct (Nat.eqb b a); destruct I3' as (X & Y); rewrite Y; [subst l'; cbn [List.length]|rewrite X]; destruct (k =? 0); lia.
    - cbn [andb] in I3'. destruct (Nat.eqb b a) eqn:BAE; [apply Nat.eqb_eq in BAE; subst b; congruence|]. destruct I3' as (X & Y). now rewrite Y. }
  split; [now rewrite <- app_assoc|]. split; [split; [intros b; cbn [fst]; rewrite AG; apply BA|]|].
  { intros b. destruct (HB' b) as (l' & A & B & C). exists l'. split; [exact A|]. split; [exact B|]. destruct (b <? n); [apply C|exact C]. }
  split; [|split; [|split]]; cbn [snd].
  - intros b I. apply in_app_or in I as [I|[<-|[]]]; [|exact C1]. rewrite C2; [now apply CD|]. intros ->. tauto.
  - intros b I. rewrite C2; [apply CT; now right|]. intros ->. tauto.
  - intros K0 i b NE. destruct (HB' b) as (l' & _ & _ & C). rewrite K0 in C. cbn [Nat.eqb] in C.
    destruct (Nat.lt_ge_cases i (List.length done)) as [L|L].
    + rewrite nth_error_app1 in NE by exact L. assert (BD : In b done) by (eapply nth_error_In; eauto).
      assert (BN : b <? n = true). { apply Nat.ltb_lt. assert (X : In b (seq 0 n)) by (eapply Permutation_in; [exact P|]; apply in_or_app; auto). apply in_seq in X. lia. }
      rewrite BN in C. destruct C as (_ & C). rewrite C. destruct (Nat.eqb b a) eqn:BAE; [apply Nat.eqb_eq in BAE; subst b; tauto|]. now apply R0.
    + rewrite nth_error_app2 in NE by exact L. destruct (i - List.length done) as [|q] eqn:Q; [|destruct q; discriminate]. injection NE as <-.
      rewrite LA, Nat.eqb_refl in C. destruct C as (_ & C). rewrite C. lia.
  - intros KP b I. destruct (HB' b) as (l' & _ & _ & C). assert (K0 : k =? 0 = false) by (apply Nat.eqb_neq; lia). rewrite K0 in C.
    assert (BN : b <? n = true).
    { apply Nat.ltb_lt. assert (X : In b (seq 0 n)). { eapply Permutation_in; [exact P|]. apply in_app_or in I as [I|[<-|[]]]; apply in_or_app; [auto|right; now left]. } apply in_seq in X. lia. }
    rewrite BN in C. destruct C as (_ & C). rewrite C. destruct (Nat.eqb b a) eqn:BAE; [reflexivity|].
    apply in_app_or in I as [I|[<-|[]]]; [now apply R1|]. now rewrite Nat.eqb_refl in BAE.
Qed.

Lemma bcast_all shuffle sh di k (r : R) : (forall l g, Permutation l (snd (shuffle l g))) -> 0 < n -> ticks di k ->
  exists s x l tr, bcast_run shuffle sh di n k r = (s, x, tr) /\ s_time s = tick di k /\ s_steps s = k /\ s_reg s = seq 0 n /\ between k l x.
Proof.
  intros SH NP T. unfold bcast_run. set (u := agent_user _ _ _). match goal with |- context [run_hist u _ _ ?x] => set (x0 := x) end.
  assert (D : forall z, or_num None z = z) by reflexivity.
  destruct (forever_start u di di (seq 0 n) sh between within) with (n := k) (N := n) (w := x0) as (s & x & l & tr & E & H); auto.
  - intros j l [w c] x' l' (P & (BA & BI) & C & R1 & R2) E.
    assert (X : exists r1, x' = (FWorld (fw_agents w) (set_rest (fw_rest w) (Pings (p_received (e_rest (fw_rest w))) r1)), c) /\ Permutation l l').
    { destruct sh.
      - cbn in E. unfold bshuffle in E. pose proof (SH l (p_rng (e_rest (fw_rest w)))) as PS. destruct (shuffle l (p_rng (e_rest (fw_rest w)))) as [r1 l1].
        injection E as <- <-. exists r1. auto.
      - injection E as <- <-. exists (p_rng (e_rest (fw_rest w))). split; [|auto]. destruct w as [ag [i ct rp ak [rc rg]]]. reflexivity. }
    destruct X as (r1 & -> & PL). split; [|symmetry; now apply Permutation_length].
    assert (P' : Permutation l' (seq 0 n)) by (rewrite <- PL; exact P).
    split; [exact P'|]. split; [|split; [intros a []|split; [|split]]].
    + split; [exact BA|exact BI].
    + intros a I. apply C. eapply Permutation_in; [symmetry; exact PL|exact I].
    + intros _ [|i] a; discriminate.
    + intros _ a [].
  - intros j s done a todo x x' ops o RG TM _ J E. destruct (bcast_within j s done a todo x x' ops o RG J E) as (A & B & ->). split; [exact A|]. split; [exact B|].
    exists None. auto.
  - intros j l x (P & B & CD & CT & R0 & R1). rewrite app_nil_r in P. split; [exact P|]. split; [|split; [|split]].
    + destruct (j =? 0) eqn:Z; cbn [Nat.eqb]; [|exact B]. rewrite (Permutation_length P), seq_length in B. exact B.
    + exact CD.
    + intros Z. apply R0. lia.
    + intros Z. apply R1. lia.
  - split; [apply Permutation_refl|]. split; [|split; [intros a _; reflexivity|split; [discriminate|lia]]]. split; [intros a; reflexivity|].
    intros b. exists []. split; [reflexivity|]. split; [constructor|]. destruct (b <? n); reflexivity.
  - exists s, x, l, tr. auto.
Qed.
End Broadcast.

(** * Agents that ask each other *)
Section Ask.
Context {AR : Arith}.
Variables one sixty : num.
Variable n : nat.
Notation astate := (fworld unit aworld * cors (frame ppoint))%type.
Definition an_ask (b : aid) (k : nat) : msg bool := Msg true (Some b) None (Some k).

Lemma ping_ask now a f (w : aworld) l : pl_pongs (e_rest w) <> [] \/ pl_pings (e_rest w) = [] -> n_ltb now PInf = true -> e_inbox w (target n a) = Some l ->
  exists w', ploop one sixty n now a (S f) w = (w', [], GYield (PNum one) (PAsk (e_asks w) PInf)) /\ e_asks w' = S (e_asks w) /\
    e_rest w' = PLists (pl_pings (e_rest w) ++ [now]) (pl_pongs (e_rest w)) (pl_responses (e_rest w)) /\
    (forall k, e_reply w' k = if Nat.eqb k (e_asks w) then false else e_reply w k) /\
    (forall b, e_inbox w' b = if Nat.eqb b (target n a) then Some (l ++ [an_ask (target n a) (e_asks w)])%list else e_inbox w b).
Proof.
  intros C L I. set (w1 := set_rest w (PLists (pl_pings (e_rest w) ++ [now]) (pl_pongs (e_rest w)) (pl_responses (e_rest w)))).
  set (w2 := fst (fst (ask_start false now (target n a) true None w1))).
  assert (W2 : e_asks w2 = S (e_asks w) /\ e_rest w2 = e_rest w1 /\ (forall k, e_reply w2 k = if Nat.eqb k (e_asks w) then false else e_reply w k) /\
            (forall b, e_inbox w2 b = if Nat.eqb b (target n a) then Some (l ++ [an_ask (target n a) (e_asks w)])%list else e_inbox w b)).
  { subst w2 w1. unfold ask_start, append. cbn [fst e_inbox set_rest e_asks]. rewrite I. cbn. auto. }
  destruct W2 as (A & B & D & F). exists w2. split; [|auto].
  assert (X : ask_resume (fun b => b) now (e_asks w) PInf w2 = AWait). { unfold ask_resume. rewrite L, D, Nat.eqb_refl. reflexivity. }
  assert (Y : ask_start false now (target n a) true None w1 = (w2, e_asks w, PInf)) by reflexivity.
  cbn [ploop]. fold w1. rewrite Y, X. destruct (pl_pongs (e_rest w)) as [|p ps] eqn:P; [|reflexivity].
  destruct C as [C|C]; [now destruct C|]. rewrite C. reflexivity.
Qed.
Lemma ping_answer now a (w : aworld) b k : e_inbox w a = Some [an_ask b k] ->
  exists w' calls, process_messages false on_msg now a w = (w', calls, POk [an_ask b k]) /\ e_asks w' = e_asks w /\
    e_rest w' = PLists (pl_pings (e_rest w)) (pl_pongs (e_rest w) ++ [now]) (pl_responses (e_rest w)) /\
    (forall j, e_reply w' j = if Nat.eqb j k then true else e_reply w j) /\ (forall c, e_inbox w' c = if Nat.eqb c a then Some [] else e_inbox w c).
Proof.
  intros I. unfold process_messages. rewrite I. cbn. do 2 eexists. split; [reflexivity|]. cbn. auto.
Qed.
Lemma ping_act s a (w : fworld unit aworld) c q r' q' : n_truthy one = true -> fw_agents w a = FAgent (KPlain tt) true None ->
  get_co c a = None /\ q = PBegin \/ get_co c a = Some (GSusp (FIn q)) ->
  presume one sixty n (s_time s) a q (fw_rest w) = (r', [], GYield (PNum one) q') ->
  exists c', agent_step (ping one sixty n) no_float s a (w, c) = (FWorld (fw_agents w) r', c', [], Ret (Some one)) /\
    get_co c' a = Some (GSusp (FIn q')) /\ forall b, b <> a -> get_co c' b = get_co c b.
Proof.
  intros T KA HC E. assert (ST : inside (ping one sixty n) s a q w = (FWorld (fw_agents w) r', [], GYield (PNum one) (FIn q'))).
  { unfold inside. cbn [c_resume ping].
    match goal with |- context [presume ?b ?c ?d ?e ?f ?g ?x] => replace (presume b c d e f g x) with (r', @nil (fop unit), @GYield ppoint (pyval unit) (PNum one) q') by (symmetry; exact E) end.
    reflexivity. }
  exists (set_co (set_co c a (Some match get_co c a with None => GSusp FStart | Some g => g end)) a (Some (GSusp (FIn q')))). split.
  - unfold agent_step, decorated. cbn [fst snd]. destruct HC as [(HC & ->)|HC]; rewrite HC; cbn [send step_gen].
    + rewrite KA. cbn [fa_kind]. change (c_start (ping one sixty n) tt) with PBegin. rewrite ST. reflexivity.
    + rewrite ST. reflexivity.
  - split; [now rewrite AgentProofs.get_set_co, Nat.eqb_refl|]. intros b N. rewrite !AgentProofs.get_set_co. apply Nat.eqb_neq in N. now rewrite N.
Qed.
End Ask.

(** Two agents. *)
Section Two.
Context {AR : Arith}.
Variables one sixty : num.
Notation astate := (fworld unit aworld * cors (frame ppoint))%type.
Definition pinged (t m : nat) : list num := flat_map (fun j => repeat (tick one j) 2) (seq 0 t) ++ repeat (tick one t) m.
Record two (t m : nat) (x : astate) : Prop := {
  two_agents : forall a, fw_agents (fst x) a = FAgent (KPlain tt) true None;
  two_asks : e_asks (fw_rest (fst x)) = 2 * t + m;
  two_rest : e_rest (fw_rest (fst x)) = PLists (pinged t m) (tl (pinged t m)) (if t =? 0 then 0 else 2 * (t - 1) + m);
  two_reply : forall k, S k < 2 * t + m -> e_reply (fw_rest (fst x)) k = true;
  two_inbox : forall b, e_inbox (fw_rest (fst x)) b = Some (if (0 <? 2 * t + m) && (b =? m mod 2) then [an_ask b (2 * t + m - 1)] else []);
  two_cos : forall a, a < 2 -> get_co (snd x) a =
    if a <? m then Some (GSusp (FIn (PAsk (2 * t + a) PInf))) else if t =? 0 then None else Some (GSusp (FIn (PAsk (2 * (t - 1) + a) PInf))) }.

Lemma pinged_next t : pinged t 2 = pinged (S t) 0.
Proof. unfold pinged. rewrite seq_S, flat_map_app. cbn. now rewrite !app_nil_r. Qed.
Lemma pinged_snoc t m : pinged t (S m) = (pinged t m ++ [tick one t])%list.
Proof. unfold pinged. rewrite <- app_assoc. f_equal. clear. induction m as [|m IH]; [reflexivity|]. cbn in *. now rewrite <- IH. Qed.
Lemma pinged_some t m : 0 < 2 * t + m -> pinged t m <> [].
Proof. unfold pinged. destruct t; [destruct m; [lia|discriminate]|]. cbn. discriminate. Qed.
Lemma tl_snoc {X} (l : list X) x : l <> [] -> tl (l ++ [x]) = (tl l ++ [x])%list.
Proof. destruct l; [congruence|reflexivity]. Qed.

Lemma two_next t x : two t 2 x -> two (S t) 0 x.
Proof.
  intros [A B C D E F]. constructor; auto.
  - rewrite B. lia.
  - rewrite C, pinged_next. f_equal. destruct t; cbn; lia.
  - intros k L. apply D. lia.
  - intros b. rewrite E. change (2 mod 2) with (0 mod 2). replace (2 * S t + 0) with (2 * t + 2) by lia. reflexivity.
  - intros a L. rewrite F by exact L. assert (X : a <? 2 = true) by now apply Nat.ltb_lt. rewrite X. cbn [Nat.ltb Nat.leb Nat.eqb]. now rewrite Nat.sub_succ, Nat.sub_0_r.
Qed.

(** What one activation does to the messages. *)
Lemma two_turn t m (w : aworld) q : m < 2 -> n_ltb (tick one t) PInf = true ->
  e_asks w = 2 * t + m -> e_rest w = PLists (pinged t m) (tl (pinged t m)) (if t =? 0 then 0 else 2 * (t - 1) + m) ->
  (forall k, S k < 2 * t + m -> e_reply w k = true) ->
  (forall b, e_inbox w b = Some (if (0 <? 2 * t + m) && (b =? m mod 2) then [an_ask b (2 * t + m - 1)] else [])) ->
  q = (if t =? 0 then PBegin else PAsk (2 * (t - 1) + m) PInf) ->
  exists w', presume one sixty 2 (tick one t) m q w = (w', [], GYield (PNum one) (PAsk (2 * t + m) PInf)) /\
    e_asks w' = 2 * t + S m /\ e_rest w' = PLists (pinged t (S m)) (tl (pinged t (S m))) (if t =? 0 then 0 else 2 * (t - 1) + S m) /\
    (forall k, S k < 2 * t + S m -> e_reply w' k = true) /\
    (forall b, e_inbox w' b = Some (if (0 <? 2 * t + S m) && (b =? S m mod 2) then [an_ask b (2 * t + S m - 1)] else [])).
Proof.
  intros M L A B D F ->. assert (TG : target 2 m = S m mod 2) by (unfold target; now rewrite Nat.add_1_r).
  assert (MM : m mod 2 = m) by now apply Nat.mod_small.
  assert (TN : (S m mod 2 =? m) = false) by (destruct m as [|[|m]]; [reflexivity|reflexivity|lia]).
  destruct (Nat.eq_dec (2 * t + m) 0) as [Z|Z].
  - (* The first of all. *)
    assert (t = 0) as -> by lia. assert (m = 0) as -> by lia. cbn [Nat.eqb]. cbn [presume].
    destruct (ping_ask one sixty 2 (tick one 0) 0 2 w []) as (w' & E & A' & B' & D' & F'); [right; now rewrite B|exact L|now rewrite F|].
    rewrite A in *. exists w'. split; [exact E|]. split; [exact A'|]. split; [rewrite B', B; reflexivity|]. split; [intros k; lia|].
    intros b. rewrite F', F. change (target 2 0) with 1. cbn. destruct b as [|[|b]]; reflexivity.
  - (* First it answers the question that was asked before. *)
    assert (IM : forall w0 : aworld, e_inbox w0 = e_inbox w -> e_inbox w0 m = Some [an_ask m (2 * t + m - 1)]).
    { intros w0 ->. rewrite F, MM, Nat.eqb_refl. assert (X : 0 <? 2 * t + m = true) by (apply Nat.ltb_lt; lia). now rewrite X. }
    assert (GO : forall f (w0 : aworld) resp, e_inbox w0 = e_inbox w -> e_reply w0 = e_reply w -> e_asks w0 = e_asks w ->
              e_rest w0 = PLists (pinged t m) (tl (pinged t m)) resp ->
              exists w1 calls, process_messages false on_msg (tick one t) m w0 = (w1, calls, POk [an_ask m (2 * t + m - 1)]) /\
              exists w', ploop one sixty 2 (tick one t) m (S f) w1 = (w', [], GYield (PNum one) (PAsk (2 * t + m) PInf)) /\
                e_asks w' = 2 * t + S m /\ e_rest w' = PLists (pinged t (S m)) (tl (pinged t (S m))) resp /\
                (forall k, S k < 2 * t + S m -> e_reply w' k = true) /\
                (forall b, e_inbox w' b = Some (if (0 <? 2 * t + S m) && (b =? S m mod 2) then [an_ask b (2 * t + S m - 1)] else []))).
    { intros f w0 resp I0 R0 A0 P0. destruct (ping_answer (tick one t) m w0 m (2 * t + m - 1) (IM w0 I0)) as (w1 & calls & E1 & A1 & P1 & R1 & I1).
      exists w1, calls. split; [exact E1|]. rewrite P0 in P1. cbn in P1.
      destruct (ping_ask one sixty 2 (tick one t) m f w1 []) as (w' & E & A' & B' & D' & F').
      - left. rewrite P1. cbn. now destruct (tl (pinged t m)).
      - exact L.
      - rewrite I1, TG, TN, I0, F, MM, TN, andb_false_r. reflexivity.
      - rewrite A1, A0, A in *. exists w'. split; [exact E|]. split; [rewrite A'; lia|]. split; [|split].
        + rewrite B', P1. cbn. rewrite pinged_snoc, tl_snoc by (apply pinged_some; lia). reflexivity.
        + intros k Lk. rewrite D'. assert (X : k =? 2 * t + m = false) by (apply Nat.eqb_neq; lia). rewrite X, R1.
          destruct (k =? 2 * t + m - 1) eqn:Y; [reflexivity|]. rewrite R0. apply D. apply Nat.eqb_neq in Y. lia.
        + intros b. rewrite F', I1, TG, I0, F, MM. assert (X : 0 <? 2 * t + S m = true) by (apply Nat.ltb_lt; lia). rewrite X. cbn [andb].
          destruct (b =? S m mod 2) eqn:Y.
          * apply Nat.eqb_eq in Y. subst b. cbn [app]. now replace (2 * t + S m - 1) with (2 * t + m) by lia.
          * destruct (b =? m) eqn:V; [reflexivity|]. now rewrite andb_false_r. }
    destruct (t =? 0) eqn:T0.
    + apply Nat.eqb_eq in T0. subst t. assert (m = 1) as -> by lia. cbn [presume].
      destruct (GO 1 w 0 eq_refl eq_refl eq_refl B) as (w1 & calls & E1 & w' & E' & H'). exists w'. split; [|exact H'].
      cbn [ploop]. rewrite B. cbn [pl_pongs pl_pings pinged seq flat_map app repeat tl]. rewrite E1. exact E'.
    + cbn [presume]. unfold ask_resume. rewrite L, D by (apply Nat.eqb_neq in T0; lia). rewrite B. cbn [pl_pings pl_pongs pl_responses].
      match goal with |- context [process_messages false on_msg (tick one t) m ?x] => set (w0 := x) end.
      destruct (GO 2 w0 (S (2 * (t - 1) + m)) eq_refl eq_refl eq_refl eq_refl) as (w1 & calls & E1 & w' & E' & A' & B' & H'). exists w'. rewrite E1. split; [exact E'|].
      split; [exact A'|]. split; [|exact H']. rewrite B'. f_equal. lia.
Qed.

Lemma two_step s t m (x x' : astate) ops o : n_truthy one = true -> m < 2 -> s_time s = tick one t -> n_ltb (tick one t) PInf = true -> two t m x ->
  agent_step (ping one sixty 2) no_float s m x = (x', ops, o) -> two t (S m) x' /\ ops = [] /\ o = Ret (Some one).
Proof.
  intros TR M TM L [A B C D F G] E. destruct x as [w c]. cbn [fst snd] in *.
  destruct (two_turn t m (fw_rest w) _ M L B C D F eq_refl) as (r' & E1 & B1 & C1 & D1 & F1).
  assert (CM := G m M). rewrite Nat.ltb_irrefl in CM.
  destruct (ping_act one sixty 2 s m w c (if t =? 0 then PBegin else PAsk (2 * (t - 1) + m) PInf) r' (PAsk (2 * t + m) PInf) TR (A m)) as (c' & E2 & C2 & O2).
  { rewrite CM. destruct (t =? 0); auto. } { now rewrite TM. }
  rewrite E2 in E. injection E as <- <- <-. split; [|auto]. constructor; cbn [fst snd fw_agents fw_rest]; auto.
  intros a La. destruct (Nat.eq_dec a m) as [->|N].
  - rewrite C2. assert (X : m <? S m = true) by (apply Nat.ltb_lt; lia). now rewrite X.
  - rewrite O2, G by auto. assert (X : (a <? S m) = (a <? m)). { apply eq_true_iff_eq. rewrite !Nat.ltb_lt. lia. } now rewrite X.
Qed.

Lemma ping_two di k : n_truthy one = true -> ticks one k ->
  exists s x tr, ping_run one sixty 2 di k = (s, x, tr) /\ s_time s = tick one k /\ s_steps s = k /\ two k 0 x.
Proof.
  intros TR T. unfold ping_run.
  destruct (forever_start (agent_user (ping one sixty 2) no_float (fun l w => (w, l))) di one (seq 0 2) false
     (fun t l x => l = [0; 1] /\ two t 0 x) (fun t done todo x => exists m, done = seq 0 m /\ todo = seq m (2 - m) /\ m <= 2 /\ two t m x))
    with (n := k) (N := 2) (w := (FWorld (fun _ : aid => FAgent (KPlain tt) true None) (EWorld (fun _ => Some []) (fun _ => 0) (fun _ => false) 0 (PLists [] [] 0)), @no_cors (frame ppoint)))
    as (s & x & l & tr & E & A & B & _ & C & D); auto.
  - intros j l w w' l' (-> & H) E. injection E as <- <-. split; [|reflexivity]. exists 0. repeat (split; [reflexivity||lia|]). exact H.
  - intros j s done a todo x x' ops o RG TM FT (m & -> & TD & M & H) E. destruct (Nat.eq_dec m 2) as [->|NE]; [discriminate|].
    assert (S2 : 2 - m = S (2 - S m)) by lia. rewrite S2 in TD. cbn [seq] in TD. injection TD as -> ->.
    destruct (two_step s j m x x' ops o TR ltac:(lia) TM FT H E) as (A & B & ->). split; [|split; [exact B|]].
    + exists (S m). rewrite seq_S. split; [reflexivity|]. split; [reflexivity|]. split; [lia|exact A].
    + exists (Some one). split; [reflexivity|]. cbn. now rewrite TR.
  - intros j l x (m & -> & TD & M & H). assert (m = 2) as -> by (destruct m as [|[|[|m]]]; try discriminate TD; [reflexivity|lia]). split; [reflexivity|]. now apply two_next.
  - split; [reflexivity|]. constructor; try reflexivity. intros k0 L. lia.
  - exists s, x, tr. auto.
Qed.
End Two.

(** One agent, which asks itself. *)
Section Alone.
Context {AR : Arith}.
Variables one sixty : num.
Notation astate := (fworld unit aworld * cors (frame ppoint))%type.
Record alone (first : bool) (x : astate) : Prop := {
  al_agents : forall a, fw_agents (fst x) a = FAgent (KPlain tt) true None;
  al_asks : e_asks (fw_rest (fst x)) = if first then 0 else 1;
  al_rest : e_rest (fw_rest (fst x)) = PLists (if first then [] else [Fin 0]) [] 0;
  al_reply : e_reply (fw_rest (fst x)) 0 = false;
  al_inbox : e_inbox (fw_rest (fst x)) 0 = Some (if first then [] else [an_ask 0 0]);
  al_cos : get_co (snd x) 0 = if first then None else Some (GSusp (FIn (PAsk 0 PInf))) }.

Lemma alone_step s t (x x' : astate) ops o : n_truthy one = true -> s_time s = tick one t -> n_ltb (tick one t) PInf = true -> alone (t =? 0) x ->
  agent_step (ping one sixty 1) no_float s 0 x = (x', ops, o) -> alone false x' /\ ops = [] /\ o = Ret (Some one).
Proof.
  intros TR TM L [A B C D F G] E. destruct x as [w c]. cbn [fst snd] in *.
  destruct (t =? 0) eqn:T0.
  - apply Nat.eqb_eq in T0. subst t. destruct (ping_ask one sixty 1 (tick one 0) 0 2 (fw_rest w) []) as (w' & E1 & A1 & B1 & D1 & F1); [right; now rewrite C|exact L|exact F|].
    rewrite B in *. rewrite C in B1. cbn in B1.
    destruct (ping_act one sixty 1 s 0 w c PBegin w' (PAsk 0 PInf) TR (A 0)) as (c' & E2 & C2 & O2); [auto|now rewrite TM|].
    rewrite E2 in E. injection E as <- <- <-. split; [|auto]. constructor; cbn [fst snd fw_agents fw_rest]; auto.
    + rewrite D1. reflexivity.
    + rewrite F1. reflexivity.
  - destruct (ping_act one sixty 1 s 0 w c (PAsk 0 PInf) (fw_rest w) (PAsk 0 PInf) TR (A 0)) as (c' & E2 & C2 & O2); [auto| |].
    { cbn [presume]. unfold ask_resume. rewrite TM, L, D. reflexivity. }
    rewrite E2 in E. injection E as <- <- <-. split; [|auto]. constructor; cbn [fst snd fw_agents fw_rest]; auto.
Qed.
Lemma ping_alone di k : n_truthy one = true -> ticks one k ->
  exists s x tr, ping_run one sixty 1 di k = (s, x, tr) /\ s_time s = tick one k /\ s_steps s = k /\ alone (k =? 0) x.
Proof.
  intros TR T. unfold ping_run.
  destruct (forever_start (agent_user (ping one sixty 1) no_float (fun l w => (w, l))) di one (seq 0 1) false
     (fun t l x => l = [0] /\ alone (t =? 0) x) (fun t done todo x => done = [] /\ todo = [0] /\ alone (t =? 0) x \/ done = [0] /\ todo = [] /\ alone false x))
    with (n := k) (N := 1) (w := (FWorld (fun _ : aid => FAgent (KPlain tt) true None) (EWorld (fun _ => Some []) (fun _ => 0) (fun _ => false) 0 (PLists [] [] 0)), @no_cors (frame ppoint)))
    as (s & x & l & tr & E & A & B & _ & C & D); auto.
  - intros j l w w' l' (-> & H) E. injection E as <- <-. auto.
  - intros j s done a todo x x' ops o RG TM FT [(-> & TD & H)|(-> & TD & H)] E; [|discriminate]. injection TD as -> ->.
    destruct (alone_step s j x x' ops o TR TM FT H E) as (A & B & ->). split; [auto|]. split; [exact B|]. exists (Some one). split; [reflexivity|]. cbn. now rewrite TR.
  - intros j l x [(-> & TD & _)|(-> & _ & H)]; [discriminate|]. auto.
  - split; [reflexivity|]. constructor; reflexivity.
  - exists s, x, tr. auto.
Qed.
End Alone.
