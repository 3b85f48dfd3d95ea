(** Proofs about agents that ask each other in a ring. *)
From Coq Require Import ZArith List Bool Arith Lia Permutation.
From Verif Require Import Num TimedModel AgentModel FsmModel EventModel NoopSpec NoopProofs PingModel PingSpec PingProofs RingSpec.
Import ListNotations.
Local Open Scope nat_scope.

Section Ring.
Context {AR : Arith}.
Variables one sixty : num.
Variable n : nat.
Hypothesis N2 : 2 <= n.
Notation astate := (fworld unit aworld * cors (frame ppoint))%type.
Definition next (a : aid) : aid := (a + 1) mod n.
Definition prev (a : aid) : aid := (a + (n - 1)) mod n.
Lemma next_lt a : next a < n.
Proof. apply Nat.mod_upper_bound. lia. Qed.
Lemma prev_lt a : prev a < n.
Proof. apply Nat.mod_upper_bound. lia. Qed.
Lemma next_prev a : a < n -> next (prev a) = a.
Proof.
  intros L. unfold next, prev. rewrite Nat.add_mod_idemp_l by lia. replace (a + (n - 1) + 1) with (a + 1 * n) by lia.
  rewrite Nat.mod_add by lia. now apply Nat.mod_small.
Qed.
Lemma next_inj a b : a < n -> b < n -> next a = next b -> a = b.
Proof.
  intros A B E. assert (P : forall c, c < n -> prev (next c) = c).
  { intros c C. unfold next, prev. rewrite Nat.add_mod_idemp_l by lia. replace (c + 1 + (n - 1)) with (c + 1 * n) by lia.
    rewrite Nat.mod_add by lia. now apply Nat.mod_small. }
  rewrite <- (P a A), <- (P b B). now rewrite E.
Qed.
Lemma prev_neq a : a < n -> prev a <> a.
Proof.
  intros L E. unfold prev in E. destruct (Nat.eq_dec a 0) as [->|Z]; [rewrite Nat.mod_small in E by lia; lia|].
  replace (a + (n - 1)) with (a - 1 + 1 * n) in E by lia. rewrite Nat.mod_add, Nat.mod_small in E by lia. lia.
Qed.

(** The messages: who has begun, whose question has been answered, and the number of the question of each. *)
Record mail (st hold : aid -> bool) (cur : aid -> nat) (w : aworld) : Prop := {
  ml_old : forall a, a < n -> st a = true -> cur a < e_asks w;
  ml_inj : forall a b, a < n -> b < n -> st a = true -> st b = true -> cur a = cur b -> a = b;
  ml_reply : forall a, a < n -> st a = true -> e_reply w (cur a) = hold a;
  ml_inbox : forall a, a < n -> e_inbox w (next a) = Some (if st a && negb (hold a) then [an_ask (next a) (cur a)] else []) }.
Definition upd {T} (f : aid -> T) (a : aid) (v : T) : aid -> T := fun b => if Nat.eqb b a then v else f b.
Lemma mail_ext st hold st' hold' cur w : mail st hold cur w -> (forall a, a < n -> st a = st' a) -> (forall a, a < n -> st a = true -> hold a = hold' a) ->
  mail st' hold' cur w.
Proof.
  intros [A B C D] S H. constructor.
  - intros a L X. rewrite <- S in X by auto. auto.
  - intros a b La Lb Xa Xb. rewrite <- S in Xa, Xb by auto. auto.
  - intros a L X. rewrite <- S in X by auto. rewrite <- H by auto. auto.
  - intros a L. rewrite D, <- S by auto. destruct (st a) eqn:E; [|reflexivity]. now rewrite H.
Qed.
Lemma mail_same st hold cur w w' : mail st hold cur w -> e_asks w' = e_asks w -> e_reply w' = e_reply w -> e_inbox w' = e_inbox w -> mail st hold cur w'.
Proof. intros [A B C D] EA ER EI. constructor; rewrite ?EA, ?ER, ?EI; auto. Qed.

Lemma mail_answer st hold cur w now m : mail st hold cur w -> m < n -> st (prev m) = true -> hold (prev m) = false ->
  exists w' calls q, process_messages false on_msg now m w = (w', calls, POk [q]) /\ mail st (upd hold (prev m) true) cur w' /\
    e_rest w' = PLists (pl_pings (e_rest w)) (pl_pongs (e_rest w) ++ [now]) (pl_responses (e_rest w)).
Proof.
  intros [A B C D] L S H. assert (PL := prev_lt m). assert (I := D _ PL). rewrite next_prev, S, H in I by auto. cbn in I.
  destruct (ping_answer now m w m (cur (prev m)) I) as (w' & calls & E & A' & R' & P' & I'). exists w', calls, (an_ask m (cur (prev m))).
  split; [exact E|]. split; [|exact R']. constructor.
  - intros a La X. rewrite A'. auto.
  - auto.
  - intros a La X. rewrite P'. unfold upd. destruct (Nat.eqb_spec a (prev m)) as [->|N]; [now rewrite Nat.eqb_refl|].
    destruct (Nat.eqb_spec (cur a) (cur (prev m))) as [Y|Y]; [elim N; auto|auto].
  - intros a La. rewrite I'. unfold upd. destruct (Nat.eqb_spec a (prev m)) as [->|N].
    + rewrite next_prev, Nat.eqb_refl, S by auto. reflexivity.
    + destruct (Nat.eqb_spec (next a) m) as [Y|Y]; [|auto]. elim N. apply next_inj; auto. now rewrite next_prev.
Qed.
Lemma mail_ask st hold cur w now m f : mail st hold cur w -> m < n -> st m = false \/ hold m = true -> n_ltb now PInf = true ->
  pl_pongs (e_rest w) <> [] \/ pl_pings (e_rest w) = [] ->
  exists w', ploop one sixty n now m (S f) w = (w', [], GYield (PNum one) (PAsk (e_asks w) PInf)) /\
    mail (upd st m true) (upd hold m false) (upd cur m (e_asks w)) w' /\
    e_rest w' = PLists (pl_pings (e_rest w) ++ [now]) (pl_pongs (e_rest w)) (pl_responses (e_rest w)).
Proof.
  intros [A B C D] L S T P. assert (I : e_inbox w (target n m) = Some []).
  { change (target n m) with (next m). rewrite D by auto. destruct S as [->| ->]; [reflexivity|]. now rewrite andb_false_r. }
  destruct (ping_ask one sixty n now m f w [] P T I) as (w' & E & A' & R' & P' & I'). exists w'. split; [exact E|]. split; [|exact R'].
  change (target n m) with (next m) in I'. constructor.
  - intros a La X. rewrite A'. unfold upd in *. destruct (Nat.eqb_spec a m); [lia|]. specialize (A a La X). lia.
  - intros a b La Lb Xa Xb. unfold upd in *. destruct (Nat.eqb_spec a m) as [->|Na], (Nat.eqb_spec b m) as [->|Nb]; auto; intros Y; exfalso.
    + specialize (A b Lb Xb). lia.
    + specialize (A a La Xa). lia.
  - intros a La X. rewrite P'. unfold upd in *. destruct (Nat.eqb_spec a m) as [->|Na]; [now rewrite Nat.eqb_refl|].
    specialize (A a La X). destruct (Nat.eqb_spec (cur a) (e_asks w)); [lia|auto].
  - intros a La. rewrite I'. unfold upd. destruct (Nat.eqb_spec a m) as [->|Na]; [now rewrite Nat.eqb_refl|].
    destruct (Nat.eqb_spec (next a) (next m)) as [Y|Y]; [elim Na; apply next_inj; auto|auto].
Qed.

(** After [i] activations; [c] of them have answered. *)
Definition span (i c : nat) : Prop := (c = 0 \/ 1 + (c - 1) * (n - 1) < i) /\ i <= 1 + c * (n - 1).
Definition holder (c : nat) (a : aid) : bool := (1 <=? c) && (a =? (1 + c * (n - 1)) mod n).
Definition lists_at (i : nat) : plists :=
  PLists (instants_of one n (asking n) 0 i) (instants_of one n (answering n) 0 i) (List.length (filter (answering n) (seq n (i - n)))).
Record ring (i c : nat) (cur : aid -> nat) (x : astate) : Prop := {
  rg_agents : forall a, fw_agents (fst x) a = FAgent (KPlain tt) true None;
  rg_span : span i c;
  rg_mail : mail (fun a => a <? i) (holder c) cur (fw_rest (fst x));
  rg_rest : e_rest (fw_rest (fst x)) = lists_at i;
  rg_cos : forall a, a < n -> get_co (snd x) a = if a <? i then Some (GSusp (FIn (PAsk (cur a) PInf))) else None }.

Lemma span_answering i c : span i c -> 1 <= i -> answering n i = true <-> i = 1 + c * (n - 1).
Proof.
  intros [L H] I. unfold answering. assert (X : 1 <=? i = true) by now apply Nat.leb_le. rewrite X. cbn [andb]. rewrite Nat.eqb_eq. split.
  - intros M. apply Nat.mod_divide in M; [|lia]. destruct M as [q M]. assert (i = 1 + q * (n - 1)) as -> by lia.
    destruct L as [->|L]; [nia|]. assert (c - 1 < q <= c) by nia. assert (q = c) by lia. now subst.
  - intros ->. replace (1 + c * (n - 1) - 1) with (c * (n - 1)) by lia. apply Nat.mod_mul. lia.
Qed.
Lemma span_next i c : span i c -> 1 <= i -> span (S i) (if answering n i then S c else c).
Proof.
  intros SP I. pose proof (span_answering i c SP I) as A. destruct SP as [L H]. destruct (answering n i).
  - assert (E : i = 1 + c * (n - 1)) by now apply A. split; [right|]; rewrite ?Nat.sub_succ, ?Nat.sub_0_r; nia.
  - assert (E : i <> 1 + c * (n - 1)) by (intros E; apply A in E; discriminate). split; [|lia]. destruct L; [auto|lia].
Qed.
Lemma seq_snoc i j : i <= j -> seq i (S j - i) = (seq i (j - i) ++ [j])%list.
Proof. intros L. replace (S j - i) with (S (j - i)) by lia. rewrite seq_S. do 3 f_equal. lia. Qed.
Lemma instants_snoc f i : instants_of one n f 0 (S i) = (instants_of one n f 0 i ++ (if f i then [tick one (i / n)] else []))%list.
Proof. unfold instants_of. rewrite seq_snoc by lia. rewrite filter_app, map_app. cbn [filter]. now destruct (f i). Qed.
Lemma lists_next i : lists_at (S i) =
  PLists (instants_of one n (asking n) 0 i ++ (if asking n i then [tick one (i / n)] else []))
    (instants_of one n (answering n) 0 i ++ (if answering n i then [tick one (i / n)] else []))
    (if (n <=? i) && answering n i then S (List.length (filter (answering n) (seq n (i - n)))) else List.length (filter (answering n) (seq n (i - n)))).
Proof.
  unfold lists_at. rewrite !instants_snoc. f_equal. destruct (Nat.leb_spec n i) as [L|L].
  - rewrite seq_snoc by lia. rewrite filter_app, app_length. cbn [filter]. destruct (answering n i); cbn; lia.
  - replace (S i - n) with 0 by lia. replace (i - n) with 0 by lia. reflexivity.
Qed.
Lemma answered_some i : 2 <= i -> instants_of one n (answering n) 0 i <> [].
Proof.
  intros L. unfold instants_of. replace (i - 0) with (S (S (i - 2))) by lia. cbn [seq filter].
  replace (answering n 1) with true. - destruct (answering n 0); discriminate.
  - symmetry. unfold answering. cbn [Nat.leb andb Nat.sub]. rewrite Nat.mod_0_l by lia. reflexivity.
Qed.
(** Who holds an answer is next to act when the time of the next answer comes. *)
Lemma holder_next c a : 1 <= c -> a < n -> holder (S c) a = (a =? prev ((1 + c * (n - 1)) mod n)).
Proof.
  intros C L. unfold holder, prev. cbn [Nat.leb andb]. rewrite Nat.add_mod_idemp_l by lia. do 2 f_equal. lia.
Qed.

(** One activation, of the agent [m] in the step [t]. *)
Lemma ring_turn t m c cur (w : aworld) : m < n -> n_ltb (tick one t) PInf = true ->
  let i := t * n + m in
  span i c -> mail (fun a => a <? i) (holder c) cur w -> e_rest w = lists_at i ->
  exists w' c' cur', presume one sixty n (tick one t) m (if m <? i then PAsk (cur m) PInf else PBegin) w =
      (w', [], GYield (PNum one) (PAsk (cur' m) PInf)) /\
    (forall a, a <> m -> cur' a = cur a) /\ span (S i) c' /\ mail (fun a => a <? S i) (holder c') cur' w' /\ e_rest w' = lists_at (S i).
Proof.
  intros L T i SP M R. assert (DV : i / n = t). { subst i. rewrite Nat.div_add_l by lia. rewrite Nat.div_small by auto. lia. }
  assert (MD : i mod n = m). { subst i. rewrite Nat.add_comm, Nat.mod_add by lia. now apply Nat.mod_small. }
  destruct (Nat.lt_ge_cases i n) as [I|I].
  - (* The first activation of the agent. *)
    assert (t = 0) as -> by (subst i; destruct t; [reflexivity|nia]). assert (EI : i = m) by (subst i; lia). rewrite EI in *. clear EI DV MD. clear i.
    rewrite Nat.ltb_irrefl. cbn [presume].
    assert (AS : asking n m = true). { unfold asking. now apply Nat.ltb_lt in I as ->. }
    assert (LE : n <=? m = false) by now apply Nat.leb_gt.
    assert (D0 : m / n = 0) by now apply Nat.div_small. assert (SB : m - n = 0) by lia.
    assert (GO : forall f hold' c' (w1 : aworld) ps, mail (fun a => a <? m) hold' cur w1 -> e_rest w1 = PLists (instants_of one n (asking n) 0 m) ps 0 ->
              ps = [] /\ m = 0 \/ ps <> [] -> (forall a, a < m -> hold' a = holder c' a) -> holder c' m = false ->
              exists w' cur', ploop one sixty n (tick one 0) m (S f) w1 = (w', [], GYield (PNum one) (PAsk (cur' m) PInf)) /\
                (forall a, a <> m -> cur' a = cur a) /\ mail (fun a => a <? S m) (holder c') cur' w' /\
                e_rest w' = PLists (instants_of one n (asking n) 0 m ++ [tick one 0]) ps 0).
    { intros f hold' c' w1 ps M1 R1 P1 H1 H2. destruct (mail_ask _ _ _ _ (tick one 0) m f M1 L) as (w' & E & M' & R').
      - left. apply Nat.ltb_irrefl.
      - exact T.
      - rewrite R1. cbn. destruct P1 as [[-> ->]|P1]; [right; reflexivity|now left].
      - exists w', (upd cur m (e_asks w1)). split; [|split; [|split]].
        + rewrite E. unfold upd. now rewrite Nat.eqb_refl.
        + intros a Na. unfold upd. now apply Nat.eqb_neq in Na as ->.
        + eapply mail_ext; [exact M'| |].
          * intros a La. unfold upd. destruct (Nat.eqb_spec a m) as [->|Na]; [symmetry; apply Nat.ltb_lt; lia|].
            apply eq_true_iff_eq. rewrite !Nat.ltb_lt. lia.
          * intros a La. unfold upd. destruct (Nat.eqb_spec a m) as [->|Na]; [auto|]. rewrite Nat.ltb_lt. auto.
        + rewrite R', R1. reflexivity. }
    assert (RS : e_rest w = PLists (instants_of one n (asking n) 0 m) (instants_of one n (answering n) 0 m) 0).
    { rewrite R. unfold lists_at. now replace (m - n) with 0 by lia. }
    destruct (Nat.eq_dec m 0) as [Z|Z]; [|destruct (Nat.eq_dec m 1) as [O|O]].
    + subst m. destruct SP as [SP _]. assert (c = 0) as -> by (destruct SP; [auto|lia]).
      destruct (GO 2 (holder 0) 0 w [] M RS (or_introl (conj eq_refl eq_refl))) as (w' & cur' & E & C' & M' & R'); auto.
      exists w', 0, cur'. split; [exact E|]. split; [exact C'|]. split; [split; [now left|lia]|]. split; [exact M'|].
      rewrite R', lists_next, AS, LE, D0. reflexivity.
    + subst m. assert (c = 0) as -> by (destruct SP as [[?|SP] _]; [auto|nia]).
      assert (P0 : prev 1 = 0). { unfold prev. replace (1 + (n - 1)) with n by lia. apply Nat.mod_same. lia. }
      assert (A1 : answering n 1 = true) by (unfold answering; cbn [Nat.leb andb Nat.sub]; rewrite Nat.mod_0_l by lia; reflexivity).
      destruct (mail_answer _ _ _ _ (tick one 0) 1 M L) as (w1 & calls & q & E1 & M1 & R1); [now rewrite P0|now rewrite P0|].
      rewrite P0 in M1. rewrite RS in R1. cbn [pl_pings pl_pongs pl_responses] in R1.
      assert (H0 : (1 + 1 * (n - 1)) mod n = 0). { replace (1 + 1 * (n - 1)) with n by lia. apply Nat.mod_same. lia. }
      destruct (GO 1 _ 1 w1 _ M1 R1) as (w' & cur' & E & C' & M' & R').
      * right. now destruct (instants_of one n (answering n) 0 1).
      * intros a La. assert (a = 0) as -> by lia. unfold upd, holder. rewrite H0. reflexivity.
      * unfold holder. rewrite H0. reflexivity.
      * exists w', 1, cur'. split; [|split; [exact C'|split; [split; [right; cbn; lia|lia]|split; [exact M'|]]]].
        -- rewrite <- E. cbn [ploop]. rewrite RS. cbn [pl_pongs pl_pings]. 
           replace (instants_of one n (answering n) 0 1) with (@nil num) by reflexivity.
           replace (instants_of one n (asking n) 0 1) with [tick one 0].
           { rewrite E1. reflexivity. }
           unfold instants_of. cbn [Nat.sub seq filter]. unfold asking. assert (X : 0 <? n = true) by (apply Nat.ltb_lt; lia). rewrite X. cbn [orb map]. now rewrite Nat.div_0_l by lia.
        -- rewrite R', lists_next, AS, LE, A1, D0, SB. reflexivity.
    + assert (AN : answering n m = false). { unfold answering. rewrite Nat.mod_small by lia. destruct (m - 1 =? 0) eqn:X; [apply Nat.eqb_eq in X; lia|apply andb_false_r]. }
      assert (c = 1) as ->. { destruct SP as [[->|SP] SQ]; [lia|]. destruct c as [|[|c]]; [lia|reflexivity|exfalso; nia]. }
      destruct (GO 2 (holder 1) 1 w _ M RS) as (w' & cur' & E & C' & M' & R').
      * right. apply answered_some. lia.
      * auto.
      * unfold holder. replace (1 + 1 * (n - 1)) with n by lia. rewrite Nat.mod_same by lia. cbn. now apply Nat.eqb_neq.
      * exists w', 1, cur'. split; [exact E|]. split; [exact C'|]. split; [|split; [exact M'|]].
        -- pose proof (span_next m 1 SP ltac:(lia)) as X. now rewrite AN in X.
        -- rewrite R', lists_next, AS, LE, AN, D0, SB, app_nil_r. reflexivity.
  - (* A later one. *)
    assert (C1 : 1 <= c) by (destruct SP as [_ SP]; destruct c; [lia|lia]).
    assert (X : m <? i = true) by (apply Nat.ltb_lt; lia). rewrite X. clear X. cbn [presume]. unfold ask_resume. rewrite T.
    pose proof (span_answering i c SP ltac:(lia)) as AW. pose proof (span_next i c SP ltac:(lia)) as SN.
    assert (RP : e_reply w (cur m) = holder c m) by (apply (ml_reply _ _ _ _ M); auto; apply Nat.ltb_lt; lia). rewrite RP.
    assert (ALL : forall j a, i <= j -> a < n -> (a <? i) = (a <? j)). { intros j a J La. assert (Y : a <? i = true) by (apply Nat.ltb_lt; lia). rewrite Y. symmetry. apply Nat.ltb_lt. lia. }
    destruct (answering n i) eqn:AN.
    + assert (EI : i = 1 + c * (n - 1)) by now apply AW. assert (HM : holder c m = true).
      { unfold holder. rewrite <- EI, MD, Nat.eqb_refl. apply Nat.leb_le in C1. now rewrite C1. }
      rewrite HM. rewrite R. cbn [lists_at pl_pings pl_pongs pl_responses].
      match goal with |- context [process_messages false on_msg (tick one t) m ?y] => set (w0 := y) end.
      assert (M0 : mail (fun a => a <? i) (holder c) cur w0) by (eapply mail_same; [exact M|reflexivity|reflexivity|reflexivity]).
      assert (HP : holder c (prev m) = false). { unfold holder. rewrite <- EI, MD. apply andb_false_iff. right. apply Nat.eqb_neq. now apply prev_neq. }
      destruct (mail_answer _ _ _ _ (tick one t) m M0 L) as (w1 & calls & q & E1 & M1 & R1); [apply Nat.ltb_lt; pose proof (prev_lt m); lia|exact HP|].
      rewrite E1. cbn [w0 set_rest e_rest pl_pings pl_pongs pl_responses] in R1.
      destruct (mail_ask _ _ _ _ (tick one t) m 2 M1 L) as (w' & E & M' & R').
      * right. unfold upd. destruct (m =? prev m); auto.
      * exact T.
      * left. rewrite R1. cbn. now destruct (instants_of one n (answering n) 0 i).
      * exists w', (S c), (upd cur m (e_asks w1)). split; [|split; [|split; [exact SN|split]]].
        -- rewrite E. unfold upd. now rewrite Nat.eqb_refl.
        -- intros a Na. unfold upd. now apply Nat.eqb_neq in Na as ->.
        -- eapply mail_ext; [exact M'| |].
           ++ intros a La. unfold upd. destruct (Nat.eqb_spec a m) as [->|Na]; [symmetry; apply Nat.ltb_lt; lia|]. apply ALL; lia.
           ++ intros a La _. rewrite holder_next, <- EI, MD by auto. unfold upd. destruct (Nat.eqb_spec a m) as [->|Na].
              ** symmetry. apply Nat.eqb_neq. intros Y. symmetry in Y. now apply prev_neq in Y.
              ** destruct (a =? prev m) eqn:V; [reflexivity|]. unfold holder. rewrite <- EI, MD. apply Nat.eqb_neq in Na. rewrite Na. apply andb_false_r.
        -- rewrite R', R1, lists_next, AN, DV. unfold asking. rewrite AN, orb_true_r. apply Nat.leb_le in I. rewrite I. reflexivity.
    + assert (HM : holder c m = false).
      { unfold holder. apply andb_false_iff. right. apply Nat.eqb_neq. rewrite <- MD. intros Y. assert (NE : i <> 1 + c * (n - 1)) by (intros Z; apply AW in Z; discriminate).
        destruct SP as [[->|SP] SQ]; [lia|]. set (e := 1 + c * (n - 1) - i). assert (Le : 0 < e < n) by (subst e; nia).
        assert (EE : 1 + c * (n - 1) = i + e) by (subst e; lia). rewrite EE in Y. rewrite <- Nat.add_mod_idemp_l in Y by lia. rewrite MD in Y.
        destruct (Nat.lt_ge_cases (m + e) n) as [V|V]; [rewrite Nat.mod_small in Y by auto; lia|].
        replace (m + e) with (m + e - n + 1 * n) in Y by lia. rewrite Nat.mod_add, Nat.mod_small in Y by lia. lia. }
      rewrite HM. exists w, c, cur. split; [reflexivity|]. split; [auto|]. split; [exact SN|]. split.
      * eapply mail_ext; [exact M| |auto]. intros a La. apply ALL; lia.
      * rewrite R, lists_next, AN. unfold asking. rewrite AN. assert (Y : i <? n = false) by now apply Nat.ltb_ge. rewrite Y. cbn [orb]. rewrite !app_nil_r, andb_false_r. reflexivity.
Qed.

Lemma ring_step s t m c cur (x x' : astate) ops o : n_truthy one = true -> m < n -> s_time s = tick one t -> n_ltb (tick one t) PInf = true ->
  ring (t * n + m) c cur x -> agent_step (ping one sixty n) no_float s m x = (x', ops, o) ->
  (exists c' cur', ring (S (t * n + m)) c' cur' x') /\ ops = [] /\ o = Ret (Some one).
Proof.
  intros TR L TM T [A SP M R C] E. destruct x as [w co]. cbn [fst snd] in *.
  destruct (ring_turn t m c cur (fw_rest w) L T SP M R) as (r' & c' & cur' & E1 & O1 & S1 & M1 & R1). set (i := t * n + m) in *.
  assert (CM := C m L).
  destruct (ping_act one sixty n s m w co (if m <? i then PAsk (cur m) PInf else PBegin) r' (PAsk (cur' m) PInf) TR (A m)) as (co' & E2 & C2 & O2).
  { rewrite CM. destruct (m <? i); auto. } { rewrite TM. exact E1. }
  rewrite E2 in E. injection E as <- <- <-. split; [|auto]. exists c', cur'. constructor; cbn [fst snd fw_agents fw_rest]; auto.
  intros a La. destruct (Nat.eq_dec a m) as [->|N].
  - rewrite C2. assert (X : m <? S i = true) by (apply Nat.ltb_lt; subst i; lia). now rewrite X.
  - rewrite O2, C, O1 by auto. assert (X : (a <? S i) = (a <? i)); [|now rewrite X].
    apply eq_true_iff_eq. rewrite !Nat.ltb_lt. split; [|lia]. intros Y. destruct t; subst i; [|nia]. lia.
Qed.
Lemma ring_run di k : n_truthy one = true -> ticks one k ->
  exists s x tr c cur, ping_run one sixty n di k = (s, x, tr) /\ s_time s = tick one k /\ s_steps s = k /\ ring (k * n) c cur x.
Proof.
  intros TR T. unfold ping_run.
  destruct (forever_start (agent_user (ping one sixty n) no_float (fun l w => (w, l))) di one (seq 0 n) false
     (fun t l x => l = seq 0 n /\ exists c cur, ring (t * n) c cur x)
     (fun t done todo x => exists m, done = seq 0 m /\ todo = seq m (n - m) /\ m <= n /\ exists c cur, ring (t * n + m) c cur x))
    with (n := k) (N := n) (w := (FWorld (fun _ : aid => FAgent (KPlain tt) true None) (EWorld (fun _ => Some []) (fun _ => 0) (fun _ => false) 0 (PLists [] [] 0)), @no_cors (frame ppoint)))
    as (s & x & l & tr & E & A & B & _ & C & c & cur & D); auto.
  - intros j l w w' l' (-> & H) E. injection E as <- <-. split; [|reflexivity]. exists 0. rewrite Nat.add_0_r, Nat.sub_0_r. repeat (split; [reflexivity||lia|]). exact H.
  - intros j s done a todo x x' ops o RG TM FT (m & -> & TD & M & c & cur & H) E.
    assert (NM : n - m = S (n - S m)). { destruct (Nat.eq_dec m n) as [->|NE]; [|lia]. rewrite Nat.sub_diag in TD. discriminate. }
    rewrite NM in TD. cbn [seq] in TD. injection TD as -> ->.
    destruct (ring_step s j m c cur x x' ops o TR ltac:(lia) TM FT H E) as (A & B & ->). split; [|split; [exact B|]].
    + exists (S m). rewrite seq_S. split; [reflexivity|]. split; [reflexivity|]. split; [lia|]. rewrite Nat.add_succ_r. exact A.
    + exists (Some one). split; [reflexivity|]. cbn. now rewrite TR.
  - intros j l x (m & -> & TD & M & c & cur & H).
    assert (m = n) as ->. { destruct (Nat.eq_dec m n) as [|NE]; auto. replace (n - m) with (S (n - S m)) in TD by lia. discriminate. }
    split; [reflexivity|]. exists c, cur. now replace (S j * n) with (j * n + n) by lia.
  - lia.
  - split; [reflexivity|]. exists 0, (fun _ => 0). constructor; try reflexivity.
    + split; [now left|apply Nat.le_0_l].
    + constructor; try (intros; discriminate). reflexivity.
  - exists s, x, tr, c, cur. auto.
Qed.
(** How many activations answer. *)
Lemma answers_count : forall i c, span i c -> List.length (filter (answering n) (seq 0 i)) = c.
Proof.
  induction i as [|i IH]; intros c SP.
  - destruct SP as [[->|SP] _]; [reflexivity|nia].
  - rewrite seq_S, filter_app, app_length. cbn [filter Nat.add]. destruct (Nat.eq_dec i 0) as [->|Z].
    { destruct SP as [[->|SP] _]; [reflexivity|nia]. }
    destruct (answering n i) eqn:AN; cbn [List.length].
    + assert (AN' := AN). unfold answering in AN'. apply andb_true_iff in AN' as [_ AN']. apply Nat.eqb_eq, Nat.mod_divide in AN'; [|lia]. destruct AN' as [q Q].
      assert (EI : i = 1 + q * (n - 1)) by lia. destruct SP as [SP SQ].
      assert (c = S q) as -> by (destruct SP as [->|SP]; nia). rewrite (IH q); [lia|]. split; [|lia]. destruct q; [now left|right; rewrite Nat.sub_succ, Nat.sub_0_r; nia].
    + rewrite (IH c); [lia|]. destruct SP as [SP SQ]. split; [|lia]. destruct SP as [SP|SP]; [auto|]. destruct (Nat.eq_dec i (1 + (c - 1) * (n - 1))) as [EI|NE]; [|right; lia].
      exfalso. assert (SP0 : span i (c - 1)). { split; [|lia]. destruct c as [|[|c]]; [left; lia|left; lia|right; nia]. }
      apply (span_answering i (c - 1) SP0) in EI; [congruence|lia].
Qed.
Lemma ring_span k : 0 < k -> span (n * k) (k + (k - 1 + (n - 2)) / (n - 1)).
Proof.
  intros K. set (q := (k - 1 + (n - 2)) / (n - 1)). pose proof (Nat.div_mod (k - 1 + (n - 2)) (n - 1) ltac:(lia)) as D.
  pose proof (Nat.mod_upper_bound (k - 1 + (n - 2)) (n - 1) ltac:(lia)) as U. fold q in D. split; [right|]; nia.
Qed.
End Ring.
