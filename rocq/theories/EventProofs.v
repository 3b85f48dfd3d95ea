(** Proofs about messages. *)
From Coq Require Import ZArith List Bool Arith Lia.
From Verif Require Import Num TimedModel EventModel EventSpec.
Import ListNotations.

Section Proofs.
Context {AR : Arith} {V W : Type}.
Variable v_none : V.
Variable on_receive : num -> aid -> V -> option aid -> eworld V W -> W * list (sending V) * option V.
Implicit Types w : eworld V W.

Notation run_sending := (run_sending (W := W) v_none).
Notation run_sendings := (run_sendings (W := W) v_none).
Notation process_loop := (process_loop v_none on_receive).
Notation process_messages := (process_messages v_none on_receive).

(** * What the primitives change *)
Lemma inbox_append w a m b :
  e_inbox (append w a m) b =
  match e_inbox w b with
  | Some l => Some (if Nat.eqb b a then l ++ [m] else l)
  | None => None
  end.
Proof.
  unfold append. destruct (e_inbox w a) eqn:E; simpl.
  - destruct (Nat.eqb b a) eqn:B.
    + apply Nat.eqb_eq in B; subst. rewrite E. reflexivity.
    + destruct (e_inbox w b); reflexivity.
  - destruct (Nat.eqb b a) eqn:B.
    + apply Nat.eqb_eq in B; subst. rewrite E. reflexivity.
    + destruct (e_inbox w b); reflexivity.
Qed.

Lemma append_other w a m :
  e_count (append w a m) = e_count w /\ e_reply (append w a m) = e_reply w /\
  e_asks (append w a m) = e_asks w /\ e_rest (append w a m) = e_rest w.
Proof. unfold append. destruct (e_inbox w a); simpl; auto. Qed.

Definition is_sender (s : option aid) (a : aid) : bool :=
  match s with Some b => Nat.eqb a b | None => false end.

(** How many times [a] gets the message. *)
Lemma inbox_broadcast now p s e t l : forall w b,
  e_inbox (broadcast now l p s e t w) b =
  match e_inbox w b with
  | Some i => Some (i ++ repeat (Msg p s (expiration_of now e t) None)
                           (if is_sender s b then 0 else count_occ Nat.eq_dec l b))
  | None => None
  end.
Proof.
  induction l as [|a l IH]; intros w b; simpl.
  - destruct (e_inbox w b); auto. destruct (is_sender s b); simpl; rewrite app_nil_r; auto.
  - fold (is_sender s a). destruct (is_sender s a) eqn:S.
    + rewrite IH. destruct (e_inbox w b); auto. do 2 f_equal.
      destruct (Nat.eq_dec a b) as [->|N]; [rewrite S; auto|reflexivity].
    + rewrite IH, inbox_append. destruct (e_inbox w b); auto. f_equal.
      destruct (Nat.eq_dec a b) as [->|N].
      * rewrite Nat.eqb_refl, S. simpl. rewrite <- app_assoc. reflexivity.
      * replace (Nat.eqb b a) with false; [reflexivity|]. symmetry. apply Nat.eqb_neq. auto.
Qed.

Lemma broadcast_other now p s e t l : forall w,
  let w' := broadcast now l p s e t w in
  e_count w' = e_count w /\ e_reply w' = e_reply w /\ e_asks w' = e_asks w /\ e_rest w' = e_rest w.
Proof.
  induction l as [|a l IH]; intros w; simpl; auto.
  destruct (match s with Some b => Nat.eqb a b | None => false end); auto.
  destruct (IH (append w a (Msg p s (expiration_of now e t) None))) as (A & B & C & D).
  destruct (append_other w a (Msg p s (expiration_of now e t) None)) as (A' & B' & C' & D').
  repeat split; congruence.
Qed.

(** A sending adds messages at the end of inboxes; the asks among them are new. *)
Lemma run_sending_inbox now x w b :
  exists more, e_inbox (run_sending now x w) b =
               match e_inbox w b with Some l => Some (l ++ more) | None => None end /\
               (forall m k, In m more -> m_ask m = Some k -> e_asks w <= k < e_asks (run_sending now x w)) /\
               (reaches b x = false -> more = []).
Proof.
  destruct x as [a p s|l p s e t|a p t]; simpl.
  - unfold tell. rewrite inbox_append. exists (if Nat.eqb b a then [Msg p s None None] else []).
    split; [|split].
    + destruct (e_inbox w b); auto. destruct (Nat.eqb b a); rewrite ?app_nil_r; auto.
    + intros m k I. destruct (Nat.eqb b a); simpl in I; [|tauto]. destruct I as [<-|[]]. discriminate.
    + intros ->. reflexivity.
  - rewrite inbox_broadcast.
    eexists. split; [reflexivity|split].
    + intros m k I. apply repeat_spec in I. subst m. discriminate.
    + intros R. unfold is_sender. destruct s as [c|].
      * destruct (Nat.eqb b c); simpl in *; auto.
        rewrite andb_true_r in R. replace (count_occ Nat.eq_dec l b) with 0; auto.
        symmetry. apply count_occ_not_In. intros I.
        assert (existsb (Nat.eqb b) l = true) by (apply existsb_exists; exists b; rewrite Nat.eqb_refl; auto).
        congruence.
      * simpl in R. rewrite andb_true_r in R. replace (count_occ Nat.eq_dec l b) with 0; auto.
        symmetry. apply count_occ_not_In. intros I.
        assert (existsb (Nat.eqb b) l = true) by (apply existsb_exists; exists b; rewrite Nat.eqb_refl; auto).
        congruence.
  - rewrite inbox_append. simpl.
    exists (if Nat.eqb b a then [Msg p (Some a) None (Some (e_asks w))] else []).
    split; [|split].
    + destruct (e_inbox w b); auto. destruct (Nat.eqb b a); rewrite ?app_nil_r; auto.
    + intros m k I. destruct (Nat.eqb b a); simpl in I; [|tauto]. destruct I as [<-|[]]. simpl.
      intros E. injection E as <-.
      destruct (append_other (EWorld (e_inbox w) (e_count w)
        (fun j => if Nat.eqb j (e_asks w) then v_none else e_reply w j) (S (e_asks w)) (e_rest w))
        a (Msg p (Some a) None (Some (e_asks w)))) as (_ & _ & -> & _). simpl. lia.
    + intros ->. reflexivity.
Qed.

Lemma run_sending_other now x w :
  let w' := run_sending now x w in
  e_count w' = e_count w /\ e_asks w <= e_asks w' /\
  (forall k, k < e_asks w -> e_reply w' k = e_reply w k).
Proof.
  destruct x as [a p s|l p s e t|a p t]; simpl.
  - unfold tell. destruct (append_other w a (Msg p s None None)) as (A & B & C & _).
    rewrite A, B, C. auto.
  - destruct (broadcast_other now p s e t l w) as (A & B & C & _). rewrite A, B, C. auto.
  - match goal with |- context [append ?w1 ?a1 ?m1] =>
      destruct (append_other w1 a1 m1) as (A & B & C & _) end.
    rewrite A, B, C. simpl. repeat split; auto.
    intros k K. replace (Nat.eqb k (e_asks w)) with false; auto.
    symmetry. apply Nat.eqb_neq. lia.
Qed.

Lemma run_sendings_cons now x l w :
  run_sendings now (x :: l) w = run_sendings now l (run_sending now x w).
Proof. reflexivity. Qed.

Lemma run_sendings_other now l : forall w,
  let w' := run_sendings now l w in
  e_count w' = e_count w /\ e_asks w <= e_asks w' /\
  (forall k, k < e_asks w -> e_reply w' k = e_reply w k).
Proof.
  induction l as [|x l IH]; intros w; [simpl; auto|].
  cbv zeta. rewrite run_sendings_cons.
  destruct (run_sending_other now x w) as (A & B & C).
  destruct (IH (run_sending now x w)) as (A' & B' & C').
  repeat split; [congruence|lia|]. intros k K. rewrite C' by lia. auto.
Qed.

Lemma run_sendings_inbox now l : forall w b,
  exists more, e_inbox (run_sendings now l w) b =
               match e_inbox w b with Some i => Some (i ++ more) | None => None end /\
               (forall m k, In m more -> m_ask m = Some k -> e_asks w <= k < e_asks (run_sendings now l w)) /\
               (existsb (reaches b) l = false -> more = []).
Proof.
  induction l as [|x l IH]; intros w b.
  - exists []. simpl. split; [destruct (e_inbox w b); rewrite ?app_nil_r; auto|split; [intros m k []|auto]].
  - rewrite run_sendings_cons. destruct (run_sending_inbox now x w b) as (m1 & E1 & F1 & G1).
    destruct (IH (run_sending now x w) b) as (m2 & E2 & F2 & G2).
    destruct (run_sending_other now x w) as (_ & L1 & _).
    assert (L2 : e_asks (run_sending now x w) <= e_asks (run_sendings now l (run_sending now x w))).
    { apply run_sendings_other. }
    exists (m1 ++ m2). split; [|split].
    + rewrite E2, E1. destruct (e_inbox w b); auto. rewrite app_assoc. reflexivity.
    + intros m k I A. apply in_app_or in I as [I|I].
      * specialize (F1 m k I A). lia.
      * specialize (F2 m k I A). lia.
    + intros R. simpl in R. apply orb_false_iff in R as [R1 R2]. rewrite (G1 R1), (G2 R2). reflexivity.
Qed.

(** * The loop of [process_messages] *)
Lemma last_answer_cons k m o l :
  last_answer k ((m, o) :: l : list (call V)) =
  match last_answer k l with
  | Some v => Some v
  | None => if match m_ask m with Some j => Nat.eqb j k | None => false end then o else None
  end.
Proof. reflexivity. Qed.

Lemma fresh_expired now (m : msg V) : fresh now m = negb (expired m now).
Proof. unfold fresh, expired. destruct (m_exp m); auto. Qed.

(** One call of the handler. *)
Lemma one_call now a (m : msg V) w r sends res :
  on_receive now a (m_payload m) (m_sender m) (add_count w a) = (r, sends, res) ->
  let w2 := run_sendings now sends (set_rest (add_count w a) r) in
  (forall b, e_count w2 b = e_count w b + (if Nat.eqb b a then 1 else 0)) /\
  e_asks w <= e_asks w2 /\
  (forall k, k < e_asks w -> e_reply w2 k = e_reply w k) /\
  (forall b, exists more, e_inbox w2 b =
             match e_inbox w b with Some i => Some (i ++ more) | None => None end /\
             (forall m' k, In m' more -> m_ask m' = Some k -> e_asks w <= k < e_asks w2) /\
             (existsb (reaches b) sends = false -> more = [])).
Proof.
  intros _ w2.
  destruct (run_sendings_other now sends (set_rest (add_count w a) r)) as (A & B & C).
  fold w2 in A, B, C. simpl in *.
  repeat split; auto.
  - intros b. rewrite A. destruct (Nat.eqb b a); lia.
  - intros b. exact (run_sendings_inbox now sends (set_rest (add_count w a) r) b).
Qed.

Definition set_answer w (m : msg V) (v : V) : eworld V W :=
  match m_ask m with Some k => set_reply w k v | None => w end.

Lemma set_answer_other w m v :
  e_inbox (set_answer w m v) = e_inbox w /\ e_count (set_answer w m v) = e_count w /\
  e_asks (set_answer w m v) = e_asks w.
Proof. unfold set_answer. destruct (m_ask m); auto. Qed.

Lemma set_answer_reply w m v k :
  e_reply (set_answer w m v) k =
  if match m_ask m with Some j => Nat.eqb j k | None => false end then v else e_reply w k.
Proof.
  unfold set_answer. destruct (m_ask m) as [j|]; simpl; auto.
  rewrite (Nat.eqb_sym j k). reflexivity.
Qed.

Lemma process_loop_spec now a l : forall w w' calls p,
  process_loop now a l w = (w', calls, p) ->
  (e_asks w <= e_asks w') /\
  (forall k, k < e_asks w ->
     e_reply w' k = match last_answer k calls with Some v => v | None => e_reply w k end) /\
  (forall b, exists more, e_inbox w' b =
             match e_inbox w b with Some i => Some (i ++ more) | None => None end /\
             (forall m' k, In m' more -> m_ask m' = Some k -> e_asks w <= k < e_asks w') /\
             (p <> PMutated -> p <> PRaise -> b = a -> more = [])) /\
  (exists rest, filter (fresh now) l = map fst calls ++ rest) /\
  (forall valid, p = POk valid ->
     valid = filter (fresh now) l /\ map fst calls = valid /\
     (forall m o, In (m, o) calls -> o <> None) /\
     e_count w' a = e_count w a + List.length l).
Proof.
  induction l as [|m l IH]; intros w w' calls p E; simpl in E.
  - injection E as <- <- <-.
    split; [auto|split; [auto|split; [|split]]].
    + intros b. exists []. split; [|split; [intros m' k []|auto]]. destruct (e_inbox w b); rewrite ?app_nil_r; auto.
    + exists []. reflexivity.
    + intros valid V1. injection V1 as <-. simpl. repeat split; auto.
  - destruct (expired m now) eqn:X.
    + apply IH in E as (A & B & C & (rest & D) & F). simpl in A, B, C.
      split; [auto|split; [auto|split; [auto|split]]].
      * exists rest. simpl. rewrite fresh_expired, X. exact D.
      * intros valid V1. destruct (F valid V1) as (F1 & F2 & F3 & F4).
        simpl. rewrite fresh_expired, X. simpl. repeat split; auto.
        rewrite F4. simpl. rewrite Nat.eqb_refl. lia.
    + destruct (on_receive now a (m_payload m) (m_sender m) (add_count w a)) as [[r sends] res] eqn:R.
      destruct (one_call now a m w r sends res R) as (OC & OA & OR & OI).
      destruct res as [v|].
      * fold (set_answer (run_sendings now sends (set_rest (add_count w a) r)) m v) in E.
        set (w2 := run_sendings now sends (set_rest (add_count w a) r)) in *.
        destruct (set_answer_other w2 m v) as (SI & SC & SA).
        pose proof (set_answer_reply w2 m v) as SR.
        destruct (existsb (reaches a) sends) eqn:M.
        -- injection E as <- <- <-. rewrite SA, SI.
           split; [auto|split; [|split; [|split]]].
           ++ intros k K. rewrite SR. simpl. destruct (match m_ask m with Some j => Nat.eqb j k | None => false end); auto.
           ++ intros b. destruct (OI b) as (more & O1 & O2 & O3). exists more. split; [exact O1|split; [exact O2|]].
              intros N. congruence.
           ++ simpl. rewrite fresh_expired, X. simpl. eexists. reflexivity.
           ++ discriminate.
        -- destruct (process_loop now a l (set_answer w2 m v)) as [[w4 calls4] p4] eqn:L.
           injection E as <- <- <-.
           apply IH in L as (A & B & C & (rest & D) & F).
           rewrite SA, SI in *.
           split; [lia|split; [|split; [|split]]].
           ++ intros k K. rewrite last_answer_cons, (B k) by lia.
              destruct (last_answer k calls4); auto. rewrite SR.
              destruct (match m_ask m with Some j => Nat.eqb j k | None => false end); auto.
           ++ intros b. destruct (OI b) as (m1 & O1 & O2 & O3). destruct (C b) as (m2 & C1 & C2 & C3).
              exists (m1 ++ m2). rewrite C1, O1. split; [|split].
              ** destruct (e_inbox w b); auto. rewrite app_assoc. reflexivity.
              ** intros m' k I As. apply in_app_or in I as [I|I].
                 --- specialize (O2 m' k I As). lia.
                 --- specialize (C2 m' k I As). lia.
              ** intros N1 N2 ->. rewrite (O3 M), C3; auto.
                 destruct p4; congruence. destruct p4; congruence.
           ++ simpl. rewrite fresh_expired, X. simpl. rewrite D. eexists. reflexivity.
           ++ intros valid V1. destruct p4 as [valid4| |]; try discriminate. injection V1 as <-.
              destruct (F valid4 eq_refl) as (F1 & F2 & F3 & F4).
              simpl. rewrite fresh_expired, X. simpl. repeat split; try congruence.
              ** intros m' o [I|I]; [injection I as <- <-; discriminate|eauto].
              ** rewrite F4, SC, OC, Nat.eqb_refl. lia.
      * injection E as <- <- <-.
        split; [auto|split; [|split; [|split]]].
        -- intros k K. rewrite OR by auto. simpl.
           destruct (match m_ask m with Some j => Nat.eqb j k | None => false end); auto.
        -- intros b. destruct (OI b) as (more & O1 & O2 & O3). exists more. split; [exact O1|split; [exact O2|congruence]].
        -- simpl. rewrite fresh_expired, X. simpl. eexists. reflexivity.
        -- discriminate.
Qed.

Lemma process_spec now a w l w' calls valid :
  e_inbox w a = Some l -> process_messages now a w = (w', calls, POk valid) ->
  valid = filter (fresh now) l /\ map fst calls = valid /\
  (forall m o, In (m, o) calls -> o <> None) /\
  e_inbox w' a = Some [] /\ e_count w' a = e_count w a + List.length l /\
  (forall k, k < e_asks w ->
     e_reply w' k = match last_answer k calls with Some v => v | None => e_reply w k end).
Proof.
  intros I E. unfold EventModel.process_messages in E. rewrite I in E.
  destruct (process_loop now a l w) as [[w1 calls1] p1] eqn:L.
  destruct p1 as [valid1| |]; try discriminate. injection E as <- <- <-.
  apply process_loop_spec in L as (A & B & C & D & F).
  destruct (F valid1 eq_refl) as (F1 & F2 & F3 & F4).
  split; [auto|split; [auto|split; [auto|split; [|split; [auto|auto]]]]].
  simpl. rewrite Nat.eqb_refl. reflexivity.
Qed.

Lemma process_calm now a w l :
  calm on_receive a -> e_inbox w a = Some l ->
  exists w' calls valid, process_messages now a w = (w', calls, POk valid).
Proof.
  intros C I. unfold EventModel.process_messages. rewrite I.
  assert (H : forall l w, exists w' calls valid, process_loop now a l w = (w', calls, POk valid)).
  { clear l w I. induction l as [|m l IH]; intros w; simpl.
    - eauto.
    - destruct (expired m now); auto.
      specialize (C now (m_payload m) (m_sender m) (add_count w a)).
      destruct (on_receive now a (m_payload m) (m_sender m) (add_count w a)) as [[r sends] [v|]]; [|tauto].
      destruct C as [_ C].
      replace (existsb (reaches a) sends) with false.
      + match goal with |- context [process_loop now a l ?x] => destruct (IH x) as (w' & calls & valid & ->) end.
        eauto.
      + symmetry. apply not_true_iff_false. intros E. apply existsb_exists in E as (x & X1 & X2).
        rewrite C in X2; congruence. }
  destruct (H l w) as (w' & calls & valid & ->). eauto.
Qed.

(** Whatever happens, messages that were not handled successfully stay. *)
Lemma process_failed now a w l w' calls p :
  e_inbox w a = Some l -> process_messages now a w = (w', calls, p) ->
  (forall valid, p <> POk valid) ->
  exists more, e_inbox w' a = Some (l ++ more).
Proof.
  intros I E N. unfold EventModel.process_messages in E. rewrite I in E.
  destruct (process_loop now a l w) as [[w1 calls1] p1] eqn:L.
  destruct p1 as [valid1| |].
  - injection E as <- <- <-. destruct (N valid1); auto.
  - injection E as <- <- <-. apply process_loop_spec in L as (_ & _ & C & _).
    destruct (C a) as (more & C1 & _). rewrite I in C1. eauto.
  - injection E as <- <- <-. apply process_loop_spec in L as (_ & _ & C & _).
    destruct (C a) as (more & C1 & _). rewrite I in C1. eauto.
Qed.

Lemma process_mutated now a w l m l' r sends v :
  e_inbox w a = Some l -> filter (fresh now) l = m :: l' ->
  (forall w1, on_receive now a (m_payload m) (m_sender m) w1 = (r, sends, Some v)) ->
  existsb (reaches a) sends = true ->
  exists w', process_messages now a w = (w', [(m, Some v)], PMutated) /\
             exists more, e_inbox w' a = Some (l ++ more).
Proof.
  intros I F R M.
  assert (E : exists w', process_messages now a w = (w', [(m, Some v)], PMutated)).
  { unfold EventModel.process_messages. rewrite I. clear I.
    revert w. induction l as [|m0 l IH]; intros w; simpl in *; [discriminate|].
    rewrite fresh_expired in F. destruct (expired m0 now); simpl in F.
    - destruct (IH F (add_count w a)) as (w' & E). exists w'.
      destruct (process_loop now a l (add_count w a)) as [[? ?] []]; auto; try discriminate.
    - injection F as -> _. rewrite R, M. eauto. }
  destruct E as (w' & E). exists w'. split; auto.
  eapply process_failed; eauto. discriminate.
Qed.

(** * [received] *)
Lemma received_empty now a deadline w w' calls :
  received_resume v_none on_receive now a deadline true w = (w', calls, RInbox) ->
  e_inbox w' a = Some [].
Proof.
  unfold received_resume. destruct (n_ltb now deadline); [|discriminate].
  destruct (e_inbox w a) as [[|m l]|] eqn:I; try discriminate.
  destruct (process_messages now a w) as [[w1 c1] p1] eqn:E.
  destruct p1 as [valid1| |]; try discriminate. intros H. injection H as <- <-.
  eapply process_spec in E as (_ & _ & _ & E & _); eauto.
Qed.

Lemma received_cases now a deadline process w l :
  e_inbox w a = Some l ->
  let '(w', calls, r) := received_resume v_none on_receive now a deadline process w in
  (r = RTimedOut <-> n_ltb now deadline = false) /\
  (r = RWait <-> n_ltb now deadline = true /\ l = []) /\
  (process = false -> w' = w /\ calls = [] /\
     (r = RInbox <-> n_ltb now deadline = true /\ l <> [])).
Proof.
  intros I. unfold received_resume. rewrite I. destruct (n_ltb now deadline) eqn:T.
  - destruct l as [|m l].
    + repeat split; try tauto; try discriminate; try congruence.
    + destruct process.
      * destruct (process_messages now a w) as [[w1 c1] [|  |]];
          (repeat split; try discriminate; try (intros [_ N]; discriminate)).
      * repeat split; try discriminate; auto. intros [_ N]; discriminate.
  - repeat split; auto; try discriminate; intros [N _]; discriminate.
Qed.

(** * [broadcast] *)
Lemma broadcast_once now p s e t l w : NoDup l ->
  let w' := broadcast now l p s e t w in
  (forall b i, e_inbox w b = Some i -> In b l -> s <> Some b ->
     e_inbox w' b = Some (i ++ [Msg p s (expiration_of now e t) None])) /\
  (forall b, ~ In b l \/ s = Some b \/ e_inbox w b = None -> e_inbox w' b = e_inbox w b) /\
  e_rest w' = e_rest w /\ e_reply w' = e_reply w.
Proof.
  intros ND w'. destruct (broadcast_other now p s e t l w) as (_ & B & _ & D).
  split; [|split; [|split; auto]].
  - intros b i I M S. unfold w'. rewrite inbox_broadcast, I.
    replace (is_sender s b) with false.
    + rewrite (proj1 (NoDup_count_occ' Nat.eq_dec l) ND b M). reflexivity.
    + unfold is_sender. destruct s as [c|]; auto. symmetry. apply Nat.eqb_neq. congruence.
  - intros b C. unfold w'. rewrite inbox_broadcast. destruct (e_inbox w b) as [i|] eqn:I; auto.
    replace (if is_sender s b then 0 else count_occ Nat.eq_dec l b) with 0; [simpl; rewrite app_nil_r; auto|].
    destruct C as [C|[C|C]]; [| |discriminate].
    + destruct (is_sender s b); auto. symmetry. apply count_occ_not_In. auto.
    + subst s. simpl. rewrite Nat.eqb_refl. reflexivity.
Qed.

Lemma broadcast_ttl now t sel p s e ttl w b i w2 calls valid :
  NoDup sel -> e_inbox w b = Some i -> In b sel -> s <> Some b ->
  is_time (n_add now ttl) = true -> is_time t = true ->
  process_messages t b (broadcast now sel p s e (Some ttl) w) = (w2, calls, POk valid) ->
  (In (Msg p s (Some (n_add now ttl)) None) (map fst calls) <-> n_leb t (n_add now ttl) = true).
Proof.
  intros ND I M S T1 T2 P.
  destruct (broadcast_once now p s e (Some ttl) sel w ND) as [B _].
  specialize (B b i I M S). simpl in B.
  destruct (process_spec _ _ _ _ _ _ _ B P) as (P1 & P2 & _).
  rewrite P2, P1, filter_In, in_app_iff. simpl. unfold fresh at 1. simpl. split.
  - intros [_ N]. apply negb_true_iff in N. apply n_total; auto.
  - intros L. split; auto. apply negb_true_iff. apply n_leb_not_ltb. auto.
Qed.
(** * [ask] *)
Variable truthy : V -> bool.
Notation run_events := (run_events v_none truthy on_receive).

Lemma calls_in_app tr1 tr2 : calls_in (tr1 ++ tr2 : list (seen V)) = calls_in tr1 ++ calls_in tr2.
Proof. unfold calls_in. apply flat_map_app. Qed.

Lemma last_answer_app k (l1 l2 : list (call V)) :
  last_answer k (l1 ++ l2) =
  match last_answer k l2 with Some v => Some v | None => last_answer k l1 end.
Proof.
  induction l1 as [|[m o] l1 IH]; simpl; [destruct (last_answer k l2); auto|].
  rewrite IH. destruct (last_answer k l2); auto.
Qed.

Lemma process_effect now a w w' calls p :
  process_messages now a w = (w', calls, p) ->
  e_asks w <= e_asks w' /\
  (forall k, k < e_asks w ->
     e_reply w' k = match last_answer k calls with Some v => v | None => e_reply w k end) /\
  (forall b l', e_inbox w' b = Some l' -> exists l more, e_inbox w b = Some l /\
     (forall m, In m l' -> In m l \/ In m more) /\
     (forall m k, In m more -> m_ask m = Some k -> e_asks w <= k < e_asks w')) /\
  (forall m o, In (m, o) calls -> exists l, e_inbox w a = Some l /\ In m l).
Proof.
  unfold EventModel.process_messages. destruct (e_inbox w a) as [l|] eqn:I.
  - destruct (process_loop now a l w) as [[w1 calls1] p1] eqn:L.
    pose proof L as L0. apply process_loop_spec in L as (A & B & C & (rest & D) & F).
    assert (G : forall m o, In (m, o) calls1 -> exists l0, Some l = Some l0 /\ In m l0).
    { intros m o M. exists l. split; auto.
      assert (In m (filter (fresh now) l)) by (rewrite D; apply in_or_app; left; apply in_map_iff; exists (m, o); auto).
      apply filter_In in H. tauto. }
    assert (Inb : forall b l', e_inbox w1 b = Some l' -> exists l more, e_inbox w b = Some l /\
       (forall m, In m l' -> In m l \/ In m more) /\
       (forall m k, In m more -> m_ask m = Some k -> e_asks w <= k < e_asks w1)).
    { intros b l' B1. destruct (C b) as (more & C1 & C2 & _). rewrite B1 in C1.
      destruct (e_inbox w b) as [l0|] eqn:E0; [|discriminate]. injection C1 as ->.
      exists l0, more. repeat split; auto. intros m M. apply in_app_or in M. tauto.
      all: apply (C2 m k); auto. }
    destruct p1; intros E; injection E as <- <- <-; (split; [auto|split; [auto|split; [|exact G]]]); auto.
    simpl. intros b l' B1. destruct (Nat.eqb b a) eqn:BA; [|auto].
    apply Nat.eqb_eq in BA; subst. injection B1 as <-. exists l, []. simpl. repeat split; auto; try tauto.
  - intros E; injection E as <- <- <-. repeat split; auto.
    + intros b l' B1. exists l', []. simpl. repeat split; auto; try tauto.
    + intros m o [].
Qed.

(** The ask [k] is [m0], and only in the inbox of [a]. *)
Definition owned (k : nat) (a : aid) (m0 : msg V) w : Prop :=
  k < e_asks w /\
  forall b l m, e_inbox w b = Some l -> In m l -> m_ask m = Some k -> b = a /\ m = m0.

Lemma owned_sending now x k a m0 w : owned k a m0 w -> owned k a m0 (run_sending now x w).
Proof.
  intros [K O]. destruct (run_sending_other now x w) as (_ & L & _).
  split; [lia|]. intros b l m I M A.
  destruct (run_sending_inbox now x w b) as (more & E & F & _). rewrite I in E.
  destruct (e_inbox w b) as [l0|] eqn:E0; [|discriminate]. injection E as ->.
  apply in_app_or in M as [M|M]; [eauto|]. specialize (F m k M A). lia.
Qed.

Lemma owned_process now b k a m0 w w' calls p :
  process_messages now b w = (w', calls, p) -> owned k a m0 w ->
  owned k a m0 w' /\
  (forall m o, In (m, o) calls -> m_ask m = Some k -> b = a /\ m = m0).
Proof.
  intros E [K O]. apply process_effect in E as (A & _ & C & D). split.
  - split; [lia|]. intros c l m I M As. destruct (C c l I) as (l0 & more & I0 & S & F).
    destruct (S m M) as [M0|M0]; [eauto|]. specialize (F m k M0 As). lia.
  - intros m o M As. destruct (D m o M) as (l & I & Il). eauto.
Qed.

Lemma owned_start now a p t w w' k d : numbered w ->
  ask_start v_none now a p t w = (w', k, d) ->
  owned k a (Msg p (Some a) None (Some k)) w' /\ e_reply w' k = v_none /\
  (forall l, e_inbox w a = Some l ->
     e_inbox w' a = Some (l ++ [Msg p (Some a) None (Some k)])).
Proof.
  intros N E. unfold ask_start in E.
  match type of E with (append ?w1 ?a1 ?m1, _, _) = _ => set (w1' := w1) in *; set (m1' := m1) in * end.
  injection E as <- <- _.
  destruct (append_other w1' a m1') as (_ & R & A & _).
  split; [|split].
  - split; [rewrite A; simpl; lia|]. intros b l m I M As. rewrite inbox_append in I.
    destruct (e_inbox w1' b) as [l0|] eqn:E0; [|discriminate]. simpl in E0.
    injection I as <-. destruct (Nat.eqb b a) eqn:BA.
    + apply in_app_or in M as [M|[<-|[]]].
      * specialize (N b l0 m (e_asks w) E0 M As). lia.
      * apply Nat.eqb_eq in BA. auto.
    + specialize (N b l0 m (e_asks w) E0 M As). lia.
  - rewrite R. simpl. rewrite Nat.eqb_refl. reflexivity.
  - intros l I. rewrite inbox_append. simpl. rewrite I, Nat.eqb_refl. reflexivity.
Qed.

Lemma owned_rest k a m0 w r : owned k a m0 w -> owned k a m0 (set_rest w r).
Proof. intros [K O]. split; auto. Qed.

Lemma events_spec k a m0 d : forall evs w w' tr,
  owned k a m0 w -> run_events k d evs w = (w', tr) ->
  (* every resumption depends on the last answer only *)
  (forall tr1 now r tr2, tr = tr1 ++ OAsk now r :: tr2 ->
     r = let v := match last_answer k (calls_in tr1) with Some v => v | None => e_reply w k end in
         if n_ltb now d then if truthy v then AReturn v else AWait else ATimedOut) /\
  (* only [a] answers *)
  (forall now b calls p m o, In (OCalls now b calls p) tr -> In (m, o) calls ->
     m_ask m = Some k -> b = a /\ m = m0).
Proof.
  induction evs as [|e evs IH]; intros w w' tr O E; simpl in E.
  - injection E as <- <-. split; [|simpl; tauto]. intros tr1 now r tr2 T. destruct tr1; discriminate.
  - destruct e as [now x|now b|f|now].
    + pose proof (owned_sending now x k a m0 w O) as O'.
      destruct (run_sending_other now x w) as (_ & _ & R).
      destruct (IH _ _ _ O' E) as [H1 H2]. split; auto.
      intros tr1 n r tr2 T. rewrite (H1 tr1 n r tr2 T), (R k) by apply O. reflexivity.
    + destruct (process_messages now b w) as [[w1 calls] p] eqn:P.
      destruct (run_events k d evs w1) as [w2 tr0] eqn:E0. injection E as <- <-.
      destruct (owned_process now b k a m0 w w1 calls p P O) as [O1 O2].
      destruct (IH _ _ _ O1 E0) as [H1 H2].
      apply process_effect in P as (_ & R & _ & _). split.
      * intros tr1 n r tr2 T. destruct tr1 as [|o tr1]; [discriminate|]. injection T as <- T.
        rewrite (H1 tr1 n r tr2 T). simpl. rewrite last_answer_app, (R k) by apply O. simpl.
        destruct (last_answer k (calls_in tr1)); auto.
      * intros n c calls' p' m o [I|I] M As; [|eauto]. injection I as <- <- <- <-. eauto.
    + destruct (IH _ _ _ (owned_rest k a m0 w _ O) E) as [H1 H2]. split; auto.
    + destruct (run_events k d evs w) as [w2 tr0] eqn:E0. injection E as <- <-.
      destruct (IH _ _ _ O E0) as [H1 H2]. split.
      * intros tr1 n r tr2 T. destruct tr1 as [|o tr1].
        -- injection T as <- <- <-. reflexivity.
        -- injection T as <- T. rewrite (H1 tr1 n r tr2 T). reflexivity.
      * intros n c calls' p' m o [I|I] M As; [discriminate|eauto].
Qed.

(** Once [a] has gone through its messages, there is an answer. *)
Lemma last_answer_in k m o (calls : list (call V)) :
  In (m, o) calls -> m_ask m = Some k -> (forall m' o', In (m', o') calls -> o' <> None) ->
  last_answer k calls <> None.
Proof.
  induction calls as [|[m1 o1] calls IH]; simpl; [tauto|]. intros [I|I] A S.
  - injection I as -> ->. destruct (last_answer k calls); [discriminate|].
    rewrite A, Nat.eqb_refl. eauto.
  - destruct (last_answer k calls) eqn:L; [discriminate|]. exfalso. apply IH; auto.
    intros m' o' I'. apply (S m' o'). auto.
Qed.

Lemma sendings_keep now l w b i (m : msg V) :
  e_inbox w b = Some i -> In m i ->
  exists i', e_inbox (run_sendings now l w) b = Some i' /\ In m i'.
Proof.
  intros I M. destruct (run_sendings_inbox now l w b) as (more & E & _). rewrite I in E.
  exists (i ++ more). split; auto. apply in_or_app. auto.
Qed.

Lemma answered k a m0 d : forall evs w w' tr,
  m_ask m0 = Some k -> m_exp m0 = None ->
  (exists l, e_inbox w a = Some l /\ In m0 l) -> run_events k d evs w = (w', tr) ->
  forall tr1 now calls valid tr2, tr = tr1 ++ OCalls now a calls (POk valid) :: tr2 ->
  last_answer k (calls_in (tr1 ++ [OCalls now a calls (POk valid)])) <> None.
Proof.
  induction evs as [|e evs IH]; intros w w' tr A X (l & I & M) E tr1 now calls valid tr2 T; simpl in E.
  - injection E as <- <-. destruct tr1; discriminate.
  - destruct e as [n x|n b|f|n].
    + eapply (IH (run_sending n x w)); eauto.
      destruct (run_sending_inbox n x w a) as (more & F & _). rewrite I in F.
      exists (l ++ more). split; auto. apply in_or_app. auto.
    + destruct (process_messages n b w) as [[w1 calls1] p1] eqn:P.
      destruct (run_events k d evs w1) as [w2 tr0] eqn:E0. injection E as <- <-.
      rewrite calls_in_app, last_answer_app. simpl. rewrite app_nil_r.
      destruct tr1 as [|o tr1].
      * injection T as -> -> -> -> ->. destruct (process_spec _ _ _ _ _ _ _ I P) as (S1 & S2 & S3 & _).
        destruct (last_answer k calls) eqn:L; [discriminate|].
        exfalso. revert L.
        assert (F : In m0 (map fst calls)).
        { rewrite S2, S1. apply filter_In. split; auto. unfold fresh. rewrite X. reflexivity. }
        apply in_map_iff in F as ((m & o) & Em & Im). simpl in Em. subst m.
        eapply last_answer_in; eauto.
      * injection T as <- T. destruct (last_answer k calls) eqn:LA; [discriminate|].
        destruct (Nat.eq_dec b a) as [->|NB].
        -- destruct p1 as [valid1| |].
           ++ destruct (process_spec _ _ _ _ _ _ _ I P) as (S1 & S2 & S3 & _).
              simpl. rewrite last_answer_app. destruct (last_answer k (calls_in tr1)); [discriminate|].
              assert (F : In m0 (map fst calls1)).
              { rewrite S2, S1. apply filter_In. split; auto. unfold fresh. rewrite X. reflexivity. }
              apply in_map_iff in F as ((m & o) & Em & Im). simpl in Em. subst m.
              eapply last_answer_in; eauto.
           ++ destruct (process_failed _ _ _ _ _ _ _ I P) as (more & I1); [discriminate|].
              assert (H : last_answer k (calls_in (tr1 ++ [OCalls now a calls (POk valid)])) <> None).
              { eapply (IH w1); eauto. exists (l ++ more). split; auto. apply in_or_app; auto. }
              rewrite calls_in_app, last_answer_app in H. simpl in H. rewrite app_nil_r, LA in H.
              simpl. rewrite last_answer_app. destruct (last_answer k (calls_in tr1)); [discriminate|congruence].
           ++ destruct (process_failed _ _ _ _ _ _ _ I P) as (more & I1); [discriminate|].
              assert (H : last_answer k (calls_in (tr1 ++ [OCalls now a calls (POk valid)])) <> None).
              { eapply (IH w1); eauto. exists (l ++ more). split; auto. apply in_or_app; auto. }
              rewrite calls_in_app, last_answer_app in H. simpl in H. rewrite app_nil_r, LA in H.
              simpl. rewrite last_answer_app. destruct (last_answer k (calls_in tr1)); [discriminate|congruence].
        -- assert (I1 : exists l1, e_inbox w1 a = Some l1 /\ In m0 l1).
           { unfold EventModel.process_messages in P. destruct (e_inbox w b) as [lb|] eqn:Ib.
             - destruct (process_loop n b lb w) as [[w3 c3] p3] eqn:L3.
               apply process_loop_spec in L3 as (_ & _ & C & _). destruct (C a) as (more & C1 & _).
               rewrite I in C1. exists (l ++ more). split; [|apply in_or_app; auto].
               destruct p3; injection P as <- <- <-; auto. simpl.
               replace (Nat.eqb a b) with false; auto. symmetry. apply Nat.eqb_neq. auto.
             - injection P as <- <- <-. eauto. }
           assert (H : last_answer k (calls_in (tr1 ++ [OCalls now a calls (POk valid)])) <> None).
           { eapply (IH w1); eauto. }
           rewrite calls_in_app, last_answer_app in H. simpl in H. rewrite app_nil_r, LA in H.
           simpl. rewrite last_answer_app. destruct (last_answer k (calls_in tr1)); [discriminate|congruence].
    + eapply (IH (set_rest w (f (e_rest w)))); eauto. 
    + destruct (run_events k d evs w) as [w2 tr0] eqn:E0. injection E as <- <-.
      destruct tr1 as [|o tr1]; [discriminate|]. injection T as <- T. simpl.
      eapply (IH w); eauto.
Qed.

Lemma each_resumption now a payload timeout w k d w' evs w2 tr :
  numbered w -> truthy v_none = false ->
  ask_start v_none now a payload timeout w = (w', k, d) ->
  run_events k d evs w' = (w2, tr) ->
  d = match timeout with Some t => n_add now t | None => PInf end /\
  forall tr1 t r tr2, tr = tr1 ++ OAsk t r :: tr2 ->
  r = if n_ltb t d
      then match last_answer k (calls_in tr1) with
           | Some v => if truthy v then AReturn v else AWait
           | None => AWait
           end
      else ATimedOut.
Proof.
  intros N F S E. destruct (owned_start _ _ _ _ _ _ _ _ N S) as (O & R & _).
  destruct (events_spec _ _ _ d _ _ _ _ O E) as [H _]. split.
  - unfold ask_start in S. injection S as _ _ <-. destruct timeout; auto.
  - intros tr1 t r tr2 T. rewrite (H tr1 t r tr2 T), R. cbv zeta.
    destruct (n_ltb t d); auto. destruct (last_answer k (calls_in tr1)); auto. now rewrite F.
Qed.

Lemma last_answer_some k (calls : list (call V)) v :
  last_answer k calls = Some v -> exists m, In (m, Some v) calls /\ m_ask m = Some k.
Proof.
  induction calls as [|[m o] l IH]; simpl; [discriminate|]. destruct (last_answer k l).
  - intros E. destruct (IH E) as (m' & I & A). exists m'. auto.
  - destruct (m_ask m) as [j|] eqn:A; [|discriminate]. destruct (Nat.eqb j k) eqn:J; [|discriminate].
    apply Nat.eqb_eq in J. subst. intros ->. exists m. auto.
Qed.

Lemma false_answers now a payload timeout w k d w' evs w2 tr :
  numbered w -> truthy v_none = false ->
  ask_start v_none now a payload timeout w = (w', k, d) ->
  run_events k d evs w' = (w2, tr) ->
  (forall m v, In (m, Some v) (calls_in tr) -> m_ask m = Some k -> truthy v = false) ->
  forall t v, ~ In (OAsk t (AReturn v)) tr.
Proof.
  intros N F S E H t v I. destruct (each_resumption _ _ _ _ _ _ _ _ _ _ _ N F S E) as [_ R].
  apply in_split in I as (tr1 & tr2 & T). specialize (R _ _ _ _ T).
  destruct (n_ltb t d); [|discriminate].
  destruct (last_answer k (calls_in tr1)) as [u|] eqn:L; [|discriminate].
  apply last_answer_some in L as (m & I & A).
  rewrite (H m u) in R; [discriminate| |exact A].
  subst tr. rewrite calls_in_app. apply in_or_app. auto.
Qed.

Lemma receiver_answers now a payload timeout w l k d w' evs w2 tr :
  numbered w -> e_inbox w a = Some l ->
  ask_start v_none now a payload timeout w = (w', k, d) ->
  run_events k d evs w' = (w2, tr) ->
  (forall t b calls p m o, In (OCalls t b calls p) tr -> In (m, o) calls ->
     m_ask m = Some k -> b = a /\ m_payload m = payload) /\
  (forall tr1 t calls valid tr2, tr = tr1 ++ OCalls t a calls (POk valid) :: tr2 ->
     last_answer k (calls_in (tr1 ++ [OCalls t a calls (POk valid)])) <> None).
Proof.
  intros N I S E. destruct (owned_start _ _ _ _ _ _ _ _ N S) as (O & R & L). split.
  - intros t b calls p m o Io Ic A. destruct (events_spec _ _ _ d _ _ _ _ O E) as [_ H].
    destruct (H _ _ _ _ _ _ Io Ic A) as [-> ->]. auto.
  - intros tr1 t calls valid tr2 T.
    eapply (answered k a (Msg payload (Some a) None (Some k)) d evs w'); eauto.
    eexists. split; [apply L; eauto|]. apply in_or_app. simpl. auto.
Qed.

Lemma ask_sender now a payload timeout w k d w' evs w2 tr :
  numbered w -> ask_start v_none now a payload timeout w = (w', k, d) ->
  run_events k d evs w' = (w2, tr) ->
  forall t b calls p m o, In (OCalls t b calls p) tr -> In (m, o) calls ->
  m_ask m = Some k -> m_sender m = Some b.
Proof.
  intros N S E t b calls p m o Io Ic A. destruct (owned_start _ _ _ _ _ _ _ _ N S) as (O & _ & _).
  destruct (events_spec _ _ _ d _ _ _ _ O E) as [_ H].
  destruct (H _ _ _ _ _ _ Io Ic A) as [-> ->]. auto.
Qed.

(** [numbered] is kept by everything. *)
Lemma numbered_sending now x w : numbered w -> numbered (run_sending now x w).
Proof.
  intros N a l m k I M A. destruct (run_sending_inbox now x w a) as (more & E & F & _).
  destruct (run_sending_other now x w) as (_ & L & _). rewrite I in E.
  destruct (e_inbox w a) as [l0|] eqn:E0; [|discriminate]. injection E as ->.
  apply in_app_or in M as [M|M].
  - specialize (N a l0 m k E0 M A). lia.
  - specialize (F m k M A). lia.
Qed.

Lemma numbered_process now b w w' calls p :
  process_messages now b w = (w', calls, p) -> numbered w -> numbered w'.
Proof.
  intros E N a l m k I M A. apply process_effect in E as (L & _ & C & _).
  destruct (C a l I) as (l0 & more & I0 & S & F). destruct (S m M) as [M0|M0].
  - specialize (N a l0 m k I0 M0 A). lia.
  - specialize (F m k M0 A). lia.
Qed.

Lemma numbered_events k d : forall evs w w' tr,
  run_events k d evs w = (w', tr) -> numbered w -> numbered w'.
Proof.
  induction evs as [|e evs IH]; intros w w' tr E N; simpl in E.
  - injection E as <- <-. auto.
  - destruct e as [now x|now b|f|now].
    + eapply IH; eauto using numbered_sending.
    + destruct (process_messages now b w) as [[w1 calls] p] eqn:P.
      destruct (run_events k d evs w1) as [w2 tr0] eqn:E0. injection E as <- <-.
      eapply IH; eauto using numbered_process.
    + eapply IH; eauto.
    + destruct (run_events k d evs w) as [w2 tr0] eqn:E0. injection E as <- <-. eapply IH; eauto.
Qed.

End Proofs.
