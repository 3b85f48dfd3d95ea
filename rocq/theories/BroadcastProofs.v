(** Proofs about BroadcastModel. *)
From Coq Require Import ZArith List Bool Arith String Lia Permutation QArith Qminmax Qpower Lqa.
From Verif Require Import Num PyDict TimedModel TimedSpec TimedProofs TraceProofs AgentModel AgentProofs FsmModel FsmSpec FsmProofs
  TutorSpec TutorProofs BroadcastModel BroadcastSpec.
Import ListNotations.
Local Open Scope string_scope.
Local Open Scope nat_scope.
Local Open Scope list_scope.
#[local] Existing Instance exact.

Definition vstates : dict string (state bfun) := fst (meta spread_class).
Notation world := (fworld bfun brest * cors (frame bfun))%type.

Definition gok (g : aid) (x : world) : Prop :=
  fa_kind (fw_agents (fst x) g) = KPlain BEvent /\
  (get_co (snd x) g = None \/ exists q, get_co (snd x) g = Some (GSusp (FIn q)) /\ (q = BHappens \/ q = BFade \/ q = BLoop)).
Definition vok (a : aid) (x : world) : Prop :=
  fa_kind (fw_agents (fst x) a) = KFsm vstates /\ fa_alive (fw_agents (fst x) a) = true /\
  (fa_cur (fw_agents (fst x) a) = Some b_neutral \/ fa_cur (fw_agents (fst x) a) = Some b_infected) /\ get_co (snd x) a = None.
Definition bok (g : aid) (x : world) : Prop := gok g x /\ forall a, a <> g -> vok a x.

(** Agents and generators are as before. *)
Definition aside (b : aid) (x x' : world) : Prop :=
  fw_agents (fst x') b = fw_agents (fst x) b /\ get_co (snd x') b = get_co (snd x) b.
Definition setting (r r' : brest) : Prop := b_tv r' = b_tv r /\ b_nbrs r' = b_nbrs r.
Definition probs (r : brest) : Q * Q := (b_tv_spread r, b_spread r).
Definition later (f f' : nat -> Q) : Prop := exists n, forall k, f' k = f (n + k).
Lemma later_refl f : later f f. Proof. now exists 0. Qed.
Lemma later_trans f1 f2 f3 : later f1 f2 -> later f2 f3 -> later f1 f3.
Proof. intros [n H] [m K]. exists (n + m). intros k. rewrite K, H. f_equal. lia. Qed.

Lemma tell_spec l : forall r, let r' := tell l r in
  setting r r' /\ probs r' = probs r /\ later (b_draws r) (b_draws r') /\
  forall b, b_hit r' b = true <-> b_hit r b = true \/ exists i, nth_error l i = Some b /\ (b_draws r i < b_spread r)%Q.
Proof.
  assert (QL : forall x y, q_lt x y = true <-> (x < y)%Q).
  { intros x y. unfold q_lt. rewrite negb_true_iff. split; intros H.
    - apply Qnot_le_lt. intros L. apply Qle_bool_iff in L. congruence.
    - apply not_true_iff_false. intros L. apply Qle_bool_iff in L. now apply Qlt_not_le in H. }
  induction l as [|c l IH]; intros r; cbn [tell].
  { split; [split; auto|]. split; auto. split; [apply later_refl|]. intros b. split; auto. intros [H|(i & H & _)]; auto. destruct i; discriminate. }
  cbn [b_roll]. set (r1 := BRest _ _ _ _ _ _). specialize (QL (b_draws r 0) (b_spread r)).
  set (r2 := if q_lt (b_draws r 0) (b_spread r) then b_set_hit r1 c else r1).
  destruct (IH r2) as ([S1 S2] & P & (n & D) & H).
  assert (E : b_tv r2 = b_tv r /\ b_nbrs r2 = b_nbrs r /\ probs r2 = probs r /\ (forall k, b_draws r2 k = b_draws r (S k)) /\ b_spread r2 = b_spread r).
  { subst r2. destruct (q_lt _ _); repeat split. }
  destruct E as (E1 & E2 & E3 & E4 & E5). split; [split; congruence|]. split; [congruence|]. split; [|intros b; split].
  - exists (S n). intros k. rewrite D, E4. reflexivity.
  - intros X. apply H in X. destruct X as [X|(i & X & L)].
    + subst r2. destruct (q_lt (b_draws r 0) (b_spread r)); auto. cbn in X. destruct (Nat.eqb_spec b c) as [Eb|]; auto. subst c.
      right. exists 0. split; auto. now apply QL.
    + right. exists (S i). rewrite <- E4, <- E5. auto.
  - intros X. apply H. destruct X as [X|([|i] & X & L)].
    + left. subst r2. destruct (q_lt _ _); auto. cbn. destruct (Nat.eqb b c); auto.
    + left. cbn in X. injection X as ->. apply QL in L. subst r2. rewrite L. cbn. now rewrite Nat.eqb_refl.
    + right. exists i. rewrite E4, E5. auto.
Qed.
Lemma q_lt_spec x y : q_lt x y = true <-> (x < y)%Q.
Proof.
  unfold q_lt. rewrite negb_true_iff. split; intros H.
  - apply Qnot_le_lt. intros L. apply Qle_bool_iff in L. congruence.
  - apply not_true_iff_false. intros L. apply Qle_bool_iff in L. now apply Qlt_not_le in H.
Qed.

Section Broadcast.
Variables (one event : Z) (factor : Q).
Hypothesis Hone : (0 < one)%Z.
Notation code := (broadcast_code one event factor).

Definition neutral_nbrs (w : fworld bfun brest) (a : aid) : list aid :=
  filter (fun b => match fa_cur (fw_agents w b) with Some st => String.eqb (st_name st) "neutral" | None => false end)
    (b_nbrs (fw_rest w) a).

(** One activation of a viewer. *)
Lemma viewer_act fs s a w c w' c' l o : vok a (w, c) -> agent_step code fs s a (w, c) = (w', c', l, o) ->
  vok a (w', c') /\ (forall b, b <> a -> aside b (w, c) (w', c')) /\ l = [] /\
  let R := fw_rest w in let R' := fw_rest w' in
  setting R R' /\ probs R' = probs R /\ later (b_draws R) (b_draws R') /\
  ((fa_cur (fw_agents w a) = Some b_neutral /\ o = Ret None /\ (forall b, b_hit R' b = b_hit R b) /\
    fa_cur (fw_agents w' a) = Some (if b_hit R a || b_tv R a && q_lt (b_draws R 0) (b_tv_spread R) then b_infected else b_neutral)) \/
   (fa_cur (fw_agents w a) = Some b_infected /\ o = Ret (Some (Fin (7 * one))) /\ fa_cur (fw_agents w' a) = Some b_infected /\
    forall b, b_hit R' b = true <-> b_hit R b = true \/
      exists i, nth_error (neutral_nbrs w a) i = Some b /\ (b_draws R i < b_spread R)%Q)).
Proof.
  intros (K & A & C & G) E. cbn [fst snd] in *. unfold agent_step, decorated in E. cbn [fst snd] in E. rewrite G in E.
  cbn [send step_gen] in E. rewrite K, A in E. cbn [negb] in E.
  assert (CF : forall x y z, get_co (set_co (set_co (set_co c a x) a y) a z) a = z).
  { intros. now rewrite get_set_co, Nat.eqb_refl. }
  assert (CB : forall x y z b, b <> a -> get_co (set_co (set_co (set_co c a x) a y) a z) b = get_co c b).
  { intros x y z b N. rewrite !get_set_co. apply Nat.eqb_neq in N. now rewrite N. }
  destruct C as [C|C]; rewrite C in E; unfold inside in E; cbn [c_start c_resume broadcast_code st_fun b_neutral b_infected] in E.
  - unfold b_neutral_fn in E.
    set (x := if b_hit (fw_rest w) a then _ else _) in E.
    assert (X : exists v, x = (fst x, GReturn v) /\
      v = (if b_hit (fw_rest w) a || b_tv (fw_rest w) a && q_lt (b_draws (fw_rest w) 0) (b_tv_spread (fw_rest w)) then PState b_infected else PNone) /\
      setting (fw_rest w) (fst x) /\ probs (fst x) = probs (fw_rest w) /\ later (b_draws (fw_rest w)) (b_draws (fst x)) /\
      forall b, b_hit (fst x) b = b_hit (fw_rest w) b).
    { subst x. destruct (b_hit (fw_rest w) a); [|destruct (b_tv (fw_rest w) a)].
      - exists (PState b_infected). repeat split; auto using later_refl.
      - cbn. eexists. split; [reflexivity|]. cbn. split; [destruct (q_lt _ _); reflexivity|]. repeat split. now exists 1.
      - exists PNone. repeat split; auto using later_refl. }
    destruct X as (v & X & V & S1 & P & D & H). rewrite X in E. destruct x as [r1 g1]. cbn [fst] in *. 
    cbn [run_fops fw_agents] in E. rewrite K in E.
    assert (VV : v = PState b_infected \/ v = PNone) by (rewrite V; destruct (_ || _); auto).
    destruct (b_hit (fw_rest w) a || _) eqn:B; subst v; cbn in E; injection E as <- <- <- <-.
    all: split; [|split; [|split; [reflexivity|]]].
    all: try (intros b N; unfold aside; cbn [fst snd]; rewrite CB by auto; cbn; apply Nat.eqb_neq in N; rewrite N; auto).
    + repeat split; cbn [fst snd]; rewrite ?CF; cbn; rewrite ?Nat.eqb_refl; cbn; auto.
    + cbn. rewrite Nat.eqb_refl. cbn. split; auto. split; auto. split; auto.
    + repeat split; cbn [fst snd]; rewrite ?CF; cbn; rewrite ?Nat.eqb_refl; cbn; auto.
    + cbn. rewrite Nat.eqb_refl. cbn. split; auto. split; auto. split; auto.
  - unfold b_infected_fn in E. cbn [run_fops fw_agents] in E. rewrite K in E. fold (neutral_nbrs w a) in E.
    destruct (tell_spec (neutral_nbrs w a) (fw_rest w)) as (T1 & T2 & T3 & T4). set (r1 := tell _ _) in *.
    cbn in E. injection E as <- <- <- <-.
    split; [|split; [|split; [reflexivity|]]].
    + repeat split; cbn [fst snd]; rewrite ?CF; auto.
    + intros b N; unfold aside; cbn [fst snd]; rewrite CB by auto; auto.
    + cbn. auto 10.
Qed.

(** One activation of the generator. *)
Definition fading (tv : Q) (w w' : fworld bfun brest) (c' : cors (frame bfun)) (a : aid) (o : outcome) : Prop :=
  let r := fw_rest w in
  if fa_alive (fw_agents w a) then
    probs (fw_rest w') = (tv, b_spread r * factor)%Q /\
    if q_lt (b_spread r * factor) (1 # 100)
    then fa_alive (fw_agents w' a) = false /\ get_co c' a = None /\ o = Ret (Some PInf)
    else fa_alive (fw_agents w' a) = true /\ get_co c' a = Some (GSusp (FIn BLoop)) /\ o = Ret (Some (Fin one))
  else fa_alive (fw_agents w' a) = false /\ get_co c' a = None /\ o = Ret None.
Lemma gen_act fs s a w c w' c' l o : gok a (w, c) -> agent_step code fs s a (w, c) = (w', c', l, o) ->
  gok a (w', c') /\ (forall b, b <> a -> aside b (w, c) (w', c')) /\ no_adds l /\
  let R := fw_rest w in let R' := fw_rest w' in
  setting R R' /\ b_draws R' = b_draws R /\ b_hit R' = b_hit R /\
  match get_co c a with
  | None => o = Ret (Some (n_add (Fin event) (n_opp (s_time s)))) /\ probs R' = probs R /\
      fa_alive (fw_agents w' a) = fa_alive (fw_agents w a) /\ get_co c' a = Some (GSusp (FIn BHappens))
  | Some (GSusp (FIn BHappens)) => o = Ret (Some (Fin one)) /\ probs R' = (1 # 2, q_min (b_spread R * 2) 1) /\
      fa_alive (fw_agents w' a) = fa_alive (fw_agents w a) /\ get_co c' a = Some (GSusp (FIn BFade))
  | Some (GSusp (FIn BFade)) => fading 0 w w' c' a o
  | Some (GSusp (FIn BLoop)) => fading (b_tv_spread R) w w' c' a o
  | _ => True
  end.
Proof.
  intros [K G] E. cbn [fst snd] in *. unfold agent_step, decorated in E. cbn [fst snd] in E.
  assert (CF : forall x y, get_co (set_co (set_co c a x) a y) a = y).
  { intros. now rewrite get_set_co, Nat.eqb_refl. }
  assert (CB : forall x y b, b <> a -> get_co (set_co (set_co c a x) a y) b = get_co c b).
  { intros x y b N. rewrite !get_set_co. apply Nat.eqb_neq in N. now rewrite N. }
  assert (CF' : forall x y z, get_co (set_co (set_co (set_co c a x) a y) a z) a = z).
  { intros. now rewrite get_set_co, Nat.eqb_refl. }
  assert (CB' : forall x y z b, b <> a -> get_co (set_co (set_co (set_co c a x) a y) a z) b = get_co c b).
  { intros x y z b N. rewrite !get_set_co. apply Nat.eqb_neq in N. now rewrite N. }
  destruct G as [G|(q & G & Q)]; rewrite G in E |- *; cbn [send step_gen] in E.
  - rewrite K in E. unfold inside in E. cbn in E. injection E as <- <- <- <-.
    split; [|split; [|split; [constructor|]]].
    + split; cbn [fst snd]; auto. right. exists BHappens. rewrite CF. auto.
    + intros b N. unfold aside. cbn [fst snd]. rewrite CB by auto. auto.
    + rewrite CF. repeat split; auto.
  - destruct Q as [->|[->| ->]]; unfold inside in E; cbn [c_resume broadcast_code event_gen] in E.
    + cbn in E. injection E as <- <- <- <-.
      split; [|split; [|split; [constructor|]]].
      * split; cbn [fst snd]; auto. right. exists BFade. rewrite CF. auto.
      * intros b N. unfold aside. cbn [fst snd]. rewrite CB by auto. auto.
      * rewrite CF. repeat split; auto.
    + unfold fade, fading in *. destruct (fa_alive (fw_agents w a)) eqn:A.
      2:{ cbn in E. rewrite K in E. injection E as <- <- <- <-.
        split; [|split; [|split; [constructor|]]].
        - split; cbn [fst snd]; auto.
        - intros b N. unfold aside. cbn [fst snd]. rewrite CB' by auto. auto.
        - rewrite CF'. repeat split; auto. }
      cbn [b_set_probs b_spread b_tv_spread] in E. destruct (q_lt _ _) eqn:L.
      * cbn in E. rewrite Nat.eqb_refl in E. cbn in E. rewrite K in E. injection E as <- <- <- <-.
        split; [|split; [|split; [repeat constructor|]]].
        -- split; cbn [fst snd]; auto. cbn. rewrite Nat.eqb_refl. exact K.
        -- intros b N. unfold aside. cbn [fst snd]. rewrite CB' by auto. cbn. apply Nat.eqb_neq in N. rewrite N. auto.
        -- rewrite CF'. cbn. rewrite Nat.eqb_refl. repeat split; auto.
      * cbn in E. injection E as <- <- <- <-.
        split; [|split; [|split; [repeat constructor|]]].
        -- split; cbn [fst snd]; auto. right. exists BLoop. rewrite CF. auto.
        -- intros b N. unfold aside. cbn [fst snd]. rewrite CB by auto. auto.
        -- rewrite CF. cbn. repeat split; auto.
    + unfold fade, fading in *. destruct (fa_alive (fw_agents w a)) eqn:A.
      2:{ cbn in E. rewrite K in E. injection E as <- <- <- <-.
        split; [|split; [|split; [constructor|]]].
        - split; cbn [fst snd]; auto.
        - intros b N. unfold aside. cbn [fst snd]. rewrite CB' by auto. auto.
        - rewrite CF'. repeat split; auto. }
      cbn [b_set_probs b_spread b_tv_spread] in E. destruct (q_lt _ _) eqn:L.
      * cbn in E. rewrite Nat.eqb_refl in E. cbn in E. rewrite K in E. injection E as <- <- <- <-.
        split; [|split; [|split; [repeat constructor|]]].
        -- split; cbn [fst snd]; auto. cbn. rewrite Nat.eqb_refl. exact K.
        -- intros b N. unfold aside. cbn [fst snd]. rewrite CB' by auto. cbn. apply Nat.eqb_neq in N. rewrite N. auto.
        -- rewrite CF'. cbn. rewrite Nat.eqb_refl. repeat split; auto.
      * cbn in E. injection E as <- <- <- <-.
        split; [|split; [|split; [repeat constructor|]]].
        -- split; cbn [fst snd]; auto. right. exists BLoop. rewrite CF. auto.
        -- intros b N. unfold aside. cbn [fst snd]. rewrite CB by auto. auto.
        -- rewrite CF. cbn. repeat split; auto.
Qed.

Lemma gen_cur fs s a w c w' c' l o : gok a (w, c) -> agent_step code fs s a (w, c) = (w', c', l, o) ->
  fa_cur (fw_agents w' a) = fa_cur (fw_agents w a).
Proof.
  intros [K G] E. cbn [fst snd] in *. unfold agent_step, decorated in E. cbn [fst snd] in E.
  destruct G as [G|(q & G & Q)]; rewrite G in E; cbn [send step_gen] in E.
  - rewrite K in E. unfold inside in E. cbn in E. now injection E as <- <- <- <-.
  - destruct Q as [->|[->| ->]]; unfold inside in E; cbn [c_resume broadcast_code event_gen] in E.
    + cbn in E. now injection E as <- <- <- <-.
    + unfold fade in E. destruct (fa_alive (fw_agents w a)); [|cbn in E; rewrite K in E; now injection E as <- <- <- <-].
      cbn [b_set_probs b_spread b_tv_spread] in E. destruct (q_lt _ _).
      * cbn in E. rewrite Nat.eqb_refl in E. cbn in E. rewrite K in E. injection E as <- <- <- <-. cbn. now rewrite Nat.eqb_refl.
      * cbn in E. now injection E as <- <- <- <-.
    + unfold fade in E. destruct (fa_alive (fw_agents w a)); [|cbn in E; rewrite K in E; now injection E as <- <- <- <-].
      cbn [b_set_probs b_spread b_tv_spread] in E. destruct (q_lt _ _).
      * cbn in E. rewrite Nat.eqb_refl in E. cbn in E. rewrite K in E. injection E as <- <- <- <-. cbn. now rewrite Nat.eqb_refl.
      * cbn in E. now injection E as <- <- <- <-.
Qed.

(** One activation of anybody. *)
Lemma any_act g fs s a x x' l o : bok g x -> agent_step code fs s a x = (x', l, o) ->
  bok g x' /\ (forall b, b <> a -> aside b x x') /\ no_adds l.
Proof.
  intros [Bg Bv] E. destruct x as [w c], x' as [w' c'].
  assert (X : (a = g -> gok g (w', c')) /\ (a <> g -> vok a (w', c')) /\ (forall b, b <> a -> aside b (w, c) (w', c')) /\ no_adds l).
  { destruct (Nat.eq_dec a g) as [->|N].
    - destruct (gen_act _ _ _ _ _ _ _ _ _ Bg E) as (X1 & X2 & X3 & _). split; auto. split; [intros N; now contradict N|auto].
    - destruct (viewer_act _ _ _ _ _ _ _ _ _ (Bv a N) E) as (X1 & X2 & -> & _). split; [intros N'; now contradict N|].
      split; auto. split; auto. constructor. }
  destruct X as (X1 & X2 & X3 & X4). split; [|auto]. split.
  - destruct (Nat.eq_dec g a) as [->|N]; auto. destruct (X3 g N) as [Y1 Y2]. cbn [fst snd] in *.
    destruct Bg as [Bg1 Bg2]. cbn [fst snd] in *. split; cbn [fst snd]; [now rewrite Y1|now rewrite Y2].
  - intros b N. destruct (Nat.eq_dec b a) as [->|N']; auto. destruct (X3 b N') as [Y1 Y2]. cbn [fst snd] in *.
    destruct (Bv b N) as (B1 & B2 & B3 & B4). cbn [fst snd] in *. repeat split; cbn [fst snd]; rewrite ?Y1, ?Y2; auto.
Qed.

(** * The life of the generator *)
Variables (g : aid) (tv : aid -> bool) (nbrs : aid -> list aid) (p_tv p : Q) (draws : nat -> Q).
Lemma studio_ok : bok g (studio g tv nbrs p_tv p draws, no_cors).
Proof.
  split.
  - split; cbn; auto. now rewrite Nat.eqb_refl.
  - intros a N. apply Nat.eqb_neq in N. repeat split; cbn; rewrite ?N; auto.
Qed.

(** The probability of the neighbours after the event. *)
Fixpoint decay (k : nat) : Q := match k with 0 => q_min (p * 2) 1 | S k' => (decay k' * factor)%Q end.
Definition strong (n : nat) : Prop := forall j, 1 <= j -> j + 2 <= n -> q_lt (decay j) (1 # 100) = false.
(** What the generator has asked for while it lives. *)
Definition waited (l : list (num * outcome)) : Prop :=
  match l with
  | [] => True
  | (t, o) :: l' => o = forwarded (Ret (Some (n_add (Fin event) (n_opp t)))) /\ Forall (fun q => snd q = Ret (Some (Fin one))) l'
  end.
Definition now_probs (n : nat) : Q * Q :=
  match n with 0 | 1 => (p_tv, p) | S (S 0) => (1 # 2, decay 0) | S (S k) => (0%Q, decay k) end.
Definition now_co (n : nat) : option (gobj (frame bfun)) :=
  match n with 0 => None | 1 => Some (GSusp (FIn BHappens)) | 2 => Some (GSusp (FIn BFade)) | _ => Some (GSusp (FIn BLoop)) end.
Definition lives (l : list (num * outcome)) (x : world) : Prop :=
  waited l /\ strong (List.length l) /\ fa_alive (fw_agents (fst x) g) = true /\
  get_co (snd x) g = now_co (List.length l) /\ probs (fw_rest (fst x)) = now_probs (List.length l).
Definition lived (l : list (num * outcome)) (x : world) : Prop :=
  exists l0 t l1, l = l0 ++ (t, Ret (Some PInf)) :: l1 /\ waited l0 /\ strong (List.length l0) /\ 2 <= List.length l0 /\
    q_lt (decay (List.length l0 - 1)) (1 # 100) = true /\
    (l1 = [] -> fa_alive (fw_agents (fst x) g) = false /\ probs (fw_rest (fst x)) = now_probs (List.length l)).
Definition life (l : list (num * outcome)) (x : world) : Prop := lives l x \/ lived l x.

Lemma waited_snoc l t : waited l -> l <> [] -> waited (l ++ [(t, Ret (Some (Fin one)))]).
Proof.
  destruct l as [|[t0 o0] l]; intros H N; [now contradict N|]. cbn in *. destruct H as [H1 H2]. split; auto.
  apply Forall_app. split; auto.
Qed.
Lemma strong_S n : strong (S n) <-> strong n /\ (3 <= S n -> q_lt (decay (n - 1)) (1 # 100) = false).
Proof.
  split.
  - intros H. split; [intros j J1 J2; apply H; lia|]. intros L. apply H; lia.
  - intros [H K] j J1 J2. destruct (Nat.eq_dec (j + 2) (S n)) as [E|E]; [|apply H; lia].
    replace j with (n - 1) by lia. apply K. lia.
Qed.

Lemma life_gen fs s l x x' ops o : bok g x -> agent_step code fs s g x = (x', ops, o) -> life l x ->
  life (l ++ [(s_time s, forwarded o)]) x'.
Proof.
  intros [Bg _] E L. destruct x as [w c], x' as [w' c'].
  destruct (gen_act _ _ _ _ _ _ _ _ _ Bg E) as (_ & _ & _ & _ & _ & _ & X).
  destruct L as [(W & St & A & C & P)|(l0 & t & l1 & -> & W & St & L2 & Q & _)].
  2:{ right. exists l0, t, (l1 ++ [(s_time s, forwarded o)]). rewrite <- app_assoc. split; auto. split; auto. split; auto. split; auto. split; auto.
      intros N. destruct l1; discriminate. }
  cbn [fst snd] in *. rewrite C in X.
  assert (LL : List.length (l ++ [(s_time s, forwarded o)]) = S (List.length l)) by (rewrite app_length; cbn; lia).
  destruct (List.length l) as [|[|[|k]]] eqn:N; cbn [now_co now_probs] in *.
  - destruct l; [|discriminate]. destruct X as (-> & X1 & X2 & X3). left. split; [cbn; auto|].
    rewrite LL. split; [intros j J1 J2; lia|]. split; [cbn; congruence|]. split; auto. cbn. congruence.
  - destruct X as (-> & X1 & X2 & X3). left. split; [cbn [forwarded]; rewrite nonneg_fin by (apply Z.lt_le_incl, Hone); apply waited_snoc; auto; intros ->; discriminate|].
    rewrite LL. split; [intros j J1 J2; lia|]. split; [cbn; congruence|]. split; auto. cbn. rewrite X1.
    unfold probs in P. now injection P as _ ->.
  - unfold fading in X. rewrite A in X. destruct X as [X1 X2].
    assert (D : (b_spread (fw_rest w) * factor)%Q = decay 1). { unfold probs in P. injection P as _ ->. reflexivity. }
    rewrite D in *. destruct (q_lt (decay 1) (1 # 100)) eqn:Qd; destruct X2 as (X2 & X3 & ->).
    + right. exists l, (s_time s), []. rewrite N, LL. split; [reflexivity|]. split; [exact W|]. split; [exact St|]. split; [lia|]. split; [exact Qd|]. auto.
    + left. split; [cbn [forwarded]; rewrite nonneg_fin by (apply Z.lt_le_incl, Hone); apply waited_snoc; auto; intros ->; discriminate|].
      rewrite LL. split; [apply strong_S; split; auto|]. split; [cbn; congruence|]. split; auto.
  - unfold fading in X. rewrite A in X. destruct X as [X1 X2].
    assert (D : (b_spread (fw_rest w) * factor)%Q = decay (S (S k))). { unfold probs in P. injection P as _ ->. reflexivity. }
    assert (D' : b_tv_spread (fw_rest w) = 0%Q). { unfold probs in P. now injection P as -> _. }
    rewrite D, D' in *. destruct (q_lt (decay (S (S k))) (1 # 100)) eqn:Qd; destruct X2 as (X2 & X3 & ->).
    + right. exists l, (s_time s), []. rewrite N, LL. split; auto. split; auto. split; auto. split; [lia|].
      split; [cbn [Nat.sub]; exact Qd|]. intros _. split; auto.
    + left. split; [cbn [forwarded]; rewrite nonneg_fin by (apply Z.lt_le_incl, Hone); apply waited_snoc; auto; intros ->; discriminate|].
      rewrite LL. split; [apply strong_S; split; auto|]. split; [cbn; congruence|]. split; auto.
Qed.
Lemma life_other fs s a l x x' ops o : bok g x -> a <> g -> agent_step code fs s a x = (x', ops, o) -> life l x -> life l x'.
Proof.
  intros [_ Bv] N E L. destruct x as [w c], x' as [w' c'].
  destruct (viewer_act _ _ _ _ _ _ _ _ _ (Bv a N) E) as (_ & Y & _ & _ & P & _).
  destruct (Y g (not_eq_sym N)) as [Y1 Y2]. unfold life, lives, lived in *. cbn [fst snd] in *. rewrite Y1, Y2, P. exact L.
Qed.

Lemma every_len t d n : List.length (every t d n) = n.
Proof. unfold every. now rewrite map_length, seq_length. Qed.
Lemma one_step d t o : snd (t, o) = Ret (Some (Fin one)) -> forall z, t = Fin z -> next_due (Fin d) t o = Some (Fin (z + one)).
Proof.
  cbn. intros -> z ->. unfold next_due. cbn [n_eqb]. destruct (Z.eqb_spec one 0); [lia|].
  cbn. reflexivity.
Qed.
Lemma one_times d : forall rest t pend, timetable (Fin d) g (Fin t) rest pend -> forall l, acts_of g rest = l ->
  Forall (fun q => snd q = Ret (Some (Fin one))) l ->
  map fst l = every t one (List.length l) /\ pend = Some (Fin (t + Z.of_nat (List.length l) * one)).
Proof.
  induction rest as [|e rest IH]; intros t pend TT l <- F; inversion TT; subst; cbn [acts_of flat_map] in *.
  - split; auto. cbn. f_equal. f_equal. lia.
  - rewrite Nat.eqb_refl in *. cbn in F. inversion F as [|? ? F1 F2]; subst. exfalso.
    rewrite (one_step d (Fin t) o F1 t eq_refl) in *. discriminate.
  - fold (acts_of g rest) in *. rewrite Nat.eqb_refl in *. cbn [app] in *. inversion F as [|? ? F1 F2]; subst.
    rewrite (one_step d (Fin t) o F1 t eq_refl) in *.
    match goal with H : Some _ = Some _ |- _ => injection H as <- end.
    destruct (IH _ _ ltac:(eassumption) _ eq_refl F2) as [I1 I2]. cbn [map fst List.length]. rewrite every_S, I1, I2.
    split; auto. f_equal. f_equal. lia.
Qed.
Lemma end_times d l0 t1 l1 : Forall (fun q => snd q = Ret (Some (Fin one))) l0 -> forall rest t pend, timetable (Fin d) g (Fin t) rest pend ->
  acts_of g rest = l0 ++ (t1, Ret (Some PInf)) :: l1 -> l1 = [] /\ map fst (l0 ++ [(t1, Ret (Some PInf))]) = every t one (S (List.length l0)).
Proof.
  intros F. induction F as [|[t0 o0] l0 F1 F2 IH]; intros rest t pend TT E; inversion TT; subst; cbn [acts_of flat_map] in E; try discriminate;
    rewrite Nat.eqb_refl in E; cbn [app] in E.
  - injection E as <- -> <-. rewrite every_S. auto.
  - injection E as <- -> E. discriminate.
  - injection E as <- ->. destruct l0; discriminate.
  - injection E as <- -> E. rewrite (one_step d (Fin t) o0 F1 t eq_refl) in *.
    match goal with H : Some _ = Some _ |- _ => injection H as <- end.
    destruct (IH _ _ _ ltac:(eassumption) E) as [I1 I2]. split; auto. cbn [List.length map fst app]. rewrite every_S, I2. reflexivity.
Qed.

Definition wait (d : Z) : Z := if (event =? 0)%Z then d else event.
Definition timely (d : Z) (n : nat) : list num := match n with 0 => [] | S k => Fin 0 :: every (wait d) one k end.
Definition next_time (d : Z) (n : nat) : Z := match n with 0 => 0 | S k => wait d + Z.of_nat k * one end.
Lemma life_times d rest pend x : (0 <= event)%Z -> timetable (Fin d) g (Fin 0) rest pend -> life (acts_of g rest) x ->
  let l := acts_of g rest in let n := List.length l in
  map fst l = timely d n /\ Forall (fun q => snd q <> Dead) l /\ probs (fw_rest (fst x)) = now_probs n /\ strong (n - 1) /\
  (strong n /\ fa_alive (fw_agents (fst x) g) = true /\ pend = Some (Fin (next_time d n)) \/
   3 <= n /\ q_lt (decay (n - 2)) (1 # 100) = true /\ fa_alive (fw_agents (fst x) g) = false).
Proof.
  intros He TT L. cbv zeta.
  assert (ND : forall l, Forall (fun q => snd q = Ret (Some (Fin one))) l -> Forall (fun q : num * outcome => snd q <> Dead) l).
  { intros l F. eapply Forall_impl; [|exact F]. intros q ->. discriminate. }
  assert (FW : forwarded (Ret (Some (n_add (Fin event) (n_opp (Fin 0))))) = Ret (Some (Fin event))).
  { cbn [n_add n_opp exact x_add]. replace (event + - 0)%Z with event by lia. cbn [forwarded]. now rewrite nonneg_fin. }
  assert (NX : next_due (Fin d) (Fin 0) (Ret (Some (Fin event))) = Some (Fin (wait d))).
  { unfold next_due, wait. cbn. destruct (event =? 0)%Z; reflexivity. }
  inversion TT as [? E1 E2|? o NO|? o due' tr ? NO TT']; subst.
  - destruct L as [(_ & S & A & _ & P)|(l0 & t & l1 & E & _)]; [|destruct l0; discriminate].
    split; [reflexivity|]. split; [constructor|]. split; [exact P|]. split; [exact S|]. left. auto.
  - cbn [acts_of flat_map] in *. rewrite Nat.eqb_refl in *. cbn [app] in *.
    destruct L as [([W _] & S & A & _ & P)|(l0 & t & l1 & E & W & _ & L2 & _)].
    + rewrite FW in W. subst o. rewrite NX in NO. discriminate.
    + destruct l0 as [|q [|q' l0]]; cbn in E, L2; try lia. destruct l0; discriminate.
  - assert (AC : acts_of g (EvAct (Fin 0) g o :: tr) = (Fin 0, o) :: acts_of g tr).
    { cbn [acts_of flat_map]. now rewrite Nat.eqb_refl. }
    rewrite AC in *. destruct L as [([W F] & S & A & _ & P)|(l0 & t & l1 & E & W & S & L2 & Qd & D)].
    + rewrite FW in W. subst o. rewrite NX in NO. injection NO as <-.
      destruct (one_times d _ _ _ TT' _ eq_refl F) as [T1 T2]. cbn [map fst List.length] in *. rewrite T1.
      split; [reflexivity|]. split; [constructor; [discriminate|auto]|]. split; auto.
      split; [cbn [Nat.sub]; rewrite Nat.sub_0_r; now apply (proj1 (strong_S _))|]. left. split; auto.
    + destruct l0 as [|[t0 o0] l0]; cbn in L2; [lia|]. cbn [app] in E. injection E as <- <- E.
      destruct W as [W F]. rewrite FW in W. subst o. rewrite NX in NO. injection NO as <-.
      destruct (end_times d l0 t l1 F _ _ _ TT' E) as [-> T]. destruct (D eq_refl) as [D1 D2]. rewrite E in *.
      cbn [map fst]. rewrite T. cbn [List.length app] in *. rewrite app_length in *. cbn [List.length] in *.
      rewrite !Nat.add_1_r in *. cbn [Nat.sub timely]. split; auto.
      split; [constructor; [discriminate|]; apply Forall_app; split; auto; constructor; auto; discriminate|].
      split; auto. split; [rewrite ?Nat.sub_0_r in *; exact S|].
      right. cbn [Nat.sub] in Qd. rewrite ?Nat.sub_0_r in *. split; [lia|]. split; [exact Qd|exact D1].
Qed.
End Broadcast.

Section Run.
Variables (one event d : Z) (factor : Q) (g : aid) (tv : aid -> bool) (nbrs : aid -> list aid) (p_tv p : Q) (draws : nat -> Q).
Notation start := (studio g tv nbrs p_tv p draws, no_cors).
Notation bu := (broadcast_user one event factor).

Lemma b_step shuffle s a x : u_step (bu shuffle) s a x = agent_step (broadcast_code one event factor) (fun _ => None) s a x.
Proof. reflexivity. Qed.

Lemma broadcast_facts s w tr shuffle sh l h c : (forall f l, Permutation l (fst (shuffle f l))) -> NoDup l -> In g l ->
  Forall (fun c => match c with CStep | CRem _ => True | _ => False end) h ->
  run_hist (bu shuffle) (map (fun a => CAdd a None) l ++ h) (timed_init sh (Fin d)) start = (s, (w, c), tr) ->
  (0 < d)%Z -> (0 < one)%Z -> (0 <= event)%Z ->
  (exists n, instants g tr = timely one event d n /\ probs (fw_rest w) = now_probs factor p_tv p n /\ strong factor p (n - 1) /\
  (strong factor p n /\ b_alive w g = true /\ n_leb (s_time s) (Fin (next_time one event d n)) = true \/
   3 <= n /\ q_lt (decay factor p (n - 2)) (1 # 100) = true /\ b_alive w g = false)) /\
  run_hist (forward_user (bu shuffle)) (map (fun a => CAdd a None) l ++ h) (timed_init sh (Fin d)) start = (s, (w, c), tr) /\
  no_exc tr /\ exists tr3, tr = map (EvAdd (Fin 0)) l ++ tr3 /\ forall t a, ~ In (EvAdd t a) tr3.
Proof.
  intros P ND IG OR E D O Ev.
  set (u := forward_user (bu shuffle)).
  destruct (run_hist u (map (fun a => CAdd a None) l ++ h) (timed_init sh (Fin d)) start) as [[s1 x1] tr1] eqn:E1.
  set (good := fun (b : aid) (o : outcome) => (o <> Exc /\ forall d, o = Ret (Some d) -> d = PInf \/ finite d) /\ (b <> g -> o <> Dead)).
  assert (H1 : forall s b x x' ops o, finite (s_time s) -> u_step u s b x = (x', ops, o) -> bok g x ->
    bok g x' /\ no_adds ops /\ good b o).
  { intros s0 b x x' ops o F U B. unfold u, forward_user in U. cbn [u_step] in U. rewrite b_step in U.
    destruct (agent_step _ _ s0 b x) as [[x2 l2] o2] eqn:U2. injection U as <- <- <-.
    destruct (any_act one event factor g _ _ _ _ _ _ _ B U2) as (Y1 & _ & Y3). split; auto. split; auto.
    destruct x as [w0 c0], x2 as [w2 c2]. unfold good. destruct (Nat.eq_dec b g) as [->|N].
    - split; [|intros N; now contradict N]. destruct (gen_act _ _ _ _ _ _ _ _ _ _ _ _ (proj1 B) U2) as (_ & _ & _ & _ & _ & _ & X).
      assert (G : o2 <> Exc /\ (o2 <> Dead) /\ forall d, o2 = Ret (Some d) -> d = PInf \/ finite d).
      { destruct (proj1 B) as [_ [G|(q & G & Q)]]; cbn [snd] in G; rewrite G in X.
        - destruct X as [-> _]. split; [discriminate|]. split; [discriminate|]. intros d0 H. injection H as <-.
          destruct F as [z ->]. right. eexists. reflexivity.
        - destruct Q as [->|[->| ->]].
          + destruct X as [-> _]. split; [discriminate|]. split; [discriminate|]. intros d0 H. injection H as <-. right. eexists. reflexivity.
          + unfold fading in X. destruct (fa_alive _); [destruct X as [_ X]; destruct (q_lt _ _)|]; destruct X as (_ & _ & ->);
              (split; [discriminate|]; split; [discriminate|]; intros d0 H; try discriminate; injection H as <-); auto. right. eexists. reflexivity.
          + unfold fading in X. destruct (fa_alive _); [destruct X as [_ X]; destruct (q_lt _ _)|]; destruct X as (_ & _ & ->);
              (split; [discriminate|]; split; [discriminate|]; intros d0 H; try discriminate; injection H as <-); auto. right. eexists. reflexivity. }
      destruct G as (G1 & G2 & G3). destruct o2 as [[d0|]| |]; cbn; try (now contradict G1); try (now contradict G2).
      + destruct (nonneg d0); split; auto; discriminate.
      + split; auto.
    - destruct (viewer_act _ _ _ _ _ _ _ _ _ _ _ _ (proj2 B b N) U2) as (_ & _ & _ & _ & _ & _ & X).
      destruct X as [(_ & -> & _)|(_ & -> & _)]; cbn [forwarded].
      + split; [split|]; discriminate.
      + rewrite nonneg_fin by lia. split; [split|]; try discriminate. intros d0 H. injection H as <-. right. eexists. reflexivity. }
  assert (H2 : forall b x, bok g x -> bok g (fst (u_shuffle u b x))).
  { intros b x B. cbn. destruct (shuffle _ b) as [l' k]. exact B. }
  assert (H3 : forall b o, good b o -> o <> Exc /\ forall d, o = Ret (Some d) -> d = PInf \/ finite d).
  { intros b o [H _]. exact H. }
  pose proof E1 as E2. rewrite hist_app in E2.
  destruct (hist_adds u d l (timed_init sh (Fin d)) start) as (s2 & A1 & A2 & A3); [apply fs_init|now exists 0%Z|].
  rewrite A1 in E2. destruct (run_hist u h s2 start) as [[s3 x3] tr3] eqn:E3. injection E2 as <- <- <-.
  destruct (hist_runs u (bok g) d good H1 H2 H3 h) with (2 := E3) as (B3 & _ & G3); auto using studio_ok.
  change (s_time (timed_init sh (Fin d))) with (Fin 0) in *.
  set (tr1 := map (EvAdd (Fin 0)) l ++ tr3) in *.
  assert (AD : adds_of g tr1 = 1).
  { unfold adds_of, tr1. rewrite filter_app, app_length.
    assert (Z : filter (is_add_of g) tr3 = []).
    { clear - G3. induction G3 as [|e tr H G IH]; auto. cbn. destruct e; [destruct H|]. exact IH. }
    rewrite Z. cbn [List.length]. clear - ND IG. induction l as [|b l IH]; [destruct IG|]. inversion ND as [|? ? N1 N2]; subst. cbn [map filter is_add_of].
    destruct (Nat.eqb_spec g b) as [->|N].
    - cbn [List.length]. assert (Z : filter (is_add_of b) (map (EvAdd (Fin 0)) l) = []).
      { clear - N1. induction l as [|c l IH]; auto. cbn. destruct (Nat.eqb_spec b c) as [->|N]; [destruct N1; now left|].
        apply IH. intros H. apply N1. now right. }
      rewrite Z. reflexivity.
    - apply IH; auto. destruct IG as [->|H]; auto. now contradict N. }
  assert (NX : no_exc tr1).
  { unfold no_exc, tr1. rewrite forallb_app, andb_true_iff. split; apply forallb_forall; intros e I.
    - apply in_map_iff in I. destruct I as (a & <- & _). reflexivity.
    - rewrite Forall_forall in G3. specialize (G3 e I). destruct e as [|t a [| |]]; auto. destruct G3 as [_ [[G _] _]]. now contradict G. }
  assert (HO : forall f, ~ In (CWorld f) (map (fun a => CAdd a None) l ++ h)).
  { intros f I. apply in_app_or in I. destruct I as [I|I].
    - apply in_map_iff in I. destruct I as (a & X & _). discriminate.
    - rewrite Forall_forall in OR. exact (OR _ I). }
  assert (LT : life one event factor g p_tv p ([] ++ acts_of g tr1) x3).
  { pose proof (hist_track u g (fun l x => bok g x /\ life one event factor g p_tv p l x)) as T.
    refine (proj2 (T _ _ _ HO [] _ _ _ _ _ E1 _)).
    - clear - H1 O. intros l s b x x' ops o U [B L]. unfold u, forward_user in U. cbn [u_step] in U. rewrite b_step in U.
      destruct (agent_step _ _ s b x) as [[x2 l2] o2] eqn:U2. injection U as <- <- <-.
      split; [apply (any_act one event factor g _ _ _ _ _ _ _ B U2)|].
      destruct (Nat.eqb_spec b g) as [->|N].
      + exact (life_gen one event factor O g p_tv p _ _ _ _ _ _ _ B U2 L).
      + exact (life_other one event factor g p_tv p _ _ _ _ _ _ _ _ B N U2 L).
    - intros l' b x [B L]. cbn. destruct (shuffle _ b) as [b' k]. split; [exact B|exact L].
    - split; [apply studio_ok|]. left. split; [exact I|]. split; [intros j J1 J2; cbn in J2; lia|]. split; [|split]; auto. cbn. now rewrite Nat.eqb_refl. }
  cbn [app] in LT.
  assert (FS : sh = true -> fair_shuffle u).
  { intros _ l' x. cbn. specialize (P (b_draws (fw_rest (fst x))) l'). destruct (shuffle _ l') as [b' k]. exact P. }
  destruct (exact_wakeup _ u sh (Fin d) _ start s3 x3 tr1 g (forward_user_forward (bu shuffle)) FS (nonneg_fin d ltac:(lia)) E1 NX AD)
    as (t0 & rest & pend & FI & TT & PE).
  assert (T0 : t0 = Fin 0).
  { assert (Y : In (EvAdd t0 g) tr1). { apply (filter_In (about g)). rewrite FI. now left. }
    unfold tr1 in Y. apply in_app_or in Y. destruct Y as [Y|Y].
    - apply in_map_iff in Y. destruct Y as (a & X & _). now injection X as <- _.
    - rewrite Forall_forall in G3. destruct (G3 _ Y). }
  subst t0.
  assert (AC : acts_of g tr1 = acts_of g rest). { rewrite acts_of_about, FI. reflexivity. }
  rewrite AC in LT. destruct (life_times one event factor O g p_tv p d rest pend x3 Ev TT LT) as (T1 & T2 & T3 & T4 & T5).
  assert (R : run_hist (bu shuffle) (map (fun a => CAdd a None) l ++ h) (timed_init sh (Fin d)) start = (s3, x3, tr1)).
  { apply same_forward; auto. apply Forall_forall. intros e I. destruct e as [|t b o]; [exact Logic.I|]. cbn. destruct o; auto.
    assert (GB : good b Dead \/ b = g).
    { unfold tr1 in I. apply in_app_or in I. destruct I as [I|I].
      - apply in_map_iff in I. destruct I as (a & X & _). discriminate.
      - rewrite Forall_forall in G3. destruct (G3 _ I) as [_ G]. now left. }
    destruct (Nat.eq_dec b g) as [->|N].
    - assert (IA : In (t, Dead) (acts_of g tr1)). { apply in_flat_map. exists (EvAct t g Dead). split; auto. cbn. rewrite Nat.eqb_refl. now left. }
      rewrite AC in IA. rewrite Forall_forall in T2. apply (T2 _ IA). reflexivity.
    - destruct GB as [[_ GB]|GB]; [|contradiction]. now apply (GB N). }
  rewrite E in R. injection R as -> <- ->. split.
  - exists (List.length (acts_of g rest)).
    rewrite instants_acts, AC, T1. split; auto. split; auto. split; auto.
    destruct T5 as [(Q1 & Q2 & Q3)|Q]; [|right; exact Q]. left. split; auto. split; auto. now rewrite Q3 in PE.
  - split; [reflexivity|]. split; [exact NX|]. exists tr3. split; [reflexivity|].
    intros t a I. rewrite Forall_forall in G3. destruct (G3 _ I).
Qed.
Lemma broadcast_life s w tr : broadcast_run one event d factor g tv nbrs p_tv p draws s w tr ->
  exists n, instants g tr = timely one event d n /\ probs (fw_rest w) = now_probs factor p_tv p n /\ strong factor p (n - 1) /\
  (strong factor p n /\ b_alive w g = true /\ n_leb (s_time s) (Fin (next_time one event d n)) = true \/
   3 <= n /\ q_lt (decay factor p (n - 2)) (1 # 100) = true /\ b_alive w g = false).
Proof.
  intros [(shuffle & sh & l & h & c & P & ND & IG & OR & E) D O Ev].
  exact (proj1 (broadcast_facts s w tr shuffle sh l h c P ND IG OR E D O Ev)).
Qed.
End Run.

(** * The probability of the neighbours *)
Lemma q_min_Qmin x y : (q_min x y == Qmin x y)%Q.
Proof.
  unfold q_min. destruct (q_lt y x) eqn:L.
  - apply q_lt_spec in L. symmetry. apply Q.min_r. now apply Qlt_le_weak.
  - symmetry. apply Q.min_l. apply Qnot_lt_le. intros H. apply q_lt_spec in H. congruence.
Qed.
Lemma pow_S f k : (Qpower f (Z.of_nat (S k)) == Qpower f (Z.of_nat k) * f)%Q.
Proof.
  rewrite Nat2Z.inj_succ. unfold Z.succ. rewrite Qpower_plus' by lia. reflexivity.
Qed.
Lemma decay_faded f p k : (decay f p k == faded p f k)%Q.
Proof.
  unfold faded. induction k as [|k IH]; cbn [decay].
  - rewrite q_min_Qmin. cbn. ring.
  - rewrite IH, pow_S. ring.
Qed.
Lemma weak_spec x : q_lt x (1 # 100) = false <-> (1 # 100 <= x)%Q.
Proof.
  split; intros H.
  - apply Qnot_lt_le. intros L. apply q_lt_spec in L. congruence.
  - apply not_true_iff_false. intros L. apply q_lt_spec in L. now apply Qlt_not_le in L.
Qed.
Lemma pow_pos f k : (0 <= f)%Q -> (0 <= Qpower f (Z.of_nat k))%Q.
Proof. apply Qpower_pos. Qed.
Lemma pow_gt f k : (0 < f)%Q -> (0 < Qpower f (Z.of_nat k))%Q.
Proof.
  intros F. induction k as [|k IH]; [reflexivity|]. rewrite pow_S. rewrite <- (Qmult_0_l f). apply Qmult_lt_r; auto.
Qed.
Lemma pow_le1 f k : (0 <= f <= 1)%Q -> (Qpower f (Z.of_nat k) <= 1)%Q.
Proof.
  intros [F1 F2]. induction k as [|k IH]; [cbn; try apply Qle_refl; try (ring_simplify; apply Qle_refl)|]. rewrite pow_S. pose proof (pow_pos f k F1). nra.
Qed.
Lemma pow_ge1 f k : (1 <= f)%Q -> (1 <= Qpower f (Z.of_nat k))%Q.
Proof.
  intros F. induction k as [|k IH]; [cbn; try apply Qle_refl; try (ring_simplify; apply Qle_refl)|]. rewrite pow_S. set (P0 := Qpower f (Z.of_nat k)) in *.
  assert (X : (0 <= (P0 - 1) * (f - 1))%Q) by (apply Qmult_le_0_compat; lra). nra.
Qed.
(** Bernoulli's inequality. *)
Lemma pow_bound f k : (0 <= f < 1)%Q -> (Qpower f (Z.of_nat k) * (1 + inject_Z (Z.of_nat k) * (1 - f)) <= 1)%Q.
Proof.
  intros [F1 F2]. induction k as [|k IH]; [cbn; try apply Qle_refl; try (ring_simplify; apply Qle_refl)|]. rewrite pow_S.
  assert (Z : (inject_Z (Z.of_nat (S k)) == inject_Z (Z.of_nat k) + 1)%Q).
  { rewrite Nat2Z.inj_succ. unfold Z.succ. rewrite inject_Z_plus. reflexivity. }
  rewrite Z. pose proof (pow_pos f k F1) as P.
  assert (K : (0 <= inject_Z (Z.of_nat k))%Q). { change 0%Q with (inject_Z 0). rewrite <- Zle_Qle. lia. }
  set (P0 := Qpower f (Z.of_nat k)) in *. set (K0 := inject_Z (Z.of_nat k)) in *.
  assert (X : (f * (1 + (K0 + 1) * (1 - f)) <= 1 + K0 * (1 - f))%Q).
  { assert (V : (f * (1 + (K0 + 1) * (1 - f)) == 1 + K0 * (1 - f) - (K0 + 1) * ((1 - f) * (1 - f)))%Q) by ring.
    rewrite V. assert (U : (0 <= (K0 + 1) * ((1 - f) * (1 - f)))%Q).
    { apply Qmult_le_0_compat; [lra|]. apply Qmult_le_0_compat; lra. }
    lra. }
  assert (Y : (P0 * f * (1 + (K0 + 1) * (1 - f)) <= P0 * (1 + K0 * (1 - f)))%Q).
  { rewrite <- Qmult_assoc. rewrite !(Qmult_comm P0). apply Qmult_le_compat_r; auto. }
  lra.
Qed.

(** * The viewers *)
Section Viewers.
Variables (one event : Z) (factor : Q) (g : aid).
Notation bu := (broadcast_user one event factor).

(** Invariants of the world. *)
Lemma viewers_keep shuffle (J : world -> Prop) h :
  (forall s a x x' ops o, bok g x -> J x -> agent_step (broadcast_code one event factor) (fun _ => None) s a x = (x', ops, o) -> J x') ->
  (forall w w' c, fw_agents w' = fw_agents w -> setting (fw_rest w) (fw_rest w') -> probs (fw_rest w') = probs (fw_rest w) ->
    b_hit (fw_rest w') = b_hit (fw_rest w) -> later (b_draws (fw_rest w)) (b_draws (fw_rest w')) -> J (w, c) -> J (w', c)) ->
  (forall f, ~ In (CWorld f) h) -> forall s x s' x' tr, run_hist (bu shuffle) h s x = (s', x', tr) ->
  bok g x -> J x -> bok g x' /\ J x'.
Proof.
  intros H1 H2 Ho s x s' x' tr E B K.
  pose proof (hist_track (bu shuffle) g (fun _ x => bok g x /\ J x)) as T.
  refine (T _ _ h Ho [] _ _ _ _ _ E (conj B K)).
  - intros l s0 b x0 x1 ops o U [B0 K0]. rewrite b_step in U.
    pose proof (any_act one event factor g _ _ _ _ _ _ _ B0 U) as (B1 & _). destruct (Nat.eqb b g); eauto.
  - intros l b [w0 c0] [B0 K0]. cbn. destruct (shuffle _ b) as [b' k] eqn:Sh. cbn. split; [exact B0|].
    eapply H2; [| | | | |exact K0]; try reflexivity; [split; reflexivity|]. now exists k.
Qed.
End Viewers.

Section Reach.
Variables (one event d : Z) (factor : Q) (g : aid) (tv : aid -> bool) (nbrs : aid -> list aid) (p_tv p : Q) (draws : nat -> Q).
Notation start := (studio g tv nbrs p_tv p draws, no_cors).

Lemma run_keeps s w tr (J : world -> Prop) :
  broadcast_run one event d factor g tv nbrs p_tv p draws s w tr ->
  (forall s a x x' ops o, bok g x -> J x -> agent_step (broadcast_code one event factor) (fun _ => None) s a x = (x', ops, o) -> J x') ->
  (forall w w' c, fw_agents w' = fw_agents w -> setting (fw_rest w) (fw_rest w') -> probs (fw_rest w') = probs (fw_rest w) ->
    b_hit (fw_rest w') = b_hit (fw_rest w) -> later (b_draws (fw_rest w)) (b_draws (fw_rest w')) -> J (w, c) -> J (w', c)) ->
  J start -> exists c, bok g (w, c) /\ J (w, c).
Proof.
  intros [(shuffle & sh & l & h & c & P & ND & IG & OR & E) D O Ev] H1 H2 H3. exists c.
  refine (viewers_keep one event factor g shuffle J _ H1 H2 _ _ _ _ _ _ E (studio_ok _ _ _ _ _ _) H3).
  intros f I. apply in_app_or in I. destruct I as [I|I].
  - apply in_map_iff in I. destruct I as (a & X & _). discriminate.
  - rewrite Forall_forall in OR. exact (OR _ I).
Qed.

Lemma news_stays s w tr (S : aid -> Prop) a : broadcast_run one event d factor g tv nbrs p_tv p draws s w tr ->
  news_closed tv nbrs S -> b_state_id w a = Some "infected" \/ by_friends w a = true -> S a.
Proof.
  intros R [C1 C2] H.
  destruct (run_keeps s w tr (fun x => setting (fw_rest (studio g tv nbrs p_tv p draws)) (fw_rest (fst x)) /\
    forall a, fa_cur (fw_agents (fst x) a) = Some b_infected \/ b_hit (fw_rest (fst x)) a = true -> S a) R) as (c & [Bg Bv] & [_ K]).
  - intros s0 b [w0 c0] [w1 c1] ops o [Bg Bv] [[S1 S2] K] E. cbn [fst] in *.
    destruct (Nat.eq_dec b g) as [->|N].
    + destruct (gen_act _ _ _ _ _ _ _ _ _ _ _ _ Bg E) as ((KG & _) & As & _ & [T1 T2] & _ & Hh & _). cbn [fst] in *.
      split; [split; congruence|]. intros a0 X. rewrite Hh in X. apply K. destruct X as [X|X]; auto.
      destruct (Nat.eq_dec a0 g) as [->|N].
      * assert (XX : fa_cur (fw_agents w1 g) = fa_cur (fw_agents w0 g)).
        { clear - E Bg. apply gen_cur in E; auto. }
        rewrite <- XX. auto.
      * destruct (As a0 N) as [As1 _]. cbn [fst] in As1. rewrite <- As1. auto.
    + destruct (viewer_act _ _ _ _ _ _ _ _ _ _ _ _ (Bv b N) E) as (_ & As & _ & [T1 T2] & _ & _ & X).
      split; [split; congruence|]. intros a0 Y.
      destruct X as [(X1 & _ & X2 & X3)|(X1 & _ & X2 & X3)].
      * rewrite X2 in Y. destruct Y as [Y|Y]; [|apply K; auto].
        destruct (Nat.eq_dec a0 b) as [->|N'].
        -- rewrite X3 in Y. destruct (b_hit (fw_rest w0) b) eqn:Hb; [apply K; auto|]. cbn [orb] in Y.
           destruct (b_tv (fw_rest w0) b) eqn:Tb; [|discriminate]. apply C1. rewrite S1 in Tb. exact Tb.
        -- destruct (As a0 N') as [As1 _]. cbn [fst] in As1. rewrite As1 in Y. apply K. auto.
      * destruct Y as [Y|Y].
        -- destruct (Nat.eq_dec a0 b) as [->|N']; [apply K; auto|]. destruct (As a0 N') as [As1 _]. cbn [fst] in As1. rewrite As1 in Y. apply K. auto.
        -- apply X3 in Y. destruct Y as [Y|(i & Y & _)]; [apply K; auto|]. apply nth_error_In in Y. apply filter_In in Y.
           apply (C2 b a0); [apply K; auto|]. rewrite S2 in Y. tauto.
  - intros w0 w1 c0 E1 [S1 S2] _ E2 _ [[T1 T2] K]. cbn [fst] in *. split; [split; congruence|]. now rewrite E1, E2.
  - cbn. split; [split; auto|]. intros b [X|X]; [|discriminate]. destruct (Nat.eqb b g); discriminate.
  - apply K. cbn [fst]. destruct H as [H|H]; auto. left. unfold b_state_id in H. destruct (Nat.eq_dec a g) as [->|N].
    + destruct (fa_cur (fw_agents w g)) as [st|] eqn:Cg; [|discriminate]. exfalso.
      destruct (run_keeps s w tr (fun x => fa_cur (fw_agents (fst x) g) = None) R) as (c' & _ & K').
      * intros s0 b [w0 c0] [w1 c1] ops o [Bg' Bv'] K0 E. cbn [fst] in *. destruct (Nat.eq_dec g b) as [<-|N'].
        -- rewrite (gen_cur _ _ _ _ _ _ _ _ _ _ _ _ Bg' E). exact K0.
        -- destruct (any_act one event factor g _ _ _ _ _ _ _ (conj Bg' Bv') E) as (_ & As & _). destruct (As g N') as [As1 _].
           cbn [fst] in As1. now rewrite As1.
      * intros w0 w1 c0 E1 _ _ _ _ K0. cbn [fst] in *. now rewrite E1.
      * cbn. now rewrite Nat.eqb_refl.
      * cbn [fst] in K'. congruence.
    + destruct (Bv a N) as (_ & _ & [C|C] & _); cbn [fst] in C; rewrite C in *; [discriminate|reflexivity].
Qed.

(** Infected viewers stay infected, and nobody dies. *)
Lemma viewers_live shuffle h : (forall f, ~ In (CWorld f) h) -> forall s w c s' w' c' tr,
  run_hist (broadcast_user one event factor shuffle) h s (w, c) = (s', (w', c'), tr) -> bok g (w, c) ->
  bok g (w', c') /\ forall a, a <> g -> b_alive w' a = true /\
    (b_state_id w a = Some "infected" -> b_state_id w' a = Some "infected").
Proof.
  intros Ho s w c s' w' c' tr E B.
  destruct (viewers_keep one event factor g shuffle (fun x => forall a, a <> g ->
    fa_cur (fw_agents w a) = Some b_infected -> fa_cur (fw_agents (fst x) a) = Some b_infected) h) with (4 := E) as [B' K]; auto.
  - intros s0 b [w0 c0] [w1 c1] ops o [Bg Bv] K U a N I. cbn [fst] in *. specialize (K a N I).
    destruct (Nat.eq_dec a b) as [->|N'].
    + destruct (viewer_act _ _ _ _ _ _ _ _ _ _ _ _ (Bv b N) U) as (_ & _ & _ & _ & _ & _ & X).
      destruct X as [(X1 & _)|(_ & _ & X2 & _)]; [rewrite K in X1; discriminate|auto].
    + destruct (any_act one event factor g _ _ _ _ _ _ _ (conj Bg Bv) U) as (_ & As & _). destruct (As a N') as [As1 _].
      cbn [fst] in As1. now rewrite As1.
  - intros w0 w1 c0 E1 _ _ _ _ K a N I. cbn [fst] in *. rewrite E1. auto.
  - split; auto. intros a N. destruct (proj2 B' a N) as (_ & A & _). split; [exact A|]. intros I.
    assert (X : fa_cur (fw_agents w a) = Some b_infected).
    { destruct (proj2 B a N) as (_ & _ & [C|C] & _); cbn [fst] in C; auto. unfold b_state_id in I. rewrite C in I. discriminate. }
    unfold b_state_id. specialize (K a N X). cbn [fst] in K. now rewrite K.
Qed.

(** Nobody hears anything before the event. *)
Lemma quiet_before s w tr : broadcast_run one event d factor g tv nbrs p_tv p draws s w tr ->
  (p_tv <= 0)%Q -> (forall k, 0 <= draws k)%Q -> List.length (instants g tr) <= 1 ->
  forall a, a <> g -> b_state_id w a = Some "neutral" /\ by_friends w a = false.
Proof.
  intros [(shuffle & sh & l & h & c & P & ND & IG & OR & E) D O Ev] PT DR LN.
  assert (HO : forall f, ~ In (CWorld f) (map (fun a => CAdd a None) l ++ h)).
  { intros f I. apply in_app_or in I. destruct I as [I|I].
    - apply in_map_iff in I. destruct I as (a & X & _). discriminate.
    - rewrite Forall_forall in OR. exact (OR _ I). }
  set (J := fun (l : list (num * outcome)) (x : world) => bok g x /\ (forall k, 0 <= b_draws (fw_rest (fst x)) k)%Q /\
    (List.length l <= 1 -> b_tv_spread (fw_rest (fst x)) = p_tv /\ get_co (snd x) g = now_co (List.length l) /\
       forall a, a <> g -> fa_cur (fw_agents (fst x) a) = Some b_neutral /\ b_hit (fw_rest (fst x)) a = false)).
  pose proof (hist_track (broadcast_user one event factor shuffle) g J) as T.
  assert (K : J ([] ++ acts_of g tr) (w, c)).
  { refine (T _ _ _ HO [] _ _ _ _ _ E _).
    - intros l0 s0 b [w0 c0] [w1 c1] ops o U (B & DD & K). rewrite b_step in U.
      destruct (any_act one event factor g _ _ _ _ _ _ _ B U) as (B' & As & _). destruct (Nat.eqb_spec b g) as [->|N].
      + destruct (gen_act _ _ _ _ _ _ _ _ _ _ _ _ (proj1 B) U) as (_ & _ & _ & _ & Dr & Hh & X). cbn [fst snd] in *.
        split; auto. split; [cbn [fst]; now rewrite Dr|]. rewrite app_length. cbn [List.length]. intros L. cbn [fst snd].
        destruct l0 as [|q l0]; [|cbn in L; lia]. destruct (K (Nat.le_0_l _)) as (K1 & K2 & K3). cbn [List.length now_co] in K2.
        rewrite K2 in X. destruct X as (_ & X1 & _ & X2). split; [unfold probs in X1; congruence|]. split; auto.
        intros a N. destruct (As a N) as [As1 _]. cbn [fst] in As1. rewrite As1, Hh. auto.
      + destruct (viewer_act _ _ _ _ _ _ _ _ _ _ _ _ (proj2 B b N) U) as (_ & _ & _ & _ & Pr & (n & La) & X). cbn [fst snd] in *.
        split; auto. split; [intros k; cbn [fst]; rewrite La; apply DD|]. intros L. destruct (K L) as (K1 & K2 & K3).
        cbn [fst snd]. destruct (As g (not_eq_sym N)) as [_ As2]. cbn [snd] in As2. rewrite As2.
        split; [unfold probs in Pr; congruence|]. split; auto.
        destruct X as [(X1 & _ & X2 & X3)|(X1 & _)]; [|destruct (K3 b N) as [K4 _]; rewrite K4 in X1; discriminate].
        intros a Na. rewrite X2. destruct (K3 a Na) as [K4 K5]. split; auto.
        destruct (Nat.eq_dec a b) as [->|N'].
        * rewrite X3, K5. cbn [orb]. assert (F : q_lt (b_draws (fw_rest w0) 0) (b_tv_spread (fw_rest w0)) = false).
          { apply not_true_iff_false. intros H. apply q_lt_spec in H. rewrite K1 in H. specialize (DD 0). lra. }
          rewrite F, andb_false_r. reflexivity.
        * destruct (As a N') as [As1 _]. cbn [fst] in As1. now rewrite As1.
    - intros l0 b [w0 c0] (B & DD & K). cbn. destruct (shuffle _ b) as [b' k]. split; [exact B|]. split; [intros j; apply DD|exact K].
    - split; [apply studio_ok|]. split; [exact DR|]. intros _. split; [reflexivity|]. split; [reflexivity|].
      intros a N. apply Nat.eqb_neq in N. cbn. rewrite N. split; reflexivity. }
  destruct K as (_ & _ & K). cbn [app] in K. rewrite instants_acts, map_length in LN. destruct (K LN) as (_ & _ & K3).
  intros a N. destruct (K3 a N) as [K4 K5]. cbn [fst] in *. unfold b_state_id, by_friends. rewrite K4. auto.
Qed.
End Reach.
