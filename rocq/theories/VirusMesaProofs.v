(** Proofs about VirusMesaModel. *)
From Coq Require Import ZArith List Bool Arith Lia Permutation.
From Verif Require Import Num PyDict TimedModel TimedProofs AgentModel RoundProofs NoopSpec NoopProofs VirusModel VirusSpec VirusProofs VirusMesaModel VirusMesaSpec.
Import ListNotations.
Local Open Scope list_scope.

(** * Draws in front of others *)
Fixpoint pre (ds : list num) (g : draws) : draws :=
  match ds with [] => g | d :: ds' => fun n => match n with 0 => d | S m => pre ds' g m end end.
Lemma pre_app ds1 ds2 g : pre (ds1 ++ ds2) g = pre ds1 (pre ds2 g).
Proof. induction ds1 as [|d ds IH]; cbn [pre app]; [reflexivity|]. now rewrite IH. Qed.
Lemma pre_drawn (U : num -> Prop) ds g : Forall U ds -> drawn U g -> drawn U (pre ds g).
Proof. intros F D. induction F as [|d ds Hd F IH]; cbn [pre]; [exact D|]. intros [|i]; [exact Hd|apply IH]. Qed.
Definition tl_draws (g : draws) : draws := fun n => g (S n).
Lemma tl_drawn (U : num -> Prop) g : drawn U g -> drawn U (tl_draws g). Proof. intros D i. apply D. Qed.

(** * A shuffle that reads the order from the draws *)
Section Coder.
Variables x y : Z.
Hypothesis XY : x <> y.
Fixpoint dec1 (fuel : nat) (g : draws) : nat * draws :=
  match fuel with
  | 0 => (0, g)
  | S f => if n_eqb (g 0) (Fin x) then let '(k, g') := dec1 f (tl_draws g) in (S k, g') else (0, tl_draws g)
  end.
Fixpoint decn (cnt fuel : nat) (g : draws) : list aid * draws :=
  match cnt with 0 => ([], g) | S c => let '(a, g') := dec1 fuel g in let '(l, g'') := decn c fuel g' in (a :: l, g'') end.
Definition permb (l l' : list aid) : bool := forallb (fun a => Nat.eqb (count_occ Nat.eq_dec l a) (count_occ Nat.eq_dec l' a)) (l ++ l').
Lemma permb_spec l l' : permb l l' = true <-> Permutation l l'.
Proof.
  unfold permb. rewrite (Permutation_count_occ Nat.eq_dec), forallb_forall. split.
  - intros H a. destruct (in_dec Nat.eq_dec a (l ++ l')) as [I|NI]; [apply Nat.eqb_eq, H, I|].
    rewrite !(proj1 (count_occ_not_In _ _ _)); [reflexivity| |]; intros I; apply NI, in_or_app; auto.
  - intros H a _. apply Nat.eqb_eq, H.
Qed.
Definition coder (l : list aid) (g : draws) : draws * list aid :=
  let '(o, g') := decn (List.length l) (S (list_max l)) g in (g', if permb o l then o else l).
Definition enc (a : aid) : list num := repeat (Fin x) a ++ [Fin y].
Lemma dec1_enc a : forall fuel ds g, a < fuel -> dec1 fuel (pre (enc a ++ ds) g) = (a, pre ds g).
Proof.
  induction a as [|a IH]; intros [|f] ds g L; try lia; cbn [enc repeat app dec1 pre].
  - cbn [n_eqb]. rewrite (proj2 (Z.eqb_neq y x)) by auto. reflexivity.
  - cbn [n_eqb]. rewrite Z.eqb_refl. change (tl_draws _) with (pre (enc a ++ ds) g). rewrite IH by lia. reflexivity.
Qed.
Lemma decn_enc l : forall fuel ds g, (forall a, In a l -> a < fuel) -> decn (List.length l) fuel (pre (flat_map enc l ++ ds) g) = (l, pre ds g).
Proof.
  induction l as [|a l IH]; intros fuel ds g L; cbn [decn List.length flat_map app]; [reflexivity|].
  rewrite <- app_assoc, dec1_enc by (apply L; now left). rewrite IH by (intros b I; apply L; now right). reflexivity.
Qed.
Lemma in_max l a : In a l -> a < S (list_max l).
Proof. intros I. pose proof (proj1 (list_max_le l (list_max l)) (le_n _)) as F. rewrite Forall_forall in F. specialize (F a I). lia. Qed.
Lemma coder_enc l o ds g : Permutation l o -> coder l (pre (flat_map enc o ++ ds) g) = (pre ds g, o).
Proof.
  intros P. unfold coder. rewrite (Permutation_length P), decn_enc.
  - rewrite (proj2 (permb_spec o l)) by (symmetry; exact P). reflexivity.
  - intros a I. apply in_max. eapply Permutation_in; [symmetry; exact P|exact I].
Qed.
Lemma dec1_drawn (U : num -> Prop) fuel : forall g, drawn U g -> drawn U (snd (dec1 fuel g)).
Proof.
  induction fuel as [|f IH]; intros g D; cbn [dec1]; [exact D|]. destruct (n_eqb _ _); [|apply tl_drawn, D].
  specialize (IH (tl_draws g) (tl_drawn U g D)). destruct (dec1 f (tl_draws g)). exact IH.
Qed.
Lemma decn_drawn (U : num -> Prop) c fuel : forall g, drawn U g -> drawn U (snd (decn c fuel g)).
Proof.
  induction c as [|c IH]; intros g D; cbn [decn]; [exact D|]. pose proof (dec1_drawn U fuel g D) as D1. destruct (dec1 fuel g) as [a g1].
  specialize (IH g1 D1). destruct (decn c fuel g1). exact IH.
Qed.
Lemma coder_fair U : fair U coder.
Proof.
  split.
  - intros l g. unfold coder. destruct (decn _ _ g) as [o g']. cbn. destruct (permb o l) eqn:E; [|apply Permutation_refl]. symmetry. now apply permb_spec.
  - intros l g D. unfold coder. pose proof (decn_drawn U (List.length l) (S (list_max l)) g D) as H. destruct (decn _ _ g) as [o g']. exact H.
Qed.
Lemma enc_drawn (U : num -> Prop) l : U (Fin x) -> U (Fin y) -> Forall U (flat_map enc l).
Proof.
  intros Ux Uy. apply Forall_forall. intros d I. apply in_flat_map in I as (a & _ & I). apply in_app_or in I as [I|[<-|[]]]; [|exact Uy].
  apply repeat_spec in I. now subst.
Qed.
End Coder.

(** * Turns *)
Definition weq (w w' : sworld) : Prop := sw_draws w = sw_draws w' /\ forall b, sw_status w b = sw_status w' b.
Lemma weq_refl w : weq w w. Proof. split; auto. Qed.
Lemma weq_trans w1 w2 w3 : weq w1 w2 -> weq w2 w3 -> weq w1 w3.
Proof. intros [A B] [C D]. split; [congruence|]. intros b. now rewrite B, D. Qed.
Lemma set_status_eq f f' a x : (forall b, f b = f' b) -> forall b : aid, set_status f a x b = set_status f' a x b.
Proof. intros H b. unfold set_status. now rewrite H. Qed.
Lemma filter_same {A} (p q : A -> bool) l : (forall b, p b = q b) -> filter p l = filter q l.
Proof. intros H. induction l as [|b l IH]; cbn; [reflexivity|]. rewrite H, IH. reflexivity. Qed.

Section Turns.
Variable nbrs : aid -> list aid.
Variables spread check recovery gain : num.
Notation mstep := (m_step nbrs spread check recovery gain).
Definition infect1 (w : sworld) (b : aid) : sworld :=
  let '(yes, g) := vroll spread (sw_draws w) in SWorld (if yes then set_status (sw_status w) b Infected else sw_status w) g.
Lemma infect_cong l : forall w w', weq w w' -> weq (fold_left infect1 l w) (fold_left infect1 l w').
Proof.
  induction l as [|b l IH]; intros w w' E; cbn [fold_left]; [exact E|]. apply IH. destruct E as [E1 E2]. unfold infect1. cbn [vroll].
  rewrite E1. split; [reflexivity|]. cbn. destruct (prob _ _); [apply set_status_eq, E2|exact E2].
Qed.
Lemma m_check_cong a w w' : weq w w' -> weq (m_check check recovery gain a w) (m_check check recovery gain a w').
Proof.
  intros [E1 E2]. unfold m_check, m_remove, m_gain. cbn [vroll sw_draws sw_status]. rewrite E1, (E2 a).
  destruct (prob _ check); [|split; [reflexivity|exact E2]]. destruct (is_infected _); [|split; [reflexivity|exact E2]].
  destruct (prob _ recovery); cbn [sw_draws sw_status]; [|split; [reflexivity|]; apply set_status_eq, E2].
  split; [reflexivity|]. cbn [sw_status]. destruct (prob _ gain); repeat apply set_status_eq; exact E2.
Qed.
Lemma m_step_cong a w w' : weq w w' -> weq (mstep a w) (mstep a w').
Proof.
  intros E. unfold m_step. apply m_check_cong. destruct E as [E1 E2]. rewrite (E2 a). destruct (is_infected _); [|split; auto].
  unfold m_infect. rewrite (filter_same _ (fun b => is_susceptible (sw_status w' b))) by (intros b; now rewrite E2). apply infect_cong. split; auto.
Qed.
Lemma fold_cong l : forall w w', weq w w' -> weq (fold_left (fun w a => mstep a w) l w) (fold_left (fun w a => mstep a w) l w').
Proof. induction l as [|a l IH]; intros w w' E; cbn [fold_left]; [exact E|]. apply IH, m_step_cong, E. Qed.

(** The turns of soil_step.py are those of mesa, with the same draws. *)
Definition soil_act (a : aid) (w : sworld) : sworld := fst (fst (virus_step nbrs spread check recovery gain (timed_init true (Fin 0)) a w)).
Lemma infect_all_fold l : forall w, infect_all spread l w = fold_left infect1 l w.
Proof. induction l as [|b l IH]; intros w; cbn [infect_all fold_left]; [reflexivity|]. rewrite <- IH. reflexivity. Qed.
Lemma soil_mesa a w : weq (soil_act a w) (mstep a w).
Proof.
  unfold soil_act, virus_step, m_step.
  assert (E : (if is_infected (sw_status w a) then try_to_infect nbrs spread a w else w) = (if is_infected (sw_status w a) then m_infect nbrs spread a w else w)).
  { destruct (is_infected _); [|reflexivity]. apply infect_all_fold. }
  rewrite E. set (w1 := if is_infected (sw_status w a) then m_infect nbrs spread a w else w). clearbody w1. clear.
  unfold try_check, m_check. cbn [vroll sw_draws sw_status]. destruct (prob (sw_draws w1 0) check); cbn [andb]; [|apply weq_refl].
  destruct (is_infected (sw_status w1 a)) eqn:I; [|apply weq_refl]. unfold try_remove, m_remove. cbn [vroll sw_draws sw_status].
  destruct (prob (sw_draws w1 1) recovery).
  - unfold try_gain, m_gain. cbn [vroll sw_draws sw_status]. destruct (prob (sw_draws w1 2) gain); apply weq_refl.
  - split; [reflexivity|]. intros b. cbn. unfold set_status. destruct (Nat.eqb_spec b a) as [->|]; [|reflexivity].
    destruct (sw_status w1 a); try discriminate I. reflexivity.
Qed.
Lemma soil_mesa_fold l : forall w w', weq w w' -> weq (fold_left (fun w a => soil_act a w) l w) (fold_left (fun w a => mstep a w) l w').
Proof.
  induction l as [|a l IH]; intros w w' E; cbn [fold_left]; [exact E|]. apply IH. eapply weq_trans; [apply soil_mesa|]. apply m_step_cong, E.
Qed.

Variable U : num -> Prop.
Notation turn := (turn U nbrs spread check recovery gain).
Notation turns := (turns U nbrs spread check recovery gain).

(** Every turn of the program is a turn. *)
Lemma infect_sound l : forall w, drawn U (sw_draws w) -> drawn U (sw_draws (fold_left infect1 l w)) /\
  (forall b, In b l -> sw_status w b = Susceptible -> sw_status (fold_left infect1 l w) b = Infected /\ can U spread true \/
      sw_status (fold_left infect1 l w) b = Susceptible /\ can U spread false) /\
  (forall b, sw_status w b = Infected -> sw_status (fold_left infect1 l w) b = Infected) /\
  (forall b, ~ In b l -> sw_status (fold_left infect1 l w) b = sw_status w b).
Proof.
  induction l as [|c l IH]; intros w D; cbn [fold_left].
  { split; [exact D|]. split; [intros b []|]. auto. }
  destruct (IH (infect1 w c)) as (A & B & C & E); [apply tl_drawn, D|]. split; [exact A|].
  assert (S1 : forall b, sw_status (infect1 w c) b = if prob (sw_draws w 0) spread then (if Nat.eqb b c then Infected else sw_status w b) else sw_status w b).
  { intros b. unfold infect1. cbn. now destruct (prob _ _). }
  split; [|split].
  - intros b I Sb. destruct (prob (sw_draws w 0) spread) eqn:P.
    + destruct (Nat.eqb_spec b c) as [->|NE].
      * left. split; [apply C; rewrite S1, Nat.eqb_refl; reflexivity|]. exists (sw_draws w 0). split; [apply D|exact P].
      * apply B; [destruct I as [->|I]; [contradiction|exact I]|]. rewrite S1, (proj2 (Nat.eqb_neq b c) NE). exact Sb.
    + destruct (in_dec Nat.eq_dec b l) as [J|J].
      * apply B; [exact J|]. rewrite S1. exact Sb.
      * right. split; [rewrite E, S1 by exact J; exact Sb|]. exists (sw_draws w 0). split; [apply D|exact P].
  - intros b Sb. apply C. rewrite S1, Sb. destruct (prob _ _), (Nat.eqb b c); reflexivity.
  - intros b NI. rewrite E by (intros I; apply NI; now right). rewrite S1, (proj2 (Nat.eqb_neq b c)); [now destruct (prob _ _)|].
    intros ->. apply NI. now left.
Qed.
Lemma m_step_sound a w : drawn U (sw_draws w) -> turn (sw_status w) a (sw_status (mstep a w)) /\ drawn U (sw_draws (mstep a w)).
Proof.
  intros D. unfold m_step. destruct (is_infected (sw_status w a)) eqn:I.
  - assert (Sa : sw_status w a = Infected) by (destruct (sw_status w a); try discriminate I; reflexivity).
    unfold m_infect. change (fold_left _ ?l w) with (fold_left infect1 l w). set (l := filter _ _).
    destruct (infect_sound l w D) as (A & B & C & E). set (w1 := fold_left infect1 l w) in *. clearbody w1.
    assert (Il : forall b, In b l <-> In b (nbrs a) /\ sw_status w b = Susceptible).
    { intros b. unfold l. rewrite filter_In. destruct (sw_status w b); cbn; intuition congruence. }
    assert (G : forall st2 y, (forall b, st2 b = if Nat.eqb b a then y else sw_status w1 b) ->
      match y with
      | Infected => can U check false \/ can U check true /\ can U recovery false
      | Susceptible => can U check true /\ can U recovery true /\ can U gain false
      | Resistant => can U check true /\ can U recovery true /\ can U gain true
      end -> turn (sw_status w) a st2).
    { intros st2 y H Y. unfold VirusMesaSpec.turn. rewrite Sa. split; [|split].
      - intros b Sb Ib. assert (NE : b <> a) by congruence. rewrite H, (proj2 (Nat.eqb_neq b a) NE). apply B; [apply Il; auto|exact Sb].
      - intros b NE Hb. rewrite H, (proj2 (Nat.eqb_neq b a) NE). apply E. rewrite Il. intuition congruence.
      - rewrite H, Nat.eqb_refl. exact Y. }
    pose proof (C a Sa) as S1. unfold m_check. cbn [vroll sw_draws sw_status]. rewrite S1. cbn [is_infected].
    assert (R : forall i p b, prob (sw_draws w1 i) p = b -> can U p b) by (intros i p b H; exists (sw_draws w1 i); split; [apply A|exact H]).
    assert (Same : forall st, (forall b, st b = sw_status w1 b) -> forall b, st b = if Nat.eqb b a then Infected else sw_status w1 b).
    { intros st H b. destruct (Nat.eqb_spec b a) as [->|]; [rewrite H; exact S1|apply H]. }
    destruct (prob (sw_draws w1 0) check) eqn:PC.
    + unfold m_remove. cbn [vroll sw_draws sw_status]. destruct (prob (sw_draws w1 1) recovery) eqn:PR.
      * unfold m_gain. cbn [vroll sw_draws sw_status]. split; [|intros i; apply A]. destruct (prob (sw_draws w1 2) gain) eqn:PG.
        -- apply (G _ Resistant); [|exact (conj (R 0 _ _ PC) (conj (R 1 _ _ PR) (R 2 _ _ PG)))]. intros b. unfold set_status. now destruct (Nat.eqb b a).
        -- apply (G _ Susceptible); [reflexivity|exact (conj (R 0 _ _ PC) (conj (R 1 _ _ PR) (R 2 _ _ PG)))].
      * split; [|intros i; apply A]. apply (G _ Infected); [reflexivity|]. right. exact (conj (R 0 _ _ PC) (R 1 _ _ PR)).
    + split; [|intros i; apply A]. apply (G _ Infected); [apply Same; reflexivity|]. left. exact (R 0 _ _ PC).
  - unfold m_check. cbn [vroll sw_draws sw_status]. rewrite I.
    assert (E : (if prob (sw_draws w 0) check then SWorld (sw_status w) (fun i => sw_draws w (S i)) else SWorld (sw_status w) (fun i => sw_draws w (S i))) =
      SWorld (sw_status w) (tl_draws (sw_draws w))) by now destruct (prob _ _).
    rewrite E. split; [|apply tl_drawn, D]. unfold VirusMesaSpec.turn. destruct (sw_status w a); try discriminate I; reflexivity.
Qed.
Lemma fold_sound l : forall w, drawn U (sw_draws w) ->
  turns l (sw_status w) (sw_status (fold_left (fun w a => mstep a w) l w)) /\ drawn U (sw_draws (fold_left (fun w a => mstep a w) l w)).
Proof.
  induction l as [|a l IH]; intros w D; cbn [fold_left]; [split; [now constructor|exact D]|].
  destruct (m_step_sound a w D) as [T D1]. destruct (IH _ D1) as [T2 D2]. split; [|exact D2]. econstructor; eauto.
Qed.

(** Every turn is one of the program, with suitable draws. *)
Definition realizes (f : sworld -> sworld) (st st' : aid -> status) (ds : list num) : Prop :=
  forall w g, (forall b, sw_status w b = st b) -> sw_draws w = pre ds g -> sw_draws (f w) = g /\ forall b, sw_status (f w) b = st' b.
Lemma infect_real st st' l : (forall b, In b l -> st' b = Infected /\ can U spread true \/ st' b = st b /\ can U spread false) ->
  (forall b, ~ In b l -> st' b = st b) ->
  exists ds, Forall U ds /\ realizes (fun w => fold_left infect1 l w) st st' ds.
Proof.
  revert st. induction l as [|c l IH]; intros st H1 H2.
  - exists []. split; [constructor|]. intros w g E D. cbn in *. split; [exact D|]. intros b. rewrite E. symmetry. apply H2. auto.
  - destruct (H1 c (or_introl eq_refl)) as [[Hc (u & Uu & Pu)]|[Hc (u & Uu & Pu)]].
    + destruct (IH (set_status st c Infected)) as (ds & F & R).
      { intros b I. destruct (H1 b (or_intror I)) as [H|[H H']]; [now left|]. unfold set_status. destruct (Nat.eqb_spec b c) as [->|NE]; [|now right].
        right. split; [congruence|exact H']. }
      { intros b NI. unfold set_status. destruct (Nat.eqb_spec b c) as [->|NE]; [exact Hc|]. apply H2. intros [->|I]; contradiction. }
      exists (u :: ds). split; [constructor; assumption|]. intros w g E D. cbn [fold_left]. apply R.
      * intros b. unfold infect1. rewrite D. cbn. rewrite Pu. apply set_status_eq, E.
      * unfold infect1. rewrite D. reflexivity.
    + destruct (IH st) as (ds & F & R).
      { intros b I. exact (H1 b (or_intror I)). }
      { intros b NI. destruct (Nat.eq_dec b c) as [->|NE]; [exact Hc|]. apply H2. intros [->|I]; contradiction. }
      exists (u :: ds). split; [constructor; assumption|]. intros w g E D. cbn [fold_left]. apply R.
      * intros b. unfold infect1. rewrite D. cbn. rewrite Pu. apply E.
      * unfold infect1. rewrite D. reflexivity.
Qed.
Lemma m_step_real st a st' : (exists u, U u) -> turn st a st' -> exists ds, Forall U ds /\ realizes (mstep a) st st' ds.
Proof.
  intros [u0 U0] T. unfold VirusMesaSpec.turn in T. destruct (st a) eqn:Sa.
  1, 3: (exists [u0]; split; [constructor; [exact U0|constructor]|]; intros w g E D; unfold m_step; rewrite E, Sa; cbn [is_infected];
    unfold m_check; cbn [vroll sw_draws sw_status]; rewrite D, E, Sa; cbn [is_infected];
    destruct (prob _ _); (split; [reflexivity|]); intros b; cbn; rewrite E, T; reflexivity).
  destruct T as (T1 & T2 & T3).
  set (st1 := fun b => if Nat.eqb b a then Infected else st' b).
  set (l := filter (fun b => is_susceptible (st b)) (nbrs a)).
  assert (Il : forall b, In b l <-> In b (nbrs a) /\ st b = Susceptible).
  { intros b. unfold l. rewrite filter_In. destruct (st b); cbn; intuition congruence. }
  destruct (infect_real st st1 l) as (ds & F & R).
  { intros b I. apply Il in I as [I Sb]. unfold st1. destruct (Nat.eqb_spec b a) as [->|NE]; [congruence|].
    destruct (T1 b Sb I) as [H|[H H']]; [now left|]. right. split; [congruence|exact H']. }
  { intros b NI. unfold st1. destruct (Nat.eqb_spec b a) as [->|NE]; [auto|]. apply T2; [exact NE|]. rewrite Il in NI.
    destruct (st b) eqn:Sb; [|left; discriminate|left; discriminate]. right. tauto. }
  assert (G : forall ds2, Forall U ds2 -> realizes (m_check check recovery gain a) st1 st' ds2 -> exists ds, Forall U ds /\ realizes (mstep a) st st' ds).
  { intros ds2 F2 R2. exists (ds ++ ds2). split; [apply Forall_app; auto|]. intros w g E D. rewrite pre_app in D. unfold m_step. rewrite E, Sa. cbn [is_infected].
    unfold m_infect. change (fold_left _ ?k w) with (fold_left infect1 k w).
    rewrite (filter_same _ (fun b => is_susceptible (st b))) by (intros b; now rewrite E). fold l.
    destruct (R w _ E D) as [D1 E1]. apply R2; assumption. }
  assert (S1 : st1 a = Infected) by (unfold st1; now rewrite Nat.eqb_refl).
  assert (Oth : forall b, b <> a -> st1 b = st' b) by (intros b NE; unfold st1; now rewrite (proj2 (Nat.eqb_neq b a) NE)).
  assert (Set' : forall w, (forall b, sw_status w b = st1 b) -> forall b, set_status (sw_status w) a (st' a) b = st' b).
  { intros w E b. unfold set_status. destruct (Nat.eqb_spec b a) as [->|NE]; [reflexivity|]. rewrite E. auto. }
  destruct (st' a) eqn:S'.
  - destruct T3 as ((u1 & U1 & P1) & (u2 & U2 & P2) & (u3 & U3 & P3)). apply (G [u1; u2; u3]); [repeat constructor; assumption|].
    intros w g E D. unfold m_check, m_remove, m_gain. cbn [vroll sw_draws sw_status]. rewrite D, E, S1. cbn [pre is_infected]. rewrite P1, P2, P3.
    split; [reflexivity|]. apply Set', E.
  - destruct T3 as [(u1 & U1 & P1)|[(u1 & U1 & P1) (u2 & U2 & P2)]].
    + apply (G [u1]); [repeat constructor; assumption|]. intros w g E D. unfold m_check. cbn [vroll sw_draws sw_status]. rewrite D. cbn [pre]. rewrite P1.
      split; [reflexivity|]. intros b. cbn. rewrite E. destruct (Nat.eq_dec b a) as [->|NE]; [congruence|auto].
    + apply (G [u1; u2]); [repeat constructor; assumption|]. intros w g E D. unfold m_check, m_remove. cbn [vroll sw_draws sw_status].
      rewrite D, E, S1. cbn [pre is_infected]. rewrite P1, P2. split; [reflexivity|]. apply Set', E.
  - destruct T3 as ((u1 & U1 & P1) & (u2 & U2 & P2) & (u3 & U3 & P3)). apply (G [u1; u2; u3]); [repeat constructor; assumption|].
    intros w g E D. unfold m_check, m_remove, m_gain. cbn [vroll sw_draws sw_status]. rewrite D, E, S1. cbn [pre is_infected]. rewrite P1, P2, P3.
    split; [reflexivity|]. intros b. cbn. unfold set_status. destruct (Nat.eqb_spec b a) as [->|NE]; [auto|]. rewrite E. auto.
Qed.
Lemma turns_real l st st' : (exists u, U u) -> turns l st st' -> exists ds, Forall U ds /\ realizes (fun w => fold_left (fun w a => mstep a w) l w) st st' ds.
Proof.
  intros NE T. induction T as [st st' H|a l st st1 st' T1 T IH].
  - exists []. split; [constructor|]. intros w g E D. cbn in *. split; [exact D|]. intros b. now rewrite E, H.
  - destruct (m_step_real st a st1 NE T1) as (ds1 & F1 & R1). destruct IH as (ds2 & F2 & R2). exists (ds1 ++ ds2). split; [apply Forall_app; auto|].
    intros w g E D. rewrite pre_app in D. destruct (R1 w _ E D) as [D1 E1]. cbn [fold_left]. exact (R2 _ _ E1 D1).
Qed.

(** Who is resistant does not matter. *)
Lemma turn_resistant st a st' : turn st a st' -> forall b, st b = Resistant -> st' b = Resistant.
Proof.
  unfold VirusMesaSpec.turn. destruct (st a) eqn:Sa; intros T b Sb; [now rewrite T| |now rewrite T].
  destruct T as (_ & T & _). rewrite T; [exact Sb|congruence|]. left. congruence.
Qed.
Lemma turn_ext st st1 a st' st1' : (forall b, st b = st1 b) -> (forall b, st' b = st1' b) -> turn st a st' -> turn st1 a st1'.
Proof.
  intros E E' T. unfold VirusMesaSpec.turn in *. rewrite <- (E a). destruct (st a).
  - intros b. now rewrite <- E, <- E'.
  - destruct T as (T1 & T2 & T3). rewrite <- (E' a). split; [|split; [|exact T3]].
    + intros b. rewrite <- E, <- E'. apply T1.
    + intros b. rewrite <- E, <- E'. apply T2.
  - intros b. now rewrite <- E, <- E'.
Qed.
Lemma turns_ext l st st' : turns l st st' -> forall st1 st1', (forall b, st b = st1 b) -> (forall b, st' b = st1' b) -> turns l st1 st1'.
Proof.
  intros T. induction T as [st st' H|a l st st2 st' T1 T IH]; intros st1 st1' E E'.
  - constructor. intros b. now rewrite <- E, <- E'.
  - apply (turns_cons _ _ _ _ _ _ a l st1 st2 st1'); [eapply turn_ext; [exact E|reflexivity|exact T1]|]. apply IH; auto.
Qed.
Definition active (st : aid -> status) (a : aid) : bool := negb (is_resistant (st a)).
Lemma turns_filter st0 l st st' : (forall b, st0 b = Resistant -> st b = Resistant) -> turns l st st' -> turns (filter (active st0) l) st st'.
Proof.
  intros H T. induction T as [st st' E|a l st st1 st' T1 T IH]; cbn [filter]; [now constructor|].
  assert (H1 : forall b, st0 b = Resistant -> st1 b = Resistant) by (intros b Hb; eapply turn_resistant; eauto).
  destruct (active st0 a) eqn:A; [econstructor; eauto|].
  assert (Sa : st a = Resistant) by (apply H; unfold active in A; destruct (st0 a); try discriminate A; reflexivity).
  unfold VirusMesaSpec.turn in T1. rewrite Sa in T1. eapply turns_ext; [apply IH; exact H1|exact T1|reflexivity].
Qed.
Lemma turns_app l1 : forall l2 st st', (forall a, In a l2 -> st a = Resistant) -> turns l1 st st' -> turns (l1 ++ l2) st st'.
Proof.
  induction l1 as [|a l1 IH]; intros l2 st st' H T; inversion T; subst; cbn [app].
  - revert st st' H T H0. induction l2 as [|a l2 IH]; intros st st' H T E; [now constructor|].
    apply (turns_cons _ _ _ _ _ _ a l2 st st st'); [unfold VirusMesaSpec.turn; rewrite (H a (or_introl eq_refl)); reflexivity|].
    apply IH; [intros b I; apply H; now right|now constructor|exact E].
  - econstructor; [eassumption|]. apply IH; [|assumption]. intros b I. eapply turn_resistant; eauto.
Qed.
End Turns.

Lemma turn_edges U nbrs nbrs' spread check recovery gain : same_edges nbrs nbrs' ->
  forall st a st', turn U nbrs spread check recovery gain st a st' -> turn U nbrs' spread check recovery gain st a st'.
Proof.
  intros SE st a st'. unfold turn. destruct (st a); auto. intros (T1 & T2 & T3). split; [|split; [|exact T3]].
  - intros b Sb I. apply T1; [exact Sb|]. now apply SE.
  - intros b NE H. apply T2; [exact NE|]. destruct H as [H|H]; [now left|right]. intros I. apply H, SE, I.
Qed.
Lemma possible_edges U nbrs nbrs' spread check recovery gain n chosen k h : same_edges nbrs nbrs' ->
  possible U nbrs spread check recovery gain n chosen k h -> possible U nbrs' spread check recovery gain n chosen k h.
Proof.
  intros SE (A & B & C). split; [exact A|]. split; [exact B|]. intros j L. destruct (C j L) as (o & N & I & T). exists o. split; [exact N|]. split; [exact I|].
  clear - SE T. induction T; [now constructor|]. econstructor; [eapply turn_edges; eauto|assumption].
Qed.

Lemma nodup_app_intro (l m : list aid) : NoDup l -> NoDup m -> (forall a, In a l -> ~ In a m) -> NoDup (l ++ m).
Proof.
  intros N M H. induction N as [|a l NI N IH]; cbn [app]; [exact M|]. constructor.
  - rewrite in_app_iff. intros [I|I]; [contradiction|]. apply (H a); [now left|exact I].
  - apply IH. intros b I. apply H. now right.
Qed.

(** * The version for mesa *)
Section Mesa.
Variable nbrs : aid -> list aid.
Variables spread check recovery gain : num.
Variable U : num -> Prop.
Variable n : nat.
Variable chosen : list aid.
Notation possible := (possible U nbrs spread check recovery gain n chosen).
Notation run sh k g := (mesa_run nbrs spread check recovery gain sh n chosen k g).
Notation round sh := (m_round nbrs spread check recovery gain sh n).
Definition stat (w : mworld) : aid -> status := sw_status (mw_agents w).

Lemma m_init_spec g a : stat (m_init n chosen g) a = st0 n chosen a.
Proof.
  unfold stat, m_init. cbn [mw_agents sw_status].
  assert (G : forall l st, fold_left (fun st a => set_status st a Infected) l st a = if existsb (Nat.eqb a) l then Infected else st a).
  { induction l as [|b l IH]; intros st; cbn [fold_left existsb]; [reflexivity|]. rewrite IH. unfold set_status.
    destruct (Nat.eqb a b), (existsb (Nat.eqb a) l); reflexivity. }
  rewrite G. unfold st0. destruct (existsb (Nat.eqb a) chosen && existsb (Nat.eqb a) (virus_ids n)) eqn:E.
  - apply andb_true_iff in E as [E1 E2]. rewrite (proj2 (in_existsb a (filter _ chosen))); [reflexivity|].
    apply filter_In. split; [now apply in_existsb|exact E2].
  - destruct (existsb (Nat.eqb a) (filter (fun a => existsb (Nat.eqb a) (virus_ids n)) chosen)) eqn:X; [|reflexivity]. apply in_existsb, filter_In in X as [X1 X2].
    apply in_existsb in X1. rewrite X1, X2 in E. discriminate E.
Qed.
Lemma start_possible (h0 : aid -> status) : (forall a, h0 a = Infected <-> In a chosen /\ In a (virus_ids n)) -> (forall a, h0 a <> Resistant) ->
  forall a, h0 a = st0 n chosen a.
Proof.
  intros H1 H2 a. pose proof (st0_infected n chosen a) as H3. pose proof (st0_not_resistant n chosen a) as H4. specialize (H1 a). specialize (H2 a).
  destruct (h0 a), (st0 n chosen a); try reflexivity; try congruence; exfalso; intuition discriminate.
Qed.
Lemma round_sound sh w : fair U sh -> drawn U (sw_draws (mw_agents w)) ->
  one_step U nbrs spread check recovery gain n (stat w) (stat (round sh w)) /\ drawn U (sw_draws (mw_agents (round sh w))).
Proof.
  intros [F1 F2] D. unfold m_round. pose proof (F1 (virus_ids n) (sw_draws (mw_agents w))) as P. specialize (F2 (virus_ids n) _ D).
  destruct (sh (virus_ids n) (sw_draws (mw_agents w))) as [g l]. cbn [fst snd] in P, F2. cbn [mw_agents].
  destruct (fold_sound nbrs spread check recovery gain U l (SWorld (sw_status (mw_agents w)) g) F2) as [T D2]. split; [|exact D2].
  exists (filter (active (stat w)) l). split; [apply NoDup_filter; eapply Permutation_NoDup; [exact P|apply ids_nodup]|]. split.
  - intros a. rewrite filter_In. unfold active. split.
    + intros [I H]. split; [eapply Permutation_in; [symmetry; exact P|exact I]|]. intros X. rewrite X in H. discriminate H.
    + intros [I H]. split; [eapply Permutation_in; [exact P|exact I]|]. destruct (stat w a); auto. 
  - apply turns_filter; [auto|]. exact T.
Qed.
Lemma mesa_sound sh g k : fair U sh -> drawn U g -> possible k (fun j => stat (run sh j g)).
Proof.
  intros F D. assert (G : forall j, drawn U (sw_draws (mw_agents (run sh j g)))).
  { induction j as [|j IH]; [exact D|]. apply (round_sound sh _ F IH). }
  split; [|split].
  - intros a. change (stat (run sh 0 g) a) with (stat (m_init n chosen g) a). rewrite m_init_spec. apply st0_infected.
  - intros a. change (stat (run sh 0 g) a) with (stat (m_init n chosen g) a). rewrite m_init_spec. apply st0_not_resistant.
  - intros j _. apply (round_sound sh _ F (G j)).
Qed.
Lemma iter_r {A} (f : A -> A) k a : Nat.iter (S k) f a = Nat.iter k f (f a).
Proof. induction k as [|k IH]; [reflexivity|]. cbn [Nat.iter nat_rect] in *. unfold Nat.iter in *. cbn in *. now rewrite IH. Qed.
Lemma mesa_complete x y k h : U (Fin x) -> U (Fin y) -> x <> y -> possible k h ->
  exists g, drawn U g /\ forall j, j <= k -> forall a, stat (run (coder x) j g) a = h j a.
Proof.
  intros Ux Uy XY (H1 & H2 & H3).
  assert (G : forall r j, j + r = k -> exists ds, Forall U ds /\ forall w g, (forall b, stat w b = h j b) -> sw_draws (mw_agents w) = pre ds g ->
    forall i, i <= r -> forall a, stat (Nat.iter i (round (coder x)) w) a = h (j + i) a).
  { induction r as [|r IH]; intros j E.
    - exists []. split; [constructor|]. intros w g Ew _ i L a. replace i with 0 by lia. rewrite Nat.add_0_r. apply Ew.
    - destruct (IH (S j)) as (ds3 & F3 & R3); [lia|]. destruct (H3 j) as (o & N & I & T); [lia|].
      set (o' := o ++ filter (fun a => is_resistant (h j a)) (virus_ids n)).
      assert (P : Permutation (virus_ids n) o').
      { apply NoDup_Permutation; [apply ids_nodup| |].
        - apply nodup_app_intro; [exact N|apply NoDup_filter, ids_nodup|]. intros a Ia Ib. apply I in Ia as [_ Ia]. apply filter_In in Ib as [_ Ib].
          destruct (h j a); try discriminate Ib. now apply Ia.
        - intros a. unfold o'. rewrite in_app_iff, filter_In, I. destruct (h j a); cbn; intuition congruence. }
      assert (T' : turns U nbrs spread check recovery gain o' (h j) (h (S j))).
      { apply turns_app; [|exact T]. intros a Ia. apply filter_In in Ia as [_ Ia]. destruct (h j a); try discriminate Ia. reflexivity. }
      destruct (turns_real nbrs spread check recovery gain U o' (h j) (h (S j))) as (ds2 & F2 & R2); [eauto|exact T'|].
      exists (flat_map (enc x y) o' ++ ds2 ++ ds3). split; [apply Forall_app; split; [now apply enc_drawn|]; apply Forall_app; auto|].
      intros w g Ew D i L a. destruct i as [|i]; [rewrite Nat.add_0_r; apply Ew|]. rewrite iter_r. replace (j + S i) with (S j + i) by lia.
      assert (Rw : weq (mw_agents (round (coder x) w)) (fold_left (fun w a => m_step nbrs spread check recovery gain a w) o' (SWorld (stat w) (pre (ds2 ++ ds3) g)))).
      { unfold m_round. rewrite D, (coder_enc x y XY _ o') by exact P. apply weq_refl. }
      rewrite pre_app in Rw. destruct (R2 (SWorld (stat w) (pre ds2 (pre ds3 g))) (pre ds3 g)) as [D2 E2]; [exact Ew|reflexivity|].
      destruct Rw as [Rd Rs]. apply (R3 _ g); [|rewrite Rd; exact D2|lia]. intros b. unfold stat. rewrite Rs. apply E2. }
  destruct (G k 0 eq_refl) as (ds & F & R). exists (pre ds (fun _ => Fin x)). split; [apply pre_drawn; [exact F|intros i; exact Ux]|].
  intros j L a. apply (R (m_init n chosen (pre ds (fun _ => Fin x))) (fun _ => Fin x)); [|reflexivity|exact L].
  intros b. rewrite m_init_spec. symmetry. now apply start_possible.
Qed.
End Mesa.

(** * The version with a step *)
Section Soil.
Context {AR : Arith}.
Variable nbrs : aid -> list aid.
Variables spread check recovery gain : num.
Variable U : num -> Prop.
Variable n : nat.
Variable chosen : list aid.
Variable di : num.
Notation possible := (possible U nbrs spread check recovery gain n chosen).
Notation user sh := (step_user nbrs spread check recovery gain sh).
Notation run sh k g := (step_run nbrs spread check recovery gain sh true di n chosen k g).
Notation act := (soil_act nbrs spread check recovery gain).
Notation bound := (bound_b di (queue_b n)).

Definition soil_round (sh : list aid -> draws -> draws * list aid) (l : list aid) (w : sworld) : sworld :=
  match l with
  | [] => w
  | _ => let '(g, l0) := sh l (sw_draws w) in fold_left (fun w a => act a w) l0 (SWorld (sw_status w) g)
  end.
Lemma act_user sh s a w w' ops o : u_step (user sh) s a w = (w', ops, o) -> w' = act a w.
Proof.
  intros E. cbn [u_step step_user] in E. unfold soil_act. unfold virus_step in *.
  destruct (try_check check recovery gain a (if is_infected (sw_status w a) then try_to_infect nbrs spread a w else w)) as [w1 d]. injection E as <- _ _. reflexivity.
Qed.
Lemma exact_round sh K j s l w s' w' tr e : rearranges sh -> ticks di K -> j < K -> bound j (virus_ids n) true s l w ->
  timed_step (user sh) s w = (s', w', tr, e) ->
  w' = soil_round sh l w /\ exists l', bound (S j) (virus_ids n) true s' l' w'.
Proof.
  intros HSh T L B E. split.
  - destruct B as (N & (st & F & Q) & R & D & Sh & Qu). destruct l as [|a0 l0].
    { destruct Qu as [Qu _]. unfold timed_step in E. rewrite Qu in E. injection E as _ <- _ _. reflexivity. }
    destruct Qu as (Q1 & Q2 & Q3). destruct (ticks_tick di K T j L) as (T1 & T2 & T3 & T4). set (l := a0 :: l0) in *.
    rewrite <- Q2 in T1, Q3. assert (EW : tick di (S j) = n_add di (s_time s)) by (cbn [tick]; now rewrite Q2). rewrite EW in T2, T3, T4.
    unfold timed_step in E. rewrite Q3 in E. cbn iota beta in E. rewrite n_ltb_irrefl, Sh in E. unfold soil_round. change (match l with [] => w | _ :: _ => ?x end) with x.
    cbn [u_shuffle step_user] in E. destruct (sh l (sw_draws w)) as [g1 l1].
    destruct (run_bucket (user sh) (s_time s) l1 (set_queue s []) (SWorld (sw_status w) g1)) as [[[s1 w1] tr1] x1] eqn:E1.
    destruct (bucket_round (user sh) (fun h x => x = fold_left (fun w a => act a w) (actors h) (SWorld (sw_status w) g1)) di di) with
      (now := s_time s) (when := n_add di (s_time s)) (l := l1) (h := @nil ev) (s := set_queue s []) (w := SWorld (sw_status w) g1) (done := @nil aid)
      (s' := s1) (w' := w1) (tr := tr1) (x := x1) as (m & -> & M & -> & M1 & _); auto.
    + intros h s2 a x x' ops o -> E2. split; [|split].
      * intros t. rewrite actors_app, fold_left_app. cbn [actors fold_left]. exact (act_user _ _ _ _ _ _ _ E2).
      * apply (act_b_step _ _ _ _ _ _ _ _ _ _ _ _ E2).
      * destruct (act_b_step _ _ _ _ _ _ _ _ _ _ _ _ E2) as [_ A].
        destruct (b_HO _ _ _ _ _ _ (fun _ => false) _ _ _ (fun _ => false) _ _ A) as [-> | ->]; cbn; auto.
    + injection E as <- <- _ _. rewrite M1. cbn [app]. now rewrite actors_round, M.
  - destruct (b_step nbrs spread check recovery gain sh HSh di K T (queue_b n) j (virus_ids n) true s l w s' w' tr e
      (queue_b_preserved nbrs spread check recovery gain sh n) L B E) as (m & _ & _ & _ & B' & _).
    exists (stayers m). exact B'.
Qed.
Lemma run_next sh g k s w tr : run sh k g = (s, w, tr) -> forall s' w' tr' e, timed_step (user sh) s w = (s', w', tr', e) ->
  exists tr2, run sh (S k) g = (s', w', tr2).
Proof.
  intros E s' w' tr' e E'. unfold step_run in *. replace (S k) with (k + 1) by lia. rewrite repeat_app, !app_assoc, run_hist_app. rewrite <- !app_assoc. rewrite E. cbn [repeat].
  cbn [run_hist run_cmd]. rewrite E'. eauto.
Qed.
Definition soil_stat sh g k : aid -> status := let '(_, w, _) := run sh k g in sw_status w.
Lemma run_bound sh K k g s w tr : rearranges sh -> ticks di K -> k <= K -> run sh k g = (s, w, tr) -> exists l, bound k (virus_ids n) true s l w.
Proof.
  intros HSh T L E. eapply (b_run nbrs spread check recovery gain sh HSh di n chosen K (queue_b n)); eauto.
  - apply queue_b_preserved.
  - apply queue_b_start.
Qed.
Lemma soil_round_sound sh l w : fair U sh -> drawn U (sw_draws w) -> NoDup l -> (forall a, In a l <-> In a (virus_ids n) /\ sw_status w a <> Resistant) ->
  one_step U nbrs spread check recovery gain n (sw_status w) (sw_status (soil_round sh l w)) /\ drawn U (sw_draws (soil_round sh l w)).
Proof.
  intros [F1 F2] D N I. unfold soil_round. destruct l as [|a0 l0].
  - split; [|exact D]. exists []. split; [constructor|]. split; [exact I|]. now constructor.
  - set (l := a0 :: l0) in *. pose proof (F1 l (sw_draws w)) as P. specialize (F2 l _ D). destruct (sh l (sw_draws w)) as [g l1]. cbn [fst snd] in P, F2.
    destruct (fold_sound nbrs spread check recovery gain U l1 (SWorld (sw_status w) g) F2) as [T D2].
    destruct (soil_mesa_fold nbrs spread check recovery gain l1 _ _ (weq_refl (SWorld (sw_status w) g))) as [E1 E2]. split; [|rewrite E1; exact D2].
    exists l1. split; [eapply Permutation_NoDup; eauto|]. split.
    + intros a. rewrite <- I. split; intros J; (eapply Permutation_in; [|exact J]); [now symmetry|exact P].
    + eapply turns_ext; [exact T|reflexivity|]. intros b. symmetry. apply E2.
Qed.
Lemma soil_sound sh g k : ticks di k -> fair U sh -> drawn U g -> possible k (fun j => soil_stat sh g j).
Proof.
  intros T F D. assert (HSh : rearranges sh) by apply F.
  assert (Z : forall a, soil_stat sh g 0 a = st0 n chosen a).
  { intros a. unfold soil_stat. destruct (run sh 0 g) as [[s w] tr] eqn:E.
    unfold step_run in E. rewrite run_hist_app, (start_single (user sh) true di _ (virus_ids n) (ids_nodup n)) in E. cbn in E. injection E as _ <- _.
    apply step_outbreak_st0 with (g := g). }
  assert (G : forall j s w tr, j <= k -> run sh j g = (s, w, tr) -> drawn U (sw_draws w)).
  { induction j as [|j IH]; intros s w tr L E.
    - unfold step_run in E. rewrite run_hist_app, (start_single (user sh) true di _ (virus_ids n) (ids_nodup n)) in E. cbn in E. injection E as _ <- _. exact D.
    - destruct (run sh j g) as [[s1 w1] tr1] eqn:E1. destruct (timed_step (user sh) s1 w1) as [[[s2 w2] tr2] e] eqn:E2.
      destruct (run_next sh g j s1 w1 tr1 E1 _ _ _ _ E2) as [tr3 E3]. rewrite E3 in E. injection E as <- <- <-.
      destruct (run_bound sh k j g s1 w1 tr1 HSh T ltac:(lia) E1) as (l & B).
      destruct (exact_round sh k j s1 l w1 s2 w2 tr2 e HSh T ltac:(lia) B E2) as [-> _].
      destruct B as (N & (st & Fst & Q) & _). apply soil_round_sound; auto; [apply (IH s1 w1 tr1); [lia|reflexivity]|]. intros a. rewrite <- (Fst a). apply Q. }
  split; [|split].
  - intros a. rewrite Z. apply st0_infected.
  - intros a. rewrite Z. apply st0_not_resistant.
  - intros j L. unfold soil_stat. destruct (run sh j g) as [[s1 w1] tr1] eqn:E1. destruct (timed_step (user sh) s1 w1) as [[[s2 w2] tr2] e] eqn:E2.
    destruct (run_next sh g j s1 w1 tr1 E1 _ _ _ _ E2) as [tr3 E3]. rewrite E3.
    destruct (run_bound sh k j g s1 w1 tr1 HSh T ltac:(lia) E1) as (l & B).
    destruct (exact_round sh k j s1 l w1 s2 w2 tr2 e HSh T L B E2) as [-> _].
    destruct B as (N & (st & Fst & Q) & _). apply soil_round_sound; auto; [apply (G j s1 w1 tr1); [lia|exact E1]|]. intros a. rewrite <- (Fst a). apply Q.
Qed.
Lemma soil_complete x y k h : ticks di k -> U (Fin x) -> U (Fin y) -> x <> y -> possible k h ->
  exists g, drawn U g /\ forall j, j <= k -> forall a, soil_stat (coder x) g j a = h j a.
Proof.
  intros T Ux Uy XY (H1 & H2 & H3). assert (HSh : rearranges (coder x)) by apply (coder_fair x U).
  assert (G : forall r j, j + r = k -> exists ds, Forall U ds /\ forall s w l g, bound j (virus_ids n) true s l w -> (forall b, sw_status w b = h j b) ->
    sw_draws w = pre ds g -> forall i, i <= r -> forall a, sw_status (snd (fst (run_hist (user (coder x)) (repeat CStep i) s w))) a = h (j + i) a).
  { induction r as [|r IH]; intros j E.
    - exists []. split; [constructor|]. intros s w l g _ Ew _ i L a. replace i with 0 by lia. rewrite Nat.add_0_r. apply Ew.
    - destruct (IH (S j)) as (ds3 & F3 & R3); [lia|]. destruct (H3 j) as (o & N & I & To); [lia|].
      destruct (turns_real nbrs spread check recovery gain U o (h j) (h (S j))) as (ds2 & F2 & R2); [eauto|exact To|].
      exists (flat_map (enc x y) o ++ ds2 ++ ds3). split; [apply Forall_app; split; [now apply enc_drawn|]; apply Forall_app; auto|].
      intros s w l g B Ew D i L a. destruct i as [|i]; [rewrite Nat.add_0_r; apply Ew|]. replace (j + S i) with (S j + i) by lia.
      cbn [repeat run_hist run_cmd]. destruct (timed_step (user (coder x)) s w) as [[[s1 w1] tr1] e] eqn:E1.
      destruct (exact_round (coder x) k j s l w s1 w1 tr1 e HSh T ltac:(lia) B E1) as [Ew1 (l' & B')].
      destruct (run_hist (user (coder x)) (repeat CStep i) s1 w1) as [[s2 w2] tr2] eqn:E2. cbn [fst snd].
      change w2 with (snd (fst (s2, w2, tr2))). rewrite <- E2.
      assert (P : Permutation l o).
      { destruct B as (Nl & (st & Fst & Q) & _). apply NoDup_Permutation; auto. intros b. rewrite I, (Q b), (Fst b), Ew. reflexivity. }
      assert (Rw : weq w1 (fold_left (fun w a => m_step nbrs spread check recovery gain a w) o (SWorld (sw_status w) (pre (ds2 ++ ds3) g)))).
      { subst w1. unfold soil_round. destruct l as [|a0 l0].
        - apply Permutation_nil in P. subst o. cbn [fold_left flat_map app] in *. split; [exact D|reflexivity].
        - rewrite D, (coder_enc x y XY _ o) by exact P. apply soil_mesa_fold, weq_refl. }
      rewrite pre_app in Rw. destruct (R2 (SWorld (sw_status w) (pre ds2 (pre ds3 g))) (pre ds3 g)) as [D2 E2']; [exact Ew|reflexivity|].
      destruct Rw as [Rd Rs]. apply (R3 s1 w1 l' g); [exact B'| |rewrite Rd; exact D2|lia]. intros b. rewrite Rs. apply E2'. }
  destruct (G k 0 eq_refl) as (ds & F & R). set (g := pre ds (fun _ => Fin x)). exists g. split; [apply pre_drawn; [exact F|intros i; exact Ux]|].
  intros j L a. unfold soil_stat. destruct (run (coder x) 0 g) as [[s w] tr] eqn:E0. destruct (run_bound (coder x) k 0 g s w tr HSh T ltac:(lia) E0) as (l & B).
  pose proof E0 as E0'. unfold step_run in E0'. cbn [repeat app] in E0'.
  assert (Ej : snd (fst (run (coder x) j g)) = snd (fst (run_hist (user (coder x)) (repeat CStep j) s w))).
  { unfold step_run. rewrite !app_assoc, run_hist_app. rewrite E0'. now destruct (run_hist (user (coder x)) (repeat CStep j) s w) as [[? ?] ?]. }
  destruct (run (coder x) j g) as [[sj wj] trj]. cbn [fst snd] in Ej. rewrite Ej.
  assert (Ew : w = step_outbreak n chosen (SWorld (fun _ => Susceptible) g)).
  { rewrite run_hist_app, (start_single (user (coder x)) true di _ (virus_ids n) (ids_nodup n)) in E0'. cbn in E0'. injection E0' as _ <- _. reflexivity. }
  apply (R s w l (fun _ => Fin x)); [exact B| |rewrite Ew; reflexivity|exact L].
  intros b. rewrite Ew, step_outbreak_st0. symmetry. now apply start_possible.
Qed.
End Soil.
