(** Theorems about how the patrons of the pubcrawl example make friends (examples/pubcrawl/pubcrawl_sim.py:77-90 and 134-159). *)
From Coq Require Import ZArith List Bool Arith String Lia.
From Verif Require Import Num TimedModel AgentModel FsmModel PubModel PatronModel FriendSpec.
Import ListNotations.
Local Open Scope list_scope.

Section Friends.
Variables (openness : aid -> num) (tenfold : num -> nat) (mix : (nat -> num) -> list aid -> (nat -> num) * list aid).
(** The others are as they were. *)
Definition others_same (r r' : prest) : Prop :=
  pr_city r' = pr_city r /\ pr_pints r' = pr_pints r /\ pr_drunk r' = pr_drunk r /\ pr_kicked r' = pr_kicked r.
Definition loops (self : aid) (l : list aid) : list (aid * aid) := rev (flat_map (fun f => [(f, f); (self, self)]) l).

Lemma accepted_cons d f l : accepted openness d (f :: l) =
  (if n_ltb (d 0) (openness f) then [f] else []) ++ accepted openness (fun n => d (S n)) l.
Proof.
  unfold accepted. cbn [List.length seq map combine filter fst snd]. rewrite <- seq_shift, map_map.
  destruct (n_ltb (d 0) (openness f)); reflexivity.
Qed.
Lemma each_spec self l : forall b r r' b', each_friend openness self l b r = (r', b') ->
  let c := filter (fun f => negb (Nat.eqb f self)) l in
  let y := accepted openness (pr_draws r) c in
  b' = b || negb (match y with [] => true | _ => false end) /\ pr_edges r' = loops self y ++ pr_edges r /\
  (forall n, pr_draws r' n = pr_draws r (List.length c + n)) /\ others_same r r'.
Proof.
  induction l as [|f l IH]; cbn zeta; intros b r r' b' E; cbn [each_friend] in E.
  { injection E as <- <-. cbn. rewrite orb_false_r. unfold others_same. auto 8. }
  cbn [filter]. destruct (Nat.eqb f self) eqn:F; cbn [negb]; [apply IH, E|].
  rewrite accepted_cons. unfold befriend, draw in E. destruct (n_ltb (pr_draws r 0) (openness f)) eqn:L.
  - destruct (IH _ _ _ _ E) as (A1 & A2 & A3 & A4). cbn [add_edge set_edges set_draws fst pr_draws pr_edges] in *. cbn [app].
    split; [rewrite A1, orb_true_r; reflexivity|]. split; [|split].
    + rewrite A2. unfold loops. cbn [flat_map app rev]. rewrite <- !app_assoc. reflexivity.
    + intros n. rewrite A3. reflexivity.
    + exact A4.
  - destruct (IH _ _ _ _ E) as (A1 & A2 & A3 & A4). cbn [add_edge set_edges set_draws fst pr_draws pr_edges] in *. cbn [app].
    split; [exact A1|]. split; [exact A2|]. split; [|exact A4]. intros n. rewrite A3. reflexivity.
Qed.

(** C268.  A patron that tries to make friends succeeds if one of those it asks accepts; two loops are added for each of them (see C148), one number is
    drawn for each patron that is asked, and nothing else changes. *)
Theorem C268_try_friends : forall self others r r' b, try_friends openness tenfold mix self others r = (r', b) ->
  let '(d, l) := mix (pr_draws r) others in
  let c := asked self (tenfold (openness self)) l in
  let y := accepted openness d c in
  (b = true <-> y <> []) /\ pr_edges r' = loops self y ++ pr_edges r /\
  (forall n, pr_draws r' n = d (List.length c + n)) /\ others_same r r'.
Proof.
  intros self others r r' b E. unfold try_friends in E. destruct (mix (pr_draws r) others) as [d l].
  destruct (each_spec _ _ _ _ _ _ E) as (A1 & A2 & A3 & A4). fold (asked self (tenfold (openness self)) l) in *. cbn [set_draws pr_draws pr_edges] in *.
  split; [|auto]. rewrite A1. destruct (accepted openness d _); cbn; split; intros H; congruence.
Qed.

(** Which patrons are there: those of the schedule that look for friends and have no pub.  A patron goes home if there are none; it looks for a pub if somebody accepted, and tries again otherwise. *)
Theorem C268_looking_for_friends : forall s ag a r,
  let there b := In b (s_reg s) /\ (exists st, fa_cur (ag b) = Some st /\ st_name st = "looking_for_friends"%string) /\
    (forall p, c_pub (pr_city r) b <> Some (Some p)) in
  exists l, (forall b, In b l <-> there b) /\
  match l with
  | [] => friends_fn openness tenfold mix s ag a r = (r, GReturn (PState at_home))
  | _ => exists r' b, try_friends openness tenfold mix a l r = (r', b) /\
      friends_fn openness tenfold mix s ag a r = (r', GReturn (if b then PState looking_for_pub else PNone))
  end.
Proof.
  intros s ag a r. cbn zeta. exists (filter (no_pub r) (filter (no_pub r) (filter (state_is ag "looking_for_friends") (s_reg s)))). split.
  - intros b. rewrite !filter_In. unfold no_pub, state_is. split.
    + intros [[[H1 H2] H3] _]. split; auto. split.
      * destruct (fa_cur (ag b)) as [st|]; [|discriminate]. exists st. split; auto. now apply String.eqb_eq.
      * intros p E. rewrite E in H3. discriminate.
    + intros (H1 & (st & E & N) & H3). rewrite E, N. assert (K : match c_pub (pr_city r) b with Some (Some _) => false | _ => true end = true).
      { destruct (c_pub (pr_city r) b) as [[p|]|]; auto. destruct (H3 p). reflexivity. }
      rewrite K. auto.
  - unfold friends_fn. destruct (filter _ _) as [|x l]; [reflexivity|]. destruct (try_friends openness tenfold mix a (x :: l) r) as [r' b]. eauto.
Qed.
End Friends.
Print Assumptions C268_try_friends.
Print Assumptions C268_looking_for_friends.

(** Patron 1 asks two of the patrons 3, 1, 2: 3, who accepts, and not itself; 2 is not asked. *)
Example C268_case :
  let openness a := match a with 3 => Fin 5 | _ => Fin 2 end in
  let '(r', b) := try_friends openness (fun _ => 2) (fun d l => (fun n => d (S n), rev l)) 1 [2; 1; 3]
    (PRest (new_city 1 1) [] (fun _ => 0%Z) (fun _ => false) (fun _ => false) (fun n => Fin (Z.of_nat n + 1))) in
  b = true /\ pr_edges r' = [(1, 1); (3, 3)] /\ pr_draws r' 0 = Fin 3 /\
  asked 1 2 [3; 1; 2] = [3] /\ accepted openness (fun n => Fin (Z.of_nat n + 2)) [3] = [3] /\ accepted openness (fun n => Fin (Z.of_nat n + 5)) [3] = [].
Proof. repeat split. Qed.
