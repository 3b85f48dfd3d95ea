(** C120 to C123: the viewers of the newsspread example. *)
From Coq Require Import ZArith List Bool Arith String.
From Verif Require Import Num PyDict TimedModel AgentModel FsmModel NewsModel NewsSpec NewsProofs.
Import ListNotations.
Local Open Scope string_scope.

(** C120.  The news spreads along the network only: take any set of viewers that nobody outside has
    as a neighbour.  If none of them has a television or has heard the news at the beginning,
    none ever hears it, whatever the parameters, the draws, the order of the agents and the
    exceptions on the way. *)
Theorem C120_news_follow_the_network :
  forall (AR : Arith) share cure_prob shuffle, only_draws shuffle ->
  forall h s s' w w' c' tr, hands_off h -> all_viewers w ->
  run_hist (news_user share cure_prob shuffle) h s (w, no_cors) = (s', (w', c'), tr) ->
  forall S : aid -> Prop,
  (forall a b, In b (nr_nbrs (fw_rest w) a) -> S b -> S a) ->
  (forall a, S a -> nr_tv (fw_rest w) a = false /\ nr_hit (fw_rest w) a = false /\ ~ in_state "infected" w a) ->
  forall a, S a -> nr_hit (fw_rest w') a = false /\ ~ in_state "infected" w' a.
Proof. exact @along_the_network. Qed.
Print Assumptions C120_news_follow_the_network.

(** Who has heard the news (or sees them on television) is infected at the next activation. *)
Theorem C120_neutral_viewers :
  forall share cure_prob fs s a w c p, all_viewers w ->
  nr_tv_spread (fw_rest w) = PNumber p ->
  in_state "neutral" w a -> fa_alive (fw_agents w a) = true -> get_co c a = None ->
  exists w' c', agent_step (news_code share cure_prob) fs s a (w, c) = (w', c', [], Ret None) /\
  in_state (if nr_tv (fw_rest w) a && prob (nr_draws (fw_rest w) 0) p || nr_hit (fw_rest w) a
            then "infected" else "neutral") w' a.
Proof. exact neutral_activation. Qed.
Print Assumptions C120_neutral_viewers.

(** Four viewers: 0 has a television, 0 and 1 are neighbours, and so are 2 and 3; 3 is wise.  All
    draws are 0, so that the news is passed on wherever it can be. *)
Definition a_class (a : aid) : viewer := match a with 3 => Wise | 1 => Herd | _ => Dumb end.
Definition couples (tv : aid -> bool) (hit : aid -> bool) (cur : aid -> state nfun) : fworld nfun nrest :=
  FWorld (fun a => FAgent (KFsm (fst (meta (class_of (a_class a))))) true (Some (cur a)))
    (NRest a_class tv (fun a => match a with 0 => [1] | 1 => [0] | 2 => [3] | 3 => [2] | _ => [] end)
       hit (fun _ => None) (PNumber (Fin 10)) (PNumber (Fin 10)) (PNumber (Fin 5)) (fun _ => Fin 0)).
Definition a_share (p : num) (n m : nat) : num :=
  match p with Fin z => Fin (z * Z.of_nat n / Z.of_nat m) | _ => p end.
Definition no_shuffle (l : list aid) (r : nrest) : nrest * list aid := (r, l).
Definition names (wc : fworld nfun nrest * cors (frame nfun)) : list string :=
  map (fun a => match fa_cur (fw_agents (fst wc) a) with Some st => st_name st | None => "" end) [0; 1; 2; 3].
#[local] Instance tenths : Arith := exact.
Definition seen (w : fworld nfun nrest) : list (list string) :=
  map (fun n => names (snd (fst (run_hist (news_user a_share a_share no_shuffle)
                   (map (fun a => CAdd a None) [0; 1; 2; 3] ++ repeat CStep n)%list (timed_init false (Fin 1)) (w, no_cors))))) [0; 1; 2; 3; 4].
Definition only_first (a : aid) : bool := Nat.eqb a 0.

Example C120_not_vacuous :
  let w := couples only_first (fun _ => false) (fun _ => neutral) in
  let S := fun a => a = 2 \/ a = 3 in
  all_viewers w /\ only_draws no_shuffle /\ hands_off (W := unit) (map (fun a => CAdd a None) [0; 1; 2; 3] ++ repeat CStep 4)%list /\
  (forall a b, In b (nr_nbrs (fw_rest w) a) -> S b -> S a) /\
  (forall a, S a -> nr_tv (fw_rest w) a = false /\ nr_hit (fw_rest w) a = false /\ ~ in_state "infected" w a) /\
  seen w = [["neutral"; "neutral"; "neutral"; "neutral"]; ["infected"; "neutral"; "neutral"; "neutral"];
            ["infected"; "infected"; "neutral"; "neutral"]; ["infected"; "infected"; "neutral"; "neutral"];
            ["infected"; "infected"; "neutral"; "neutral"]] /\
  (** New viewers are as assumed. *)
  map new_viewer [Dumb; Herd; Wise] =
  map (fun v => FAgent (KFsm (fst (meta (class_of v)))) true (Some neutral)) [Dumb; Herd; Wise].
Proof.
  split; [|split; [|split; [|split; [|split; [|split]]]]]; try reflexivity.
  - intros a. split; [reflexivity|]. exists "neutral", neutral. split; [cbn; auto|]. split; [|reflexivity].
    cbn [fw_rest couples nr_class]. unfold a_class. destruct a as [|[|[|[|a]]]]; reflexivity.
  - intros l r. repeat split.
  - intros f I. cbn in I. repeat (destruct I as [I|I]; [discriminate I|]). exact I.
  - intros [|[|[|[|a]]]] b; cbn; intros H Sb; auto; exfalso;
      try (destruct H as [H|H]; [|destruct H]); try (destruct H; fail); subst b; destruct Sb; discriminate.
  - intros a [ -> | -> ]; repeat split; intros (st & C & N); injection C as <-; discriminate N.
Qed.

(** C121.  Nobody forgets: an infected viewer never becomes neutral again, and dumb and herd viewers
    stay infected for ever. *)
Theorem C121_nobody_forgets :
  forall (AR : Arith) share cure_prob shuffle, only_draws shuffle ->
  forall h s s' w w' c' tr, hands_off h -> all_viewers w ->
  run_hist (news_user share cure_prob shuffle) h s (w, no_cors) = (s', (w', c'), tr) ->
  forall a,
  (in_state "infected" w a -> nr_class (fw_rest w) a <> Wise -> in_state "infected" w' a) /\
  (in_state "infected" w a -> in_state "infected" w' a \/ in_state "cured" w' a) /\
  (in_state "cured" w a -> in_state "cured" w' a).
Proof. exact @nobody_forgets. Qed.
Print Assumptions C121_nobody_forgets.
Example C121_not_vacuous :
  let w := couples (fun _ => false) (fun _ => false) (fun a => match a with 0 => infected | 3 => cured | _ => neutral end) in
  all_viewers w /\ in_state "infected" w 0 /\ in_state "cured" w 3 /\
  seen w = [["infected"; "neutral"; "neutral"; "cured"]; ["infected"; "infected"; "neutral"; "cured"];
            ["infected"; "infected"; "neutral"; "cured"]; ["infected"; "infected"; "neutral"; "cured"];
            ["infected"; "infected"; "neutral"; "cured"]].
Proof.
  split; [|split; [|split]]; try reflexivity.
  - intros a. cbn [fw_rest couples nr_class fw_agents fa_kind fa_cur]. split; [reflexivity|].
    destruct a as [|[|[|[|a]]]]; [exists "infected", infected|exists "neutral", neutral|exists "neutral", neutral|
      exists "cured", cured|exists "neutral", neutral]; (split; [cbn; tauto|split; reflexivity]).
  - eexists. split; reflexivity.
  - eexists. split; reflexivity.
Qed.

(** C122 is false: a wise viewer has no attribute [has_been_cured] until somebody cures it, and only
    a cured viewer does.  If nobody is cured at the beginning nobody ever is, and an infected
    wise viewer raises AttributeError in its next activation. *)
Theorem C122_wise_viewers_never_recover_refuted :
  forall (AR : Arith) share cure_prob shuffle, only_draws shuffle ->
  forall h s s' w w' c' tr, hands_off h -> all_viewers w ->
  run_hist (news_user share cure_prob shuffle) h s (w, no_cors) = (s', (w', c'), tr) ->
  (forall a, nr_cure (fw_rest w) a = None /\ ~ in_state "cured" w a) ->
  forall a, ~ in_state "cured" w' a /\
  (nr_class (fw_rest w) a = Wise -> in_state "infected" w' a -> fa_alive (fw_agents w' a) = true ->
   get_co c' a = None -> forall fs s2,
   exists c2, agent_step (news_code share cure_prob) fs s2 a (w', c') = (w', c2, [], Exc)).
Proof. exact @never_cured. Qed.
Print Assumptions C122_wise_viewers_never_recover_refuted.
(** C122 for viewers that have the attribute. *)
Theorem C122_wise_viewers_partial :
  forall share cure_prob fs s a w c p b, all_viewers w ->
  nr_prob_cure (fw_rest w) = PNumber p -> nr_class (fw_rest w) a = Wise -> nr_cure (fw_rest w) a = Some b ->
  in_state "infected" w a -> fa_alive (fw_agents w a) = true -> get_co c a = None ->
  exists w' c', agent_step (news_code share cure_prob) fs s a (w, c) = (w', c', [], Ret None) /\
  in_state (if b || prob (nr_draws (fw_rest w) 0)
                      (cure_prob p (how_many "cured" w (nr_nbrs (fw_rest w) a)) (how_many "infected" w (nr_nbrs (fw_rest w) a)))
            then "cured" else "infected") w' a.
Proof. exact wise_activation. Qed.
Print Assumptions C122_wise_viewers_partial.
Example C122_not_vacuous :
  let w := couples (fun a => Nat.eqb a 3) (fun _ => false) (fun _ => neutral) in
  let '(s', (w', c'), tr) := run_hist (news_user a_share a_share no_shuffle)
                   (map (fun a => CAdd a None) [0; 1; 2; 3] ++ [CStep])%list (timed_init false (Fin 1)) (w, no_cors) in
  (forall a, nr_cure (fw_rest w) a = None) /\
  in_state "infected" w' 3 /\ fa_alive (fw_agents w' 3) = true /\ get_co c' 3 = None /\
  snd (agent_step (news_code a_share a_share) (fun _ => None) s' 3 (w', c')) = Exc /\
  (** Viewer 3 was told to be cured. *)
  let r := fw_rest w' in
  let healed := FWorld (fw_agents w') (set_cured r 3) in
  let '(w2, _, _, o) := agent_step (news_code a_share a_share) (fun _ => None) s' 3 (healed, c') in
  o = Ret None /\ in_state "cured" w2 3.
Proof.
  vm_compute. repeat split; eexists; repeat split.
Qed.

(** C123 is false: all the parameters of [NewsSpread] end in a comma, so that the defaults are
    tuples.  Unless all three ratios are given, the model cannot be created. *)
Theorem C123_defaults_are_no_numbers_refuted :
  forall plus given k, In k ["ratio_dumb"; "ratio_herd"; "ratio_wise"] -> ~ In k (map fst given) ->
  news_init plus given = false.
Proof. exact defaults_unusable. Qed.
Print Assumptions C123_defaults_are_no_numbers_refuted.
(** C123, and a viewer with a television raises TypeError if [prob_tv_spread] is not given. *)
Theorem C123_television_refuted :
  forall share cure_prob fs s a w c x, all_viewers w ->
  nr_tv_spread (fw_rest w) = PTupleOf x -> nr_tv (fw_rest w) a = true ->
  in_state "neutral" w a -> fa_alive (fw_agents w a) = true -> get_co c a = None ->
  snd (agent_step (news_code share cure_prob) fs s a (w, c)) = Exc.
Proof. exact television_raises. Qed.
Print Assumptions C123_television_refuted.
(** C123 when the ratios are given as numbers, at least one of which is not zero. *)
Theorem C123_given_ratios_partial :
  forall plus given d h w,
  In ("ratio_dumb", PNumber d) given -> In ("ratio_herd", PNumber h) given -> In ("ratio_wise", PNumber w) given ->
  NoDup (map fst given) -> n_ltb (Fin 0) (plus (plus (plus (Fin 0) d) h) w) = true -> news_init plus given = true.
Proof. exact given_usable. Qed.
Print Assumptions C123_given_ratios_partial.
Example C123_not_vacuous :
  let plus := fun x y => match x, y with Fin x, Fin y => Fin (x + y) | _, _ => NaN end in
  news_init plus [] = false /\ news_init plus [("ratio_wise", PNumber (Fin 1))] = false /\
  news_init plus [("ratio_wise", PNumber (Fin 1)); ("ratio_dumb", PNumber (Fin 0)); ("ratio_herd", PNumber (Fin 0))] = true /\
  let w := couples only_first (fun _ => false) (fun _ => neutral) in
  let r := fw_rest w in
  let untold := FWorld (fw_agents w) (NRest (nr_class r) (nr_tv r) (nr_nbrs r) (nr_hit r) (nr_cure r)
                  (PTupleOf (Fin 10)) (nr_spread r) (nr_prob_cure r) (nr_draws r)) in
  snd (agent_step (news_code a_share a_share) (fun _ => None) (timed_init false (Fin 1)) 0 (untold, no_cors)) = Exc.
Proof. repeat split. Qed.
