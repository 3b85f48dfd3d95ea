(** C257 to C259: how a network is populated, and the experiment of newsspread. *)
From Coq Require Import ZArith List Bool Arith String Lia.
From Verif Require Import Num PyDict TimedModel AgentModel FsmModel NewsModel NewsSpec CampaignModel CampaignSpec CampaignProofs.
Import ListNotations.
Local Open Scope nat_scope.
Local Open Scope list_scope.

(** C257: if no weight is negative and some are positive, the class number [i] (from 0) is chosen for the draws between the sum of the weights
    before it and that sum with its own, in proportion to the sum of all.  So every draw chooses a class, and each class gets the share of its weight. *)
Theorem C257_class_of_a_draw :
  forall ws k n, Forall (fun x => 0 <= x)%Z ws -> (0 < sum ws)%Z -> (0 <= k < n)%Z ->
  choice ws k n < List.length ws /\
  forall i, i < List.length ws ->
  choice ws k n = i <-> (sum (firstn i ws) * n <= k * sum ws < sum (firstn (S i) ws) * n)%Z.
Proof. intros ws k n F P K. split; [apply choice_interval; auto|]. intros i. now apply choice_iff. Qed.
Print Assumptions C257_class_of_a_draw.
Theorem C257_shares :
  forall ws, Forall (fun x => 0 <= x)%Z ws -> (0 < sum ws)%Z -> fair_shares ws.
Proof. exact choices_fair. Qed.
Print Assumptions C257_shares.
Example C257_case :
  let ws := [20; 0; 50; 30]%Z in
  Forall (fun x => 0 <= x)%Z ws /\ (0 < sum ws)%Z /\
  map (fun k => choice ws k 10) [0; 1; 2; 3; 6; 7; 9]%Z = [0; 0; 2; 2; 2; 3; 3] /\
  map (fun i => draws_with 100 (fun k => Nat.eqb (choice ws k 100) i)) [0; 1; 2; 3] = [20; 0; 50; 30].
Proof.
  split; [repeat (apply Forall_cons; [lia|]); apply Forall_nil|]. split; [reflexivity|]. split; vm_compute; reflexivity.
Qed.

(** C258 is false: the experiment takes [1 - r1 - r2] as the ratio of wise viewers, which is negative for three of the nine pairs.  With both ratios
    1 all viewers are dumb, as with 1 and 0, and so with 1 and one half; and with one half and 1 the viewers are those of one half and one half. *)
Theorem C258_negative_ratio_refuted :
  forall net, In net networks ->
  (forall r1 r2, In (r1, r2) [(100, 100); (100, 50); (50, 100)]%Z ->
     In (study_of r1 r2 net) campaign /\ dget "ratio_wise"%string (st_given (study_of r1 r2 net)) = Some (PNumber (Fin (100 - r1 - r2))) /\
     (100 - r1 - r2 < 0)%Z /\ ~ fair_shares (weights (st_given (study_of r1 r2 net)))) /\
  forall k n, (0 <= k < n)%Z ->
  viewer_for (st_given (study_of 100 100 net)) (k, n) = Dumb /\ viewer_for (st_given (study_of 100 50 net)) (k, n) = Dumb /\
  viewer_for (st_given (study_of 50 100 net)) (k, n) = viewer_for (st_given (study_of 50 50 net)) (k, n).
Proof. exact negative_ratio. Qed.
Print Assumptions C258_negative_ratio_refuted.
(** C258 for the rest: every pair of ratios is combined with every network once, every model can be populated, and when the ratios are at most 1 in
    all, each class gets its share. *)
Theorem C258_shares_partial :
  NoDup campaign /\ List.length campaign = 18 /\
  (forall st, In st campaign <-> exists r1 r2 net, In r1 levels /\ In r2 levels /\ In net networks /\ st = study_of r1 r2 net) /\
  forall r1 r2 net, In (study_of r1 r2 net) campaign -> In r1 levels -> In r2 levels ->
  news_init (@n_add exact) (st_given (study_of r1 r2 net)) = true /\
  ((r1 + r2 <= 100)%Z -> weights (st_given (study_of r1 r2 net)) = [r1; r2; 100 - r1 - r2]%Z /\ fair_shares (weights (st_given (study_of r1 r2 net)))).
Proof. exact rest_of_campaign. Qed.
Print Assumptions C258_shares_partial.
Example C258_case :
  let given := st_given (study_of 50 0 ("erdos_renyi_graph", ("p", 10%Z))%string) in
  map (fun k => viewer_for given (k, 10%Z)) [0; 4; 5; 9]%Z = [Dumb; Dumb; Wise; Wise] /\
  let given := st_given (study_of 50 100 ("erdos_renyi_graph", ("p", 10%Z))%string) in
  map (fun k => viewer_for given (k, 10%Z)) [0; 4; 5; 9]%Z = [Dumb; Dumb; Herd; Herd].
Proof. split; vm_compute; reflexivity. Qed.

(** C259 is false: in every simulation of the experiment, whatever the network, the draws and the order of the viewers, all viewers are neutral for
    ever: none has a television. *)
Theorem C259_nobody_hears_the_news_refuted :
  forall (AR : Arith) share cure_prob shuffle, only_draws shuffle ->
  forall st nbrs draws rolls h s s' w' c' tr, In st campaign -> hands_off h ->
  run_hist (news_user share cure_prob shuffle) h s (audience (st_given st) nbrs draws rolls, no_cors) = (s', (w', c'), tr) ->
  forall a, in_state "neutral" w' a /\ nr_hit (fw_rest w') a = false.
Proof. intros. eapply nobody_hears; eauto. Qed.
Print Assumptions C259_nobody_hears_the_news_refuted.
(** Three viewers in a line, for 5 steps; and the same with a television for the first one and numbers instead of the defaults. *)
Section Cases.
#[local] Existing Instance exact.
Let line (a : aid) : list aid := match a with 0 => [1] | 1 => [0; 2] | 2 => [1] | _ => [] end.
Let names (w : fworld nfun nrest) : list (option string) := map (fun a => option_map st_name (fa_cur (fw_agents w a))) [0; 1; 2].
Let after (w : fworld nfun nrest) : list (option string) :=
  names (fst (snd (fst (run_hist (news_user (fun p _ _ => p) (fun p _ _ => p) (fun l r => (r, l))) (map (fun a => CAdd a None) [0; 1; 2] ++ repeat CStep 5)
    (timed_init false (Fin 1)) (w, no_cors))))).
Example C259_case :
  let w := audience (st_given (study_of 100 0 ("barabasi_albert_graph", ("m", 500%Z))%string)) line (fun _ => (0, 1)%Z) (fun _ => Fin 0) in
  let r := fw_rest w in
  let seen := FWorld (fw_agents w) (NRest (nr_class r) (fun a => Nat.eqb a 0) (nr_nbrs r) (nr_hit r) (nr_cure r)
    (PNumber (Fin 10)) (PNumber (Fin 10)) (PNumber (Fin 5)) (nr_draws r)) in
  after w = repeat (Some "neutral"%string) 3 /\ after seen = repeat (Some "infected"%string) 3.
Proof. split; vm_compute; reflexivity. Qed.
End Cases.
