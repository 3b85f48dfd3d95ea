(** Proofs about SisaModel. *)
From Coq Require Import ZArith List Bool Arith String.
From Verif Require Import Num PyDict TimedModel AgentModel AgentProofs FsmModel FsmSpec
  FsmProofs SisaModel SisaSpec.
Import ListNotations.

Section Sisa.
Variable times : nat -> num -> num.
Variable fs : string -> option num.
Notation step := (agent_step (sisa_code times) fs).

(** One activation of an agent in state [st]: it moves to the state returned by the
    function. *)
Lemma sisa_step s a wc states st r v st' :
  fa_kind (fw_agents (fst wc) a) = KFsm states -> fa_alive (fw_agents (fst wc) a) = true ->
  fa_cur (fw_agents (fst wc) a) = Some st -> get_co (snd wc) a = None ->
  c_resume (sisa_code times) s a (st_fun st) (fst wc) = (r, [], GReturn v) -> v = PState st' ->
  let '(w', _, _, o) := step s a wc in fa_cur (fw_agents w' a) = Some st' /\ o = Ret None.
Proof.
  intros K A C G R ->.
  pose proof (state_moves (sisa_code times) fs s a wc (st_fun st) r [] (PState st') states
    (Some st') None K) as M.
  destruct (step s a wc) as [[[w' c'] l] o].
  destruct M as (M1 & M2 & _); auto.
  - left. repeat split; auto. exists st. auto.
  - constructor; [constructor|discriminate].
Qed.

Lemma content_stays_or_heals s a wc states :
  fa_kind (fw_agents (fst wc) a) = KFsm states -> fa_alive (fw_agents (fst wc) a) = true ->
  fa_cur (fw_agents (fst wc) a) = Some content -> get_co (snd wc) a = None ->
  let '(w', _, _, o) := step s a wc in
  fa_cur (fw_agents w' a) = Some
    (if prob (sr_draws (fw_rest (fst wc)) 0) (content_neutral (sr_rates (fw_rest (fst wc)) a))
     then neutral else content).
Proof.
  intros K A C G.
  assert (X : exists r, c_resume (sisa_code times) s a (st_fun content) (fst wc)
     = (r, [], GReturn (PState (if prob (sr_draws (fw_rest (fst wc)) 0)
          (content_neutral (sr_rates (fw_rest (fst wc)) a)) then neutral else content)))).
  { cbn. destruct (prob _ _); eexists; reflexivity. }
  destruct X as (r & R).
  pose proof (sisa_step s a wc states content r _ _ K A C G R eq_refl) as M.
  destruct (step s a wc) as [[[w' c'] l] o]. now destruct M.
Qed.

Lemma no_discontent_neighbours (w : sworld) a : count_neighbors w a (PState discontent) = 0.
Proof.
  unfold count_neighbors. induction (sr_nbrs (fw_rest w) a) as [|b l IH]; auto.
Qed.

Lemma prob_zero d p : (forall q, times 0 q = Fin 0) -> n_leb (Fin 0) d = true ->
  prob d (times 0 p) = false.
Proof. intros T D. rewrite T. now apply prob_low. Qed.

(** A neutral agent that does not become discontent or content spontaneously. *)
Lemma neutral_not_infected s a wc states :
  (forall q, times 0 q = Fin 0) -> (forall n, n_leb (Fin 0) (sr_draws (fw_rest (fst wc)) n) = true) ->
  fa_kind (fw_agents (fst wc) a) = KFsm states -> fa_alive (fw_agents (fst wc) a) = true ->
  fa_cur (fw_agents (fst wc) a) = Some neutral -> get_co (snd wc) a = None ->
  prob (sr_draws (fw_rest (fst wc)) 0)
       (neutral_discontent_spon (sr_rates (fw_rest (fst wc)) a)) = false ->
  let '(w', _, _, o) := step s a wc in fa_cur (fw_agents w' a) <> Some discontent.
Proof.
  intros T D K A C G P.
  assert (X : exists r st, c_resume (sisa_code times) s a (st_fun neutral) (fst wc)
                = (r, [], GReturn (PState st)) /\ st <> discontent).
  { cbn [sisa_code c_resume st_fun neutral]. unfold neutral_fn, roll, next_draw.
    cbn [sr_draws sr_rates]. rewrite P. rewrite no_discontent_neighbours.
    rewrite (prob_zero _ _ T (D 2)).
    destruct (prob (sr_draws _ 1) _); [do 2 eexists; split; [reflexivity|discriminate]|].
    destruct (prob (sr_draws _ 3) _); do 2 eexists; split; try reflexivity; discriminate. }
  destruct X as (r & st & R & N).
  pose proof (sisa_step s a wc states neutral r (PState st) st K A C G R eq_refl) as M.
  destruct (step s a wc) as [[[w' c'] l] o]. destruct M as [-> _]. congruence.
Qed.

Lemma count_is w a n : count_neighbors w a (PStr n) = number_in n w (sr_nbrs (fw_rest w) a).
Proof.
  unfold count_neighbors. induction (sr_nbrs (fw_rest w) a) as [|b l IH]; cbn [filter number_in]; auto.
  rewrite <- IH.
  destruct (fa_cur (fw_agents w b)) as [st|]; cbn [option_map is_in]; [|reflexivity].
  destruct (string_dec (st_name st) n) as [->|N].
  - rewrite String.eqb_refl. reflexivity.
  - destruct (String.eqb_spec (st_name st) n); [contradiction|reflexivity].
Qed.

Lemma discontent_moves s a wc states :
  fa_kind (fw_agents (fst wc) a) = KFsm states -> fa_alive (fw_agents (fst wc) a) = true ->
  fa_cur (fw_agents (fst wc) a) = Some discontent -> get_co (snd wc) a = None ->
  let w := fst wc in let R := sr_rates (fw_rest w) a in
  let '(w', _, _, o) := step s a wc in
  o = Ret None /\ fa_cur (fw_agents w' a) = Some
    (decide (sr_draws (fw_rest w)) 0
       [(discontent_neutral R, neutral);
        (times (number_in "content" w (sr_nbrs (fw_rest w) a)) (discontent_content R), content)]
       discontent).
Proof.
  intros K A C G w R.
  set (st' := decide _ _ _ _).
  assert (X : exists r, c_resume (sisa_code times) s a (st_fun discontent) (fst wc)
     = (r, [], GReturn (PState st'))).
  { subst st'. cbn [sisa_code c_resume st_fun discontent]. unfold discontent_fn, roll, next_draw.
    cbn [sr_draws sr_rates decide st_name content]. fold w. fold R. rewrite count_is. unfold prob.
    destruct (n_ltb (sr_draws (fw_rest w) 0) _); [eexists; reflexivity|].
    destruct (n_ltb (sr_draws (fw_rest w) 1) _); eexists; reflexivity. }
  destruct X as (r & E).
  pose proof (sisa_step s a wc states discontent r _ _ K A C G E eq_refl) as M.
  destruct (step s a wc) as [[[w' c'] l] o]. now destruct M.
Qed.

Lemma neutral_moves s a wc states :
  fa_kind (fw_agents (fst wc) a) = KFsm states -> fa_alive (fw_agents (fst wc) a) = true ->
  fa_cur (fw_agents (fst wc) a) = Some neutral -> get_co (snd wc) a = None ->
  let w := fst wc in let R := sr_rates (fw_rest w) a in
  let '(w', _, _, o) := step s a wc in
  o = Ret None /\ fa_cur (fw_agents w' a) = Some
    (decide (sr_draws (fw_rest w)) 0
       [(neutral_discontent_spon R, discontent); (neutral_content_spon R, content);
        (times 0 (neutral_discontent_infected R), discontent);
        (times (number_in "content" w (sr_nbrs (fw_rest w) a)) (neutral_content_infected R), content)]
       neutral).
Proof.
  intros K A C G w R.
  set (st' := decide _ _ _ _).
  assert (X : exists r, c_resume (sisa_code times) s a (st_fun neutral) (fst wc)
     = (r, [], GReturn (PState st'))).
  { subst st'. cbn [sisa_code c_resume st_fun neutral]. unfold neutral_fn, roll, next_draw.
    cbn [sr_draws sr_rates decide st_name content]. fold w. fold R.
    rewrite no_discontent_neighbours, count_is. unfold prob.
    destruct (n_ltb (sr_draws (fw_rest w) 0) _); [eexists; reflexivity|].
    destruct (n_ltb (sr_draws (fw_rest w) 1) _); [eexists; reflexivity|].
    destruct (n_ltb (sr_draws (fw_rest w) 2) _); [eexists; reflexivity|].
    destruct (n_ltb (sr_draws (fw_rest w) 3) _); eexists; reflexivity. }
  destruct X as (r & E).
  pose proof (sisa_step s a wc states neutral r _ _ K A C G E eq_refl) as M.
  destruct (step s a wc) as [[[w' c'] l] o]. now destruct M.
Qed.
End Sisa.

Section Rates.
Context {S G : Type} (default_rng : S -> G) (normal : G -> num -> num -> num * G).

Lemma exact_deviations seed fresh p :
  (forall g m, fst (normal g m (Fin 0)) = m) ->
  let R := sisa_init default_rng normal seed fresh p in
  (variance_d_c p = Fin 0 -> discontent_content R = discontent_content (p_rates p)) /\
  (variance_c_d p = Fin 0 -> content_discontent R = content_discontent (p_rates p)) /\
  (standard_variance p = Fin 0 ->
     Forall (fun f => f R = f (p_rates p))
       [neutral_discontent_spon; neutral_discontent_infected; neutral_content_spon;
        neutral_content_infected; discontent_neutral]).
Proof.
  intros N. unfold sisa_init. generalize (match seed with Some s => default_rng s | None => fresh end).
  intros g. destruct p as [R v1 v2 v3]. unfold draw_rates. cbn [p_rates standard_variance variance_d_c variance_c_d].
  repeat match goal with |- context [normal ?g ?m ?v] =>
    let E := fresh "E" in let x := fresh "x" in let g' := fresh "g" in
    destruct (normal g m v) as [x g'] eqn:E; apply (f_equal fst) in E; cbn [fst] in E end.
  cbn. repeat split; intros; subst; rewrite ?N in *; auto.
  repeat (apply Forall_cons; [cbn; congruence|]); apply Forall_nil.
Qed.
Lemma exact_rates seed fresh p :
  (forall g m, fst (normal g m (Fin 0)) = m) ->
  standard_variance p = Fin 0 -> variance_d_c p = Fin 0 -> variance_c_d p = Fin 0 ->
  let R := sisa_init default_rng normal seed fresh p in
  Forall (fun f => f R = f (p_rates p))
    [neutral_discontent_spon; neutral_discontent_infected; neutral_content_spon;
     neutral_content_infected; discontent_neutral; discontent_content; content_discontent] /\
  content_neutral R = discontent_neutral (p_rates p).
Proof.
  intros N V1 V2 V3. unfold sisa_init. generalize (match seed with Some s => default_rng s | None => fresh end).
  intros g. destruct p as [R v1 v2 v3]. cbn in V1, V2, V3. subst. unfold draw_rates. cbn [p_rates standard_variance variance_d_c variance_c_d].
  repeat match goal with |- context [normal ?g ?m ?v] =>
    let E := fresh "E" in let x := fresh "x" in let g' := fresh "g" in
    destruct (normal g m v) as [x g'] eqn:E; apply (f_equal fst) in E; cbn [fst] in E; rewrite N in E end.
  cbn. split; [|congruence]. repeat (apply Forall_cons; [cbn; congruence|]); apply Forall_nil.
Qed.
Lemma first_rate fresh p :
  neutral_discontent_spon (sisa_init default_rng normal None fresh p) =
  fst (normal fresh (neutral_discontent_spon (p_rates p)) (standard_variance p)).
Proof.
  unfold sisa_init, draw_rates.
  repeat match goal with |- context [normal ?g ?m ?v] => destruct (normal g m v) end. reflexivity.
Qed.
End Rates.
