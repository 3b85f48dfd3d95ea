(** C62, C66 and C116 to C118: the SISa model. *)
From Coq Require Import ZArith List Bool Arith String.
From Verif Require Import Num PyDict TimedModel AgentModel FsmModel FsmSpec SisaModel SisaSpec SisaProofs.
Import ListNotations.

(** C62 is false: whatever the draws, the rates and the neighbours, a content agent is
    neutral or content after its activation. *)
Theorem C62_content_never_becomes_discontent_refuted :
  forall times fs s a wc states,
  fa_kind (fw_agents (fst wc) a) = KFsm states -> fa_alive (fw_agents (fst wc) a) = true ->
  fa_cur (fw_agents (fst wc) a) = Some content -> get_co (snd wc) a = None ->
  let '(w', _, _, o) := agent_step (sisa_code times) fs s a wc in
  fa_cur (fw_agents w' a) = Some
    (if prob (sr_draws (fw_rest (fst wc)) 0) (content_neutral (sr_rates (fw_rest (fst wc)) a))
     then neutral else content).
Proof. exact content_stays_or_heals. Qed.
Print Assumptions C62_content_never_becomes_discontent_refuted.

(** C66 is false: discontent neighbours do not count, so a neutral agent only becomes
    discontent spontaneously.  [times 0 q] is zero (rates are finite). *)
Theorem C66_discontent_neighbours_do_not_infect_refuted :
  forall times fs s a wc states,
  (forall q, times 0 q = Fin 0) -> (forall n, n_leb (Fin 0) (sr_draws (fw_rest (fst wc)) n) = true) ->
  fa_kind (fw_agents (fst wc) a) = KFsm states -> fa_alive (fw_agents (fst wc) a) = true ->
  fa_cur (fw_agents (fst wc) a) = Some neutral -> get_co (snd wc) a = None ->
  prob (sr_draws (fw_rest (fst wc)) 0)
       (neutral_discontent_spon (sr_rates (fw_rest (fst wc)) a)) = false ->
  let '(w', _, _, o) := agent_step (sisa_code times) fs s a wc in
  fa_cur (fw_agents w' a) <> Some discontent.
Proof. exact neutral_not_infected. Qed.
Print Assumptions C66_discontent_neighbours_do_not_infect_refuted.

(** Agent 0 has two discontent neighbours and, in the terms of C62 and C66, should become
    discontent for sure: the rates are 1 and all draws are 0 (in tenths: 10 and 0). *)
Definition sure : rates :=
  Rates (Fin 0) (Fin 10) (Fin 0) (Fin 10) (Fin 0) (Fin 10) (Fin 10) (Fin 0).
Definition crowd (st : state sfun) : fworld sfun srest * cors (frame sfun) :=
  (FWorld (fun b => FAgent (KFsm (fst (meta sisa_class))) true
                      (Some (if Nat.eqb b 0 then st else discontent)))
     (SRest (fun _ => sure) (fun _ => [1; 2]) (fun _ => Fin 0)), no_cors).
Definition by_count (n : nat) (p : num) : num :=
  match p with Fin z => Fin (Z.of_nat n * z) | _ => Fin 0 end.

Example C62_not_vacuous :
  let s := timed_init false (Fin 1) in
  fsm_init sisa_class PNone = Some (Some neutral) /\
  fa_cur (fw_agents (fst (fst (fst (agent_step (sisa_code by_count) (fun _ => None) s 0 (crowd content))))) 0)
    = Some content /\
  fa_cur (fw_agents (fst (fst (fst (agent_step (sisa_code by_count) (fun _ => None) s 0 (crowd neutral))))) 0)
    = Some neutral /\
  fa_cur (fw_agents (fst (fst (fst (agent_step (sisa_code by_count) (fun _ => None) s 1 (crowd content))))) 1)
    = Some discontent.
Proof. repeat split. Qed.

Example C66_not_vacuous :
  let wc := crowd neutral in
  (forall q, by_count 0 q = Fin 0) /\
  (forall n, n_leb (Fin 0) (sr_draws (fw_rest (fst wc)) n) = true) /\
  fa_cur (fw_agents (fst wc) 0) = Some neutral /\ get_co (snd wc) 0 = None /\
  prob (sr_draws (fw_rest (fst wc)) 0)
    (neutral_discontent_spon (sr_rates (fw_rest (fst wc)) 0)) = false.
Proof. repeat split. intros []; reflexivity. Qed.

(** C66, what holds instead, for neutral agents: whatever the rates, draws and neighbours, these
    are tried in order; content neighbours count, discontent ones do not. *)
Theorem C66_neutral_agents_partial :
  forall times fs s a wc states,
  fa_kind (fw_agents (fst wc) a) = KFsm states -> fa_alive (fw_agents (fst wc) a) = true ->
  fa_cur (fw_agents (fst wc) a) = Some neutral -> get_co (snd wc) a = None ->
  let w := fst wc in let R := sr_rates (fw_rest w) a in
  let '(w', _, _, o) := agent_step (sisa_code times) fs s a wc in
  o = Ret None /\ fa_cur (fw_agents w' a) = Some
    (decide (sr_draws (fw_rest w)) 0
       [(neutral_discontent_spon R, discontent); (neutral_content_spon R, content);
        (times 0 (neutral_discontent_infected R), discontent);
        (times (number_in "content" w (sr_nbrs (fw_rest w) a)) (neutral_content_infected R), content)]
       neutral).
Proof. exact neutral_moves. Qed.
Print Assumptions C66_neutral_agents_partial.

(** C116.  Agents start neutral; a discontent agent becomes neutral with the probability of
    healing, otherwise content with a probability proportional to the number of content
    neighbours, and otherwise stays discontent. *)
Theorem C116_discontent_agents :
  forall times fs s a wc states,
  fa_kind (fw_agents (fst wc) a) = KFsm states -> fa_alive (fw_agents (fst wc) a) = true ->
  fa_cur (fw_agents (fst wc) a) = Some discontent -> get_co (snd wc) a = None ->
  let w := fst wc in let R := sr_rates (fw_rest w) a in
  let '(w', _, _, o) := agent_step (sisa_code times) fs s a wc in
  o = Ret None /\ fa_cur (fw_agents w' a) = Some
    (decide (sr_draws (fw_rest w)) 0
       [(discontent_neutral R, neutral);
        (times (number_in "content" w (sr_nbrs (fw_rest w) a)) (discontent_content R), content)]
       discontent).
Proof. exact discontent_moves. Qed.
Print Assumptions C116_discontent_agents.
Theorem C116_agents_start_neutral :
  fsm_init sisa_class PNone = Some (Some (State Neutral "neutral" true)) /\
  dkeys (fst (meta sisa_class)) = ["dead"; "neutral"; "discontent"; "content"]%string.
Proof. split; reflexivity. Qed.
Print Assumptions C116_agents_start_neutral.

(** Agent 0 is discontent, one of its neighbours is content; the second draw is below the bound. *)
Definition half : rates :=
  Rates (Fin 1) (Fin 2) (Fin 3) (Fin 4) (Fin 5) (Fin 6) (Fin 7) (Fin 8).
Definition street : fworld sfun srest * cors (frame sfun) :=
  (FWorld (fun b => FAgent (KFsm (fst (meta sisa_class))) true
                      (Some (match b with 0 => discontent | 1 => content | _ => neutral end)))
     (SRest (fun _ => half) (fun _ => [1; 2]) (fun n => Fin 5)), no_cors).
Example C116_not_vacuous :
  number_in "content" (fst street) [1; 2] = 1 /\
  fa_cur (fw_agents (fst (fst (fst (agent_step (sisa_code by_count) (fun _ => None) (timed_init false (Fin 1)) 0 street)))) 0)
    = Some content.
Proof. split; reflexivity. Qed.

(** C117 is false: the probability of healing of content agents is drawn around the parameter
    for discontent ones; the parameter [content_neutral] has no effect at all. *)
Theorem C117_content_neutral_is_ignored_refuted :
  forall S G (default_rng : S -> G) normal seed fresh (R : rates) v1 v2 v3 x,
  sisa_init default_rng normal seed fresh
    (Params (Rates (neutral_discontent_spon R) (neutral_discontent_infected R)
       (neutral_content_spon R) (neutral_content_infected R) (discontent_neutral R)
       (discontent_content R) (content_discontent R) x) v1 v2 v3) =
  sisa_init default_rng normal seed fresh (Params R v1 v2 v3).
Proof. reflexivity. Qed.
Print Assumptions C117_content_neutral_is_ignored_refuted.
(** C117 for the others: without deviations they are the parameters. *)
Theorem C117_rates_partial :
  forall S G (default_rng : S -> G) normal seed fresh p,
  (forall g m, fst (normal g m (Fin 0)) = m) ->
  standard_variance p = Fin 0 -> variance_d_c p = Fin 0 -> variance_c_d p = Fin 0 ->
  let R := sisa_init default_rng normal seed fresh p in
  Forall (fun f => f R = f (p_rates p))
    [neutral_discontent_spon; neutral_discontent_infected; neutral_content_spon;
     neutral_content_infected; discontent_neutral; discontent_content; content_discontent] /\
  content_neutral R = discontent_neutral (p_rates p).
Proof. intros S G rng normal seed fresh p N V1 V2 V3 R. subst R. now apply exact_rates. Qed.
Print Assumptions C117_rates_partial.
(** C117: which deviation is used for which: a probability only varies with its own. *)
Theorem C117_deviations_partial :
  forall S G (default_rng : S -> G) normal seed fresh p,
  (forall g m, fst (normal g m (Fin 0)) = m) ->
  let R := sisa_init default_rng normal seed fresh p in
  (variance_d_c p = Fin 0 -> discontent_content R = discontent_content (p_rates p)) /\
  (variance_c_d p = Fin 0 -> content_discontent R = content_discontent (p_rates p)) /\
  (standard_variance p = Fin 0 ->
     Forall (fun f => f R = f (p_rates p))
       [neutral_discontent_spon; neutral_discontent_infected; neutral_content_spon;
        neutral_content_infected; discontent_neutral]).
Proof. intros S G rng normal seed fresh p N R. subst R. now apply exact_deviations. Qed.
Print Assumptions C117_deviations_partial.

(** C118 is false: the generator of each agent starts from the seed of the model, so that all
    agents of a model get the same probabilities. *)
Theorem C118_all_agents_alike_refuted :
  forall S G (default_rng : S -> G) normal seed fresh1 fresh2 p,
  sisa_init default_rng normal (Some seed) fresh1 p = sisa_init default_rng normal (Some seed) fresh2 p.
Proof. reflexivity. Qed.
Print Assumptions C118_all_agents_alike_refuted.
(** C118, what holds instead: without a seed the probabilities depend on the generator of the
    agent. *)
Theorem C118_without_seed_partial :
  forall S G (default_rng : S -> G) normal fresh p,
  neutral_discontent_spon (sisa_init default_rng normal None fresh p) =
  fst (normal fresh (neutral_discontent_spon (p_rates p)) (standard_variance p)).
Proof. exact @first_rate. Qed.
Print Assumptions C118_without_seed_partial.

(** A generator that adds a multiple of the deviation. *)
Definition drift (g : Z) (m dev : num) : num * Z :=
  (match m, dev with Fin a, Fin b => Fin (a + g * b) | _, _ => m end, g + 1)%Z.
Example C117_not_vacuous :
  let R := half in
  (forall g m, fst (drift g m (Fin 0)) = m) /\
  sisa_init (fun s => s) drift (Some 1%Z) 9%Z (Params R (Fin 100) (Fin 1000) (Fin 0)) =
  Rates (Fin 101) (Fin 202) (Fin 303) (Fin 404) (Fin 505) (Fin 6006) (Fin 7) (Fin 805).
Proof. split; [|reflexivity]. intros g [z| | |]; cbn; auto. now rewrite Z.mul_0_r, Z.add_0_r. Qed.
Example C118_not_vacuous :
  let p := Params half (Fin 100) (Fin 1000) (Fin 0) in
  sisa_init (fun s => s) drift None 1%Z p <> sisa_init (fun s : Z => s) drift None 2%Z p.
Proof. discriminate. Qed.
