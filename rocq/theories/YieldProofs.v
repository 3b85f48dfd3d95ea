(** State machines whose state functions may be generators: what one activation does. *)
From Coq Require Import ZArith List Bool Arith String Lia.
From Verif Require Import Num PyDict TimedModel AgentModel AgentProofs FsmModel FsmSpec FsmProofs PlainProofs.
Import ListNotations.

Section Yield.
Context {F Q W : Type}.
Variable u : code F Q W.
Variable fs : string -> option num.

(** The point from which the agent goes on. *)
Definition resumes (w : fworld F W) (c : cors (frame Q)) (a : aid) (q : Q) : Prop :=
  get_co c a = Some (GSusp (FIn q)) \/
  exists st, get_co c a = None /\ fa_alive (fw_agents w a) = true /\ fa_cur (fw_agents w a) = Some st /\ q = c_start u (st_fun st).

(** Nothing but the coroutine of the agent itself. *)
Definition co_after (c c' : cors (frame Q)) (a : aid) (g : option (gobj (frame Q))) : Prop :=
  get_co c' a = g /\ forall b, b <> a -> get_co c' b = get_co c b.

Lemma yield_step s a w c w' c' l o states :
  (forall q r ops g, resumes w c a q -> c_resume u s a q w = (r, ops, g) -> match g with GReturn v => plain_value v | _ => True end) ->
  get_co c a <> Some (GSusp FStart) ->
  fa_kind (fw_agents w a) = KFsm states -> agent_step u fs s a (w, c) = (w', c', l, o) ->
  (w' = w /\ l = [] /\
   ((get_co c a = Some GDone /\ co_after c c' a None /\ o = Ret None) \/
    (get_co c a = None /\ co_after c c' a (Some GDone) /\
     (fa_alive (fw_agents w a) = false /\ o = Dead \/
      fa_alive (fw_agents w a) = true /\ fa_cur (fw_agents w a) = None /\ o = Exc)))) \/
  exists q r ops g w1, resumes w c a q /\ c_resume u s a q w = (r, ops, g) /\
    run_fops s ops (FWorld (fw_agents w) r) = (w1, l) /\
    match g with
    | GYield v q' => w' = w1 /\ co_after c c' a (Some (GSusp (FIn q'))) /\
                     o = as_delay is_none (to_float fs) v
    | GRaise d => w' = w1 /\ co_after c c' a (Some GDone) /\ o = (if d then Dead else Exc)
    | GReturn v => co_after c c' a None /\ plain_value v /\ o = ends_in v /\ fw_rest w' = fw_rest w1 /\
        (forall b, b <> a -> fw_agents w' b = fw_agents w1 b) /\
        fw_agents w' a = set_cur (fw_agents w1 a) (goes_to v (fa_cur (fw_agents w1 a)))
    end.
Proof.
  intros P NS K E. unfold agent_step, decorated in E. cbn [fst snd] in E.
  assert (CA : forall x y z, co_after c (set_co (set_co c a x) a y) a y /\ co_after c (set_co (set_co (set_co c a x) a y) a z) a z).
  { intros x y z. unfold co_after. split; (split; [rewrite !get_set_co, Nat.eqb_refl; auto|]);
      intros b NB; rewrite !get_set_co; apply Nat.eqb_neq in NB; now rewrite NB. }
  assert (I : forall q g, resumes w c a q -> inside u s a q w = g ->
    exists r ops g0 w1, c_resume u s a q w = (r, ops, g0) /\ run_fops s ops (FWorld (fw_agents w) r) = (w1, snd (fst g)) /\
    match g0 with
    | GYield v q' => g = (w1, snd (fst g), GYield v (FIn q'))
    | GRaise d => g = (w1, snd (fst g), GRaise d)
    | GReturn v => plain_value v /\ exists w2 v', g = (w2, snd (fst g), GReturn v') /\ as_delay is_none (to_float fs) v' = ends_in v /\
        fw_rest w2 = fw_rest w1 /\ (forall b, b <> a -> fw_agents w2 b = fw_agents w1 b) /\
        fw_agents w2 a = set_cur (fw_agents w1 a) (goes_to v (fa_cur (fw_agents w1 a)))
    end).
  { intros q g RS <-. unfold inside. destruct (c_resume u s a q w) as [[r ops] g0] eqn:CR.
    destruct (run_fops s ops (FWorld (fw_agents w) r)) as [w1 l1] eqn:RF.
    exists r, ops, g0, w1. split; [reflexivity|]. pose proof (P _ _ _ _ RS CR) as PV. destruct g0 as [v q'|v|d].
    - split; [exact RF|reflexivity].
    - pose proof (run_fops_le s ops _ _ _ RF a) as [K1 _]. simpl in K1. rewrite K1, K.
      assert (ID : forall x : fagent F, set_cur x (fa_cur x) = x) by (now intros []).
      unfold finish. inversion PV; subst; cbn; rewrite RF; (split; [reflexivity|]); (split; [constructor|]);
        eexists _, _; (split; [reflexivity|]); (split; [reflexivity|]); cbn;
        rewrite ?Nat.eqb_refl; (split; [reflexivity|]); (split; [|rewrite ?ID; reflexivity]);
        intros b NB; auto; apply Nat.eqb_neq in NB; now rewrite NB.
    - split; [exact RF|reflexivity]. }
  assert (FIN : forall q, resumes w c a q ->
    (let '(w1, ops, g', r) := match inside u s a q w with
        | (w', ops, GYield v q') => (w', ops, GSusp q', SYield v)
        | (w', ops, GReturn v) => (w', ops, GDone, SStop v)
        | (w', ops, GRaise d) => (w', ops, GDone, SRaise d) end in
     exists x, match r with
     | SYield v => (w1, set_co (set_co c a x) a (Some g'), ops, as_delay is_none (to_float fs) v)
     | SStop v => (w1, set_co (set_co (set_co c a x) a (Some g')) a None, ops, as_delay is_none (to_float fs) v)
     | SRaise true => (w1, set_co (set_co c a x) a (Some g'), ops, Dead)
     | SRaise false => (w1, set_co (set_co c a x) a (Some g'), ops, Exc)
     end = (w', c', l, o)) ->
    exists q r ops g w1, resumes w c a q /\ c_resume u s a q w = (r, ops, g) /\
    run_fops s ops (FWorld (fw_agents w) r) = (w1, l) /\
    match g with
    | GYield v q' => w' = w1 /\ co_after c c' a (Some (GSusp (FIn q'))) /\ o = as_delay is_none (to_float fs) v
    | GRaise d => w' = w1 /\ co_after c c' a (Some GDone) /\ o = (if d then Dead else Exc)
    | GReturn v => co_after c c' a None /\ plain_value v /\ o = ends_in v /\ fw_rest w' = fw_rest w1 /\
        (forall b, b <> a -> fw_agents w' b = fw_agents w1 b) /\
        fw_agents w' a = set_cur (fw_agents w1 a) (goes_to v (fa_cur (fw_agents w1 a)))
    end).
  { intros q R X. destruct (I q _ R eq_refl) as (r & ops & g0 & w1 & CR & RF & H).
    exists q, r, ops, g0, w1. split; [exact R|]. split; [exact CR|].
    destruct (inside u s a q w) as [[wi li] gi] eqn:EI. cbn [fst snd] in *. destruct g0 as [v q'|v|d].
    - injection H as -> ->. destruct X as [x X]. injection X as <- <- <- <-. split; [exact RF|]. split; auto. split; [apply (CA x _ None)|reflexivity].
    - destruct H as (PV & w2 & v' & H & EV & H2 & H3 & H4). injection H as -> ->. destruct X as [x X]. injection X as <- <- <- <-.
      split; [exact RF|]. split; [apply (CA x)|]. auto 8.
    - injection H as -> ->. destruct X as [x X]. destruct d; injection X as <- <- <- <-; (split; [exact RF|]); (split; auto); (split; [apply (CA x _ None)|reflexivity]). }
  destruct (get_co c a) as [[[|q]|]|] eqn:G; cbn [send step_gen] in E.
  - destruct (NS eq_refl).
  - right. apply (FIN q); [left; exact G|]. destruct (inside u s a q w) as [[wi li] [v q'|v|d]]; (eexists; exact E).
  - left. injection E as <- <- <- <-. split; [reflexivity|]. split; [reflexivity|]. left. split; [reflexivity|]. split; [apply CA|reflexivity].
  - rewrite K in E. destruct (fa_alive (fw_agents w a)) eqn:A; cbn [negb] in E.
    2:{ left. injection E as <- <- <- <-. split; [reflexivity|]. split; [reflexivity|]. right. split; [reflexivity|]. split; [apply (CA _ _ None)|]. left. auto. }
    destruct (fa_cur (fw_agents w a)) as [st|] eqn:C.
    2:{ left. injection E as <- <- <- <-. split; [reflexivity|]. split; [reflexivity|]. right. split; [reflexivity|]. split; [apply (CA _ _ None)|]. right. auto. }
    right. apply (FIN (c_start u (st_fun st))); [right; eauto 8|].
    destruct (inside u s a (c_start u (st_fun st)) w) as [[wi li] [v q'|v|d]]; (eexists; exact E).
Qed.
End Yield.
