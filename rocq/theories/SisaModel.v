(** Model of the state functions of soil/agents/SISaModel.py:70-110, as code for the state
    machines of FsmModel. *)
From Coq Require Import ZArith List Bool Arith String.
From Verif Require Import Num PyDict TimedModel AgentModel FsmModel.
Import ListNotations.
Local Open Scope string_scope.

(** The state functions, and the function of [dead] (soil/agents/fsm.py:173-175). *)
Inductive sfun := Neutral | Discontent | Content | DeadFn.

(** soil/agents/SISaModel.py:70-72, 88-89 and 100-101: the decorated states. *)
Definition neutral : state sfun := State Neutral "neutral" true.
Definition discontent : state sfun := State Discontent "discontent" false.
Definition content : state sfun := State Content "content" false.
Definition sisa_class : cls (option (state sfun)) :=
  Cls 1 [fsm_class DeadFn] [None; Some neutral; Some discontent; Some content].

(** The probabilities of one agent, soil/agents/SISaModel.py:43-68. *)
Record rates := Rates {
  neutral_discontent_spon : num; neutral_discontent_infected : num;
  neutral_content_spon : num; neutral_content_infected : num;
  discontent_neutral : num; discontent_content : num;
  content_discontent : num; content_neutral : num }.

(** The rest of the world: the rates of the agents, their neighbours in the network and
    the draws of the random generator to come. *)
Record srest := SRest {
  sr_rates : aid -> rates;
  sr_nbrs : aid -> list aid;
  sr_draws : nat -> num }.
Definition next_draw (r : srest) : num * srest :=
  (sr_draws r 0, SRest (sr_rates r) (sr_nbrs r) (fun n => sr_draws r (S n))).

Section Sisa.
(** [count * probability]. *)
Variable times : nat -> num -> num.

Definition sworld := fworld sfun srest.

(** soil/agents/network_agents.py:26-27 [count_neighbors(state_id=v)] together with
    soil/agents/__init__.py:462-473: how many neighbours have a [state_id] in [(v,)].  A
    state_id is a string (soil/agents/fsm.py:133-135), and a string is not equal to a
    state. *)
Definition is_in (id : option string) (v : pyval sfun) : bool :=
  match v, id with
  | PStr s, Some n => String.eqb n s
  | PNone, None => true
  | _, _ => false
  end.
Definition count_neighbors (w : sworld) (a : aid) (v : pyval sfun) : nat :=
  List.length (filter (fun b => is_in (option_map st_name (fa_cur (fw_agents w b))) v)
                 (sr_nbrs (fw_rest w) a)).

(** [self.prob(p)]: draws a number. *)
Definition roll (p : num) (r : srest) : bool * srest :=
  let '(d, r') := next_draw r in (prob d p, r').

(** soil/agents/SISaModel.py:70-86. *)
Definition neutral_fn (w : sworld) (a : aid) : srest * pyval sfun :=
  let R := sr_rates (fw_rest w) a in
  let '(b1, r1) := roll (neutral_discontent_spon R) (fw_rest w) in
  if b1 then (r1, PState discontent) else
  let '(b2, r2) := roll (neutral_content_spon R) r1 in
  if b2 then (r2, PState content) else
  let discontent_neighbors := count_neighbors w a (PState discontent) in
  let '(b3, r3) := roll (times discontent_neighbors (neutral_discontent_infected R)) r2 in
  if b3 then (r3, PState discontent) else
  let content_neighbors := count_neighbors w a (PStr (st_name content)) in
  let '(b4, r4) := roll (times content_neighbors (neutral_content_infected R)) r3 in
  if b4 then (r4, PState content) else (r4, PState neutral).

(** soil/agents/SISaModel.py:88-98. *)
Definition discontent_fn (w : sworld) (a : aid) : srest * pyval sfun :=
  let R := sr_rates (fw_rest w) a in
  let '(b1, r1) := roll (discontent_neutral R) (fw_rest w) in
  if b1 then (r1, PState neutral) else
  let content_neighbors := count_neighbors w a (PStr (st_name content)) in
  let '(b2, r2) := roll (times content_neighbors (discontent_content R)) r1 in
  if b2 then (r2, PState content) else (r2, PState discontent).

(** soil/agents/SISaModel.py:100-110.  Line 109 is an expression statement: its value is
    not returned. *)
Definition content_fn (w : sworld) (a : aid) : srest * pyval sfun :=
  let R := sr_rates (fw_rest w) a in
  let '(b1, r1) := roll (content_neutral R) (fw_rest w) in
  if b1 then (r1, PState neutral) else
  let discontent_neighbors := count_neighbors w a (PStr (st_name discontent)) in
  let '(_, r2) := roll (times discontent_neighbors (content_discontent R)) r1 in
  (r2, PState content).

(** The code of the agents; none of the functions is a generator. *)
Definition sisa_code : code sfun sfun srest :=
  Code (fun f => f)
    (fun _ a f w =>
       let '(r, v) := match f with
                      | Neutral => neutral_fn w a
                      | Discontent => discontent_fn w a
                      | Content => content_fn w a
                      | DeadFn => (fw_rest w, PNum PInf)
                      end in
       (r, [], GReturn v)).
End Sisa.

(** The parameters of the model that the probabilities are drawn around, and the deviations. *)
Record params := Params {
  p_rates : rates; standard_variance : num; variance_d_c : num; variance_c_d : num }.

Section Init.
(** Generators of numpy, [default_rng(seed)] for a given seed (texts are made numbers first,
    lines 37-40), and [normal(mean, deviation)]. *)
Context {S G : Type}.
Variable default_rng : S -> G.
Variable normal : G -> num -> num -> num * G.

(** soil/agents/SISaModel.py:43-68, one draw after the other. *)
Definition draw_rates (g : G) (p : params) : rates :=
  let R := p_rates p in
  let '(nds, g) := normal g (neutral_discontent_spon R) (standard_variance p) in
  let '(ndi, g) := normal g (neutral_discontent_infected R) (standard_variance p) in
  let '(ncs, g) := normal g (neutral_content_spon R) (standard_variance p) in
  let '(nci, g) := normal g (neutral_content_infected R) (standard_variance p) in
  let '(dn, g) := normal g (discontent_neutral R) (standard_variance p) in
  let '(dc, g) := normal g (discontent_content R) (variance_d_c p) in
  let '(cd, g) := normal g (content_discontent R) (variance_c_d p) in
  let '(cn, _) := normal g (discontent_neutral R) (standard_variance p) in
  Rates nds ndi ncs nci dn dc cd cn.
(** soil/agents/SISaModel.py:33-68.  [seed] is that of the model; without it the generator is
    a [fresh] one. *)
Definition sisa_init (seed : option S) (fresh : G) (p : params) : rates :=
  draw_rates (match seed with Some s => default_rng s | None => fresh end) p.
End Init.
