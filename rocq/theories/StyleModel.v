(** Model of the four agents of tests/test_agents.py:181-375, which do the same in different ways, for any list of states and waits: a chain of
    states, whose functions may be generators or coroutines (181-279), a step that handles an attribute [my_state] by hand (281-331), and a step that is
    a generator or coroutine (333-375). *)
From Coq Require Import ZArith List Bool Arith String.
From Verif Require Import Num PyDict TimedModel AgentModel FsmModel.
Import ListNotations.
Local Open Scope string_scope.

(** What can be returned, yielded or awaited to be woken again: None, [self.delay(d)] or [self.at(t)] (soil/agents/__init__.py:296-300). *)
Inductive wait := WNone | WDelay (d : num) | WAt (t : num).
(** A phase: the waits inside of a state function (line 201) and the one with which it goes to the next state (lines 187-202). *)
Record phase := Phase { ph_inner : list wait; ph_last : wait }.
(** What an agent does: the phases, and the wait that is then repeated (lines 204-206). *)
Record script := Script { sc_phases : list phase; sc_rest : wait }.
(** Which of the programs an agent has. *)
Inductive style := ByStates | ByHand | ByGenerator.

(** The functions of these programs: those of the states, the other steps and [FSM.dead]; where they are suspended. *)
Inductive sfun := FState (i : nat) | FHand | FGen | FDead.
Inductive spoint := QState (i j : nat) | QHand | QGen (i j : nat) | QDead.
(** The attributes [my_state] and [my_count] (lines 287-288), counted from 0, and the random generator. *)
Record sattrs (R : Type) := SAttrs { x_state : aid -> nat; x_count : aid -> nat; x_rng : R }.
Arguments SAttrs {R}. Arguments x_state {R}. Arguments x_count {R}. Arguments x_rng {R}.

(** The states [one], [two], ... of a class; their names are different. *)
Fixpoint name_of (i : nat) : string := match i with O => "s" | S i => "s" ++ name_of i end.
Definition chain_state (i : nat) : state sfun := State (FState i) (name_of i) (Nat.eqb i 0).
(** The class with one state for each phase, the first of which is the default, and a last one. *)
Definition chain_class (sc : script) : cls (option (state sfun)) :=
  Cls 1 [fsm_class FDead] (map (fun i => Some (chain_state i)) (seq 0 (S (List.length (sc_phases sc))))).

Section Code.
Context {AR : Arith} {R : Type}.
Variable scripts : aid -> script.

(** The wait as a Python value; soil/agents/__init__.py:296-297 [at]. *)
Definition wait_value (now : num) (w : wait) : pyval sfun :=
  match w with WNone => PNone | WDelay d => PNum d | WAt t => PNum (n_add t (n_opp now)) end.
(** Going to a state: [self.two], [self.two.delay(d)] and [self.two.at(t)] (soil/agents/fsm.py:50-54). *)
Definition goto (now : num) (i : nat) (w : wait) : pyval sfun :=
  match w with WNone => PState (chain_state i) | _ => PTuple [PState (chain_state i); wait_value now w] end.

Definition set_attrs (r : sattrs R) (a : aid) (i j : nat) : sattrs R :=
  SAttrs (fun b => if Nat.eqb b a then i else x_state r b) (fun b => if Nat.eqb b a then j else x_count r b) (x_rng r).

Definition style_code : code sfun spoint (sattrs R) :=
  Code (fun f => match f with FState i => QState i 0 | FHand => QHand | FGen => QGen 0 0 | FDead => QDead end)
    (fun s a q w =>
       let now := s_time s in
       let sc := scripts a in
       let r := fw_rest w in
       match q with
       | QState i j =>
           (* lines 187-206: the function of state [i], after [j] waits *)
           match nth_error (sc_phases sc) i with
           | None => (r, [], GReturn (wait_value now (sc_rest sc)))
           | Some ph =>
               match nth_error (ph_inner ph) j with
               | Some x => (r, [], GYield (wait_value now x) (QState i (S j)))
               | None => (r, [], GReturn (goto now (S i) (ph_last ph)))
               end
           end
       | QHand =>
           (* lines 290-308 *)
           let i := x_state r a in
           match nth_error (sc_phases sc) i with
           | None => (r, [], GReturn (wait_value now (sc_rest sc)))
           | Some ph =>
               match nth_error (ph_inner ph) (x_count r a) with
               | Some x => (set_attrs r a i (S (x_count r a)), [], GReturn (wait_value now x))
               | None => (set_attrs r a (S i) 0, [], GReturn (wait_value now (ph_last ph)))
               end
           end
       | QGen i j =>
           (* lines 341-352: [my_state] is set before the wait that leads to it *)
           match nth_error (sc_phases sc) i with
           | None => (r, [], GYield (wait_value now (sc_rest sc)) (QGen i j))
           | Some ph =>
               match nth_error (ph_inner ph) j with
               | Some x => (r, [], GYield (wait_value now x) (QGen i (S j)))
               | None => (set_attrs r a (S i) (x_count r a), [], GYield (wait_value now (ph_last ph)) (QGen (S i) 0))
               end
           end
       | QDead => (r, [], GReturn (PNum PInf))
       end).

(** A new agent of each style: lines 208-209, 310-311 and 354-355. *)
Definition new_agent (st : style) (sc : script) : fagent sfun :=
  match st with
  | ByStates =>
      FAgent (KFsm (fst (meta (chain_class sc)))) true
        (match fsm_init (chain_class sc) PNone with Some cur => cur | None => None end)
  | ByHand => FAgent (KPlain FHand) true None
  | ByGenerator => FAgent (KPlain FGen) true None
  end.
(** Any number of agents, each with its style.  Shuffling only changes the random generator. *)
Definition style_user (shuffle : list aid -> R -> R * list aid) : user (fworld sfun (sattrs R) * cors (frame spoint)) :=
  agent_user style_code (fun _ => None)
    (fun l r => let '(g, l') := shuffle l (x_rng r) in (SAttrs (x_state r) (x_count r) g, l')).
Definition style_world (styles : aid -> style) (g : R) : fworld sfun (sattrs R) * cors (frame spoint) :=
  (FWorld (fun a => new_agent (styles a) (scripts a)) (SAttrs (fun _ => 0) (fun _ => 0) g), no_cors).
End Code.
