(** Model of the agents of two tests that send messages to one another, with any number of agents and steps: tests/test_agents.py:75-104
    (everybody broadcasts once) and 106-167 (agents that ask each other). *)
From Coq Require Import ZArith List Bool Arith.
From Verif Require Import Num TimedModel AgentModel FsmModel EventModel.
Import ListNotations.

(** A run of [k] steps of a model with the agents [0], ..., [n - 1], all added at the start, as in tests/test_agents.py:97-101 and 153-159. *)
Definition with_agents {W} (n k : nat) : list (cmd (W := W)) := map (fun a => CAdd a None) (seq 0 n) ++ repeat CStep k.
(** Nothing in these programs is a string that is converted to a number. *)
Definition no_float (s : String.string) : option num := None.

Section Broadcast.
Context {AR : Arith} {R : Type}.
(** The attribute [pings_received] of each agent, and the random generator. *)
Record pings := Pings { p_received : aid -> nat; p_rng : R }.
Definition bworld : Type := eworld unit pings.
(** tests/test_agents.py:94-95. *)
Definition on_ping (now : num) (a : aid) (v : unit) (sender : option aid) (w : bworld) : pings * list (sending unit) * option unit :=
  (Pings (fun b => if Nat.eqb b a then S (p_received (e_rest w) b) else p_received (e_rest w) b) (p_rng (e_rest w)), [], Some tt).
(** tests/test_agents.py:84-92.  The state of the generator tells whether it has been suspended in line 92. *)
Definition bcast : code unit bool bworld :=
  Code (fun _ => false) (fun s a q w =>
    let w := if q then fw_rest w else broadcast (s_time s) (s_reg s) tt None None None (fw_rest w) in
    let '(w, _, _) := process_messages tt on_ping (s_time s) a w in
    (w, [], GYield PNone true)).
(** [model.random.shuffle] changes the generator and nothing else. *)
Definition bshuffle (shuffle : list aid -> R -> R * list aid) (l : list aid) (w : bworld) : bworld * list aid :=
  let '(r, l') := shuffle l (p_rng (e_rest w)) in (set_rest w (Pings (p_received (e_rest w)) r), l').
(** tests/test_agents.py:97-104. *)
Definition bcast_run (shuffle : list aid -> R -> R * list aid) (sh : bool) (di : num) (n k : nat) (r : R)
  : sched * (fworld unit bworld * cors (frame bool)) * list ev :=
  run_hist (agent_user bcast no_float (bshuffle shuffle)) (with_agents n k) (timed_init sh di)
    (FWorld (fun _ => FAgent (KPlain tt) true None) (EWorld (fun _ => Some []) (fun _ => 0) (fun _ => tt) 0 (Pings (fun _ => 0) r)), no_cors).
End Broadcast.
Arguments pings : clear implicits.

Section Ask.
Context {AR : Arith}.
(** The delay of [ask] and [received], 1, and the timeout of [received], 60 (soil/agents/evented.py:18 and 34). *)
Variables one sixty : num.
(** How many agents there are. *)
Variable n : nat.

(** tests/test_agents.py:125-127: the three lists ([responses] are all "PONG"). *)
Record plists := PLists { pl_pings : list num; pl_pongs : list num; pl_responses : nat }.
(** Payloads and replies: false is None, and true is "PING" or "PONG". *)
Definition aworld : Type := eworld bool plists.
(** tests/test_agents.py:147-151. *)
Definition on_msg (now : num) (a : aid) (v : bool) (sender : option aid) (w : aworld) : plists * list (sending bool) * option bool :=
  let r := e_rest w in
  if v then (PLists (pl_pings r) (pl_pongs r ++ [now]) (pl_responses r), [], Some true) else (r, [], None).
(** Where the generator of tests/test_agents.py:130-145 is: not started, in [ask] with the number of the ask and its deadline (line 137), or in
    [received] with its deadline (line 144). *)
Inductive ppoint := PBegin | PAsk (k : nat) (deadline : num) | PReceived (deadline : num).
Definition pout : Type := aworld * list (fop unit) * gout ppoint (pyval unit).
Section Agent.
Variable now : num.
Variable a : aid.
(** tests/test_agents.py:131: the agent that is asked. *)
Definition target : aid := (a + 1) mod n.
(** tests/test_agents.py:134-144: the loop, from its beginning.  [fuel] bounds the number of turns in one activation; when there is none left the
    agent raises. *)
Fixpoint ploop (fuel : nat) (w : aworld) : pout :=
  match fuel with
  | O => (w, [], GRaise false)
  | S fuel =>
      let r := e_rest w in
      match pl_pongs r, pl_pings r with
      | [], _ :: _ =>
          let '(w, _, p) := process_messages false on_msg now a w in
          match p with
          | POk (_ :: _) => ploop fuel w
          | POk [] => (w, [], GYield (PNum one) (PReceived (received_deadline now None sixty)))
          | _ => (w, [], GRaise false)
          end
      | _, _ =>
          let w := set_rest w (PLists (pl_pings r ++ [now]) (pl_pongs r) (pl_responses r)) in
          let '(w, k, dl) := ask_start false now target true None w in
          match ask_resume (fun b => b) now k dl w with
          | AWait => (w, [], GYield (PNum one) (PAsk k dl))
          | _ => (w, [], GRaise false)
          end
      end
  end.
(** From each of its points.  After [ask] it is lines 138 and 142-144. *)
Definition presume (q : ppoint) (w : aworld) : pout :=
  match q with
  | PBegin => ploop 3 w
  | PAsk k dl =>
      match ask_resume (fun b => b) now k dl w with
      | AWait => (w, [], GYield (PNum one) (PAsk k dl))
      | ATimedOut => (w, [], GRaise false)
      | AReturn _ =>
          let r := e_rest w in
          let w := set_rest w (PLists (pl_pings r) (pl_pongs r) (S (pl_responses r))) in
          let '(w, _, p) := process_messages false on_msg now a w in
          match p with
          | POk (_ :: _) => ploop 3 w
          | POk [] => (w, [], GYield (PNum one) (PReceived (received_deadline now None sixty)))
          | _ => (w, [], GRaise false)
          end
      end
  | PReceived dl =>
      let '(w, _, r) := received_resume false on_msg now a dl true w in
      match r with
      | RWait => (w, [], GYield (PNum one) (PReceived dl))
      | RInbox => ploop 3 w
      | _ => (w, [], GRaise false)
      end
  end.
End Agent.
Definition ping : code unit ppoint aworld := Code (fun _ => PBegin) (fun s a q w => presume (s_time s) a q (fw_rest w)).
(** tests/test_agents.py:153-159: an [OrderedTimedActivation] (soil/time.py:196-203) does not shuffle. *)
Definition ping_run (di : num) (k : nat) : sched * (fworld unit aworld * cors (frame ppoint)) * list ev :=
  run_hist (agent_user ping no_float (fun l w => (w, l))) (with_agents n k) (timed_init false di)
    (FWorld (fun _ => FAgent (KPlain tt) true None) (EWorld (fun _ => Some []) (fun _ => 0) (fun _ => false) 0 (PLists [] [] 0)), no_cors).
End Ask.
