(** Model of the messages between agents: soil/events.py, soil/agents/evented.py and
    soil/environment.py:412-432. *)
From Coq Require Import ZArith List Bool Arith.
From Verif Require Import Num TimedModel.
Import ListNotations.

Section Events.
Context {AR : Arith} {V W : Type}.
(** Payloads and answers: the value None, and truth values. *)
Variable v_none : V.
Variable truthy : V -> bool.

(** soil/events.py:10-31.  [m_ask] is the identity of an [Ask] object (None for a [Tell]),
    under which its attribute [reply] is found in the world.  Not modelled: [timestamp] and
    [id], which nothing reads. *)
Record msg := Msg {
  m_payload : V; m_sender : option aid; m_exp : option num; m_ask : option nat }.

(** soil/events.py:18-19. *)
Definition expired (m : msg) (when : num) : bool :=
  match m_exp m with None => false | Some e => n_ltb e when end.

(** The inboxes (None: the agent is not an [EventedAgent]) and [_processed], the replies
    of the asks, how many asks there have been, and the rest of the world. *)
Record eworld := EWorld {
  e_inbox : aid -> option (list msg);
  e_count : aid -> nat;
  e_reply : nat -> V;
  e_asks : nat;
  e_rest : W }.

Definition set_inbox (w : eworld) (a : aid) (l : list msg) : eworld :=
  EWorld (fun b => if Nat.eqb b a then Some l else e_inbox w b)
    (e_count w) (e_reply w) (e_asks w) (e_rest w).
Definition add_count (w : eworld) (a : aid) : eworld :=
  EWorld (e_inbox w) (fun b => if Nat.eqb b a then S (e_count w b) else e_count w b)
    (e_reply w) (e_asks w) (e_rest w).
Definition set_reply (w : eworld) (k : nat) (v : V) : eworld :=
  EWorld (e_inbox w) (e_count w) (fun j => if Nat.eqb j k then v else e_reply w j)
    (e_asks w) (e_rest w).
Definition set_rest (w : eworld) (r : W) : eworld :=
  EWorld (e_inbox w) (e_count w) (e_reply w) (e_asks w) r.

(** [agent._inbox.append(m)]; an agent without an inbox gets nothing. *)
Definition append (w : eworld) (a : aid) (m : msg) : eworld :=
  match e_inbox w a with
  | None => w
  | Some l => set_inbox w a (l ++ [m])
  end.

(** soil/agents/evented.py:30-31. *)
Definition tell (w : eworld) (a : aid) (payload : V) (sender : option aid) : eworld :=
  append w a (Msg payload sender None None).

(** soil/environment.py:412-432.  [selected] are the agents of line 414 (QueryModel treats
    the filter).  [agent == sender] compares the public attributes of the two agents
    ([Mapping.__eq__]), which include [unique_id]: with distinct ids it is identity. *)
Definition expiration_of (now : num) (expiration ttl : option num) : option num :=
  match ttl with None => expiration | Some t => Some (n_add now t) end.
Fixpoint broadcast (now : num) (selected : list aid) (payload : V) (sender : option aid)
    (expiration ttl : option num) (w : eworld) : eworld :=
  match selected with
  | [] => w
  | a :: l =>
      if match sender with Some b => Nat.eqb a b | None => false end
      then broadcast now l payload sender expiration ttl w
      else broadcast now l payload sender expiration ttl
             (append w a (Msg payload sender (expiration_of now expiration ttl) None))
  end.

(** soil/agents/evented.py:33-37: the beginning of [a.ask(payload, timeout=timeout)], up to
    the loop: the new world, the identity of the ask and the deadline.  The sender is
    [self], that is, [a]; the argument [expiration] has no effect. *)
Definition ask_start (now : num) (a : aid) (payload : V) (timeout : option num) (w : eworld)
  : eworld * nat * num :=
  let k := e_asks w in
  let w1 := EWorld (e_inbox w) (e_count w) (fun j => if Nat.eqb j k then v_none else e_reply w j)
              (S k) (e_rest w) in
  (append w1 a (Msg payload (Some a) None (Some k)), k,
   match timeout with None => PInf | Some t => n_add now t end).

(** soil/agents/evented.py:38-42: one turn of the loop.  [AWait]: the generator yields. *)
Inductive asked := AWait | AReturn (v : V) | ATimedOut.
Definition ask_resume (now : num) (k : nat) (deadline : num) (w : eworld) : asked :=
  if n_ltb now deadline
  then if truthy (e_reply w k) then AReturn (e_reply w k) else AWait
  else ATimedOut.

(** What user code does to inboxes: tell, broadcast and start asking. *)
Inductive sending :=
| STell (a : aid) (payload : V) (sender : option aid)
| SBroadcast (selected : list aid) (payload : V) (sender : option aid)
    (expiration ttl : option num)
| SAsk (a : aid) (payload : V) (timeout : option num).
Definition run_sending (now : num) (x : sending) (w : eworld) : eworld :=
  match x with
  | STell a p s => tell w a p s
  | SBroadcast l p s e t => broadcast now l p s e t w
  | SAsk a p t => fst (fst (ask_start now a p t w))
  end.
Definition run_sendings (now : num) (l : list sending) (w : eworld) : eworld :=
  fold_left (fun w x => run_sending now x w) l w.

(** Does it change the inbox of [a]? *)
Definition reaches (a : aid) (x : sending) : bool :=
  match x with
  | STell b _ _ | SAsk b _ _ => Nat.eqb a b
  | SBroadcast l _ s _ _ =>
      existsb (Nat.eqb a) l && negb match s with Some b => Nat.eqb a b | None => false end
  end.

(** The handler of the user: the new rest of the world, the messages sent, and the answer
    or None if it raises.  Simplification: it does not call [process_messages] itself. *)
Variable on_receive : num -> aid -> V -> option aid -> eworld -> W * list sending * option V.

(** The calls of [on_receive] that were made: the message and the answer. *)
Definition call : Type := msg * option V.

(** The result of [process_messages]: the valid messages, an exception of the handler, or
    the RuntimeError of a deque that is changed while it is iterated (also by the last
    message). *)
Inductive pres := POk (valid : list msg) | PRaise | PMutated.

(** soil/agents/evented.py:46-53. *)
Fixpoint process_loop (now : num) (a : aid) (l : list msg) (w : eworld)
  : eworld * list call * pres :=
  match l with
  | [] => (w, [], POk [])
  | m :: l' =>
      let w1 := add_count w a in
      if expired m now then process_loop now a l' w1
      else
        let '(r, sends, res) := on_receive now a (m_payload m) (m_sender m) w1 in
        let w2 := run_sendings now sends (set_rest w1 r) in
        match res with
        | None => (w2, [(m, None)], PRaise)
        | Some v =>
            let w3 := match m_ask m with Some k => set_reply w2 k v | None => w2 end in
            if existsb (reaches a) sends then (w3, [(m, Some v)], PMutated)
            else
              let '(w4, calls, p) := process_loop now a l' w3 in
              (w4, (m, Some v) :: calls,
               match p with POk valid => POk (m :: valid) | _ => p end)
        end
  end.

(** soil/agents/evented.py:44-55.  For an agent without an inbox it is an AttributeError. *)
Definition process_messages (now : num) (a : aid) (w : eworld)
  : eworld * list call * pres :=
  match e_inbox w a with
  | None => (w, [], PRaise)
  | Some l =>
      let '(w', calls, p) := process_loop now a l w in
      match p with
      | POk _ => (set_inbox w' a [], calls, p)
      | _ => (w', calls, p)
      end
  end.

(** soil/agents/evented.py:19-20. *)
Definition received_deadline (now : num) (expiration : option num) (timeout : num) : num :=
  or_num expiration (n_add now timeout).

(** soil/agents/evented.py:21-28: one turn of the loop.  [RInbox]: what is returned is the
    inbox itself, not a copy; [RRaise]: [process_messages] raised. *)
Inductive rres := RWait | RInbox | RTimedOut | RRaise.
Definition received_resume (now : num) (a : aid) (deadline : num) (process : bool) (w : eworld)
  : eworld * list call * rres :=
  if n_ltb now deadline then
    match e_inbox w a with
    | None => (w, [], RRaise)
    | Some [] => (w, [], RWait)
    | Some _ =>
        if process then
          let '(w', calls, p) := process_messages now a w in
          (w', calls, match p with POk _ => RInbox | _ => RRaise end)
        else (w, [], RInbox)
    end
  else (w, [], RTimedOut).

(** Everything that can happen while an ask [k] with a deadline is pending: somebody sends,
    somebody processes the messages, the rest of the world changes, or the ask is resumed.
    The trace has the calls of the handlers, and what became of the ask each time. *)
Inductive event :=
| VSend (now : num) (x : sending)
| VProcess (now : num) (a : aid)
| VRest (f : W -> W)
| VResume (now : num).
Inductive seen :=
| OCalls (now : num) (a : aid) (calls : list call) (p : pres)
| OAsk (now : num) (r : asked).
Fixpoint run_events (k : nat) (deadline : num) (l : list event) (w : eworld)
  : eworld * list seen :=
  match l with
  | [] => (w, [])
  | VSend now x :: l' => run_events k deadline l' (run_sending now x w)
  | VRest f :: l' => run_events k deadline l' (set_rest w (f (e_rest w)))
  | VProcess now a :: l' =>
      let '(w1, calls, p) := process_messages now a w in
      let '(w2, tr) := run_events k deadline l' w1 in
      (w2, OCalls now a calls p :: tr)
  | VResume now :: l' =>
      let '(w2, tr) := run_events k deadline l' w in
      (w2, OAsk now (ask_resume now k deadline w) :: tr)
  end.
End Events.
Arguments msg : clear implicits.
Arguments eworld : clear implicits.
Arguments sending : clear implicits.
Arguments pres : clear implicits.
Arguments asked : clear implicits.
Arguments event : clear implicits.
Arguments seen : clear implicits.
Arguments call : clear implicits.
Arguments AWait {V}. Arguments AReturn {V}. Arguments ATimedOut {V}.
Arguments POk {V}. Arguments PRaise {V}. Arguments PMutated {V}.
Arguments OCalls {V}. Arguments OAsk {V}.
Arguments VSend {V W}. Arguments VProcess {V W}. Arguments VRest {V W}. Arguments VResume {V W}.
Arguments STell {V}. Arguments SBroadcast {V}. Arguments SAsk {V}.
