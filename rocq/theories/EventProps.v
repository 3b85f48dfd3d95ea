(** C39-C43 and C67: messages between agents. *)
From Coq Require Import ZArith List Bool Arith.
From Verif Require Import Num TimedModel EventModel EventSpec EventProofs.
Import ListNotations.
Local Existing Instance exact | 100.

(** Handlers, for all theorems: from the clock, the agent, the payload, the sender and the
    world to the rest of the world, the messages sent and the answer. *)
Notation handler V W :=
  (num -> aid -> V -> option aid -> eworld V W -> W * list (sending V) * option V).

(** C39 is false for handlers that send a message to the agent itself: [process_messages]
    fails after the first message, whatever the rest, and nothing is taken out of the
    inbox (so that message will be handled again). *)
Theorem C39_message_to_itself_refuted :
  forall (AR : Arith) V W (v_none : V) (on_receive : handler V W)
         now a w l m l' r sends v,
  e_inbox w a = Some l -> filter (fresh now) l = m :: l' ->
  (forall w1, on_receive now a (m_payload m) (m_sender m) w1 = (r, sends, Some v)) ->
  existsb (reaches a) sends = true ->
  exists w', process_messages v_none on_receive now a w = (w', [(m, Some v)], PMutated) /\
             exists more, e_inbox w' a = Some (l ++ more).
Proof. exact @process_mutated. Qed.
Print Assumptions C39_message_to_itself_refuted.

(** C39 whenever [process_messages] does not raise. *)
Theorem C39_every_message_once_in_order_partial :
  forall (AR : Arith) V W (v_none : V) (on_receive : handler V W) now a w l w' calls valid,
  e_inbox w a = Some l -> process_messages v_none on_receive now a w = (w', calls, POk valid) ->
  valid = filter (fresh now) l /\ map fst calls = valid /\
  (forall m o, In (m, o) calls -> o <> None) /\
  e_inbox w' a = Some [] /\ e_count w' a = e_count w a + List.length l /\
  (forall k, k < e_asks w ->
     e_reply w' k = match last_answer k calls with Some v => v | None => e_reply w k end).
Proof. exact @process_spec. Qed.
Print Assumptions C39_every_message_once_in_order_partial.

(** ... which is the case if the handler neither raises nor sends messages to the agent. *)
Theorem C39_calm_handlers_do_not_fail :
  forall (AR : Arith) V W (v_none : V) (on_receive : handler V W) now a w l,
  calm on_receive a -> e_inbox w a = Some l ->
  exists w' calls valid, process_messages v_none on_receive now a w = (w', calls, POk valid).
Proof. exact @process_calm. Qed.
Print Assumptions C39_calm_handlers_do_not_fail.

(** A world with three agents, the last of which has no inbox; payloads are numbers, with
    0 for None.  The inbox of agent 0 has a message that expired, a tell and an ask. *)
Definition old_msg : msg nat := Msg 7 (Some 1) (Some (Fin 3)) None.
Definition good_msg : msg nat := Msg 8 (Some 1) (Some (Fin 4)) None.
Definition ask_msg : msg nat := Msg 9 (Some 0) None (Some 0).
Definition three : eworld nat nat :=
  EWorld (fun a => match a with
                   | 0 => Some [old_msg; good_msg; ask_msg] | 1 => Some [] | _ => None
                   end)
    (fun _ => 0) (fun _ => 0) 1 0.
(** Answers twice the payload and tells agent 1 about it. *)
Definition doubler : handler nat nat :=
  fun now a p s w => (S (e_rest w), [STell 1 p (Some a)], Some (2 * p)).

Example C39_not_vacuous :
  calm doubler 0 /\
  let '(w', calls, p) := process_messages 0 doubler (Fin 4) 0 three in
  p = POk [good_msg; ask_msg] /\ calls = [(good_msg, Some 16); (ask_msg, Some 18)] /\
  e_inbox w' 0 = Some [] /\ e_inbox w' 1 = Some [Msg 8 (Some 0) None None; Msg 9 (Some 0) None None] /\
  e_reply w' 0 = 18 /\ e_count w' 0 = 3 /\ e_rest w' = 2.
Proof.
  split; [|vm_compute; repeat split].
  intros now p s w. split; [discriminate|]. intros x [<-|[]]. reflexivity.
Qed.

(** Broadcasts to everybody, itself included. *)
Definition shouter : handler nat nat :=
  fun now a p s w => (0, [SBroadcast [0; 1; 2] 1 None None None], Some 1).
Example C39_refuted_not_vacuous :
  let '(w', calls, p) := process_messages 0 shouter (Fin 4) 0 three in
  let '(w2, calls2, p2) := process_messages 0 shouter (Fin 4) 0 w' in
  p = PMutated /\ calls = [(good_msg, Some 1)] /\ p2 = PMutated /\ calls2 = [(good_msg, Some 1)] /\
  option_map (@List.length _) (e_inbox w2 0) = Some 5.
Proof. vm_compute. repeat split. Qed.

(** C40 is false: when the handler fails, the messages that were handled before are
    handled again by the retry. *)
Theorem C40_handled_twice_refuted :
  exists V W (v_none : V) (on_receive : handler V W) now a w m m' v,
  let '(w1, calls1, p1) := process_messages v_none on_receive now a w in
  let '(w2, calls2, p2) := process_messages v_none on_receive now a w1 in
  e_inbox w a = Some [m; m'] /\
  p1 = PRaise /\ In (m, Some v) calls1 /\ (exists valid, p2 = POk valid) /\ In (m, Some v) calls2.
Proof.
  exists nat, nat, 0, (fun now a p s w => (S (e_rest w), [], if Nat.eqb (e_rest w) 1 then None else Some 5)),
    (Fin 4), 0, (set_inbox three 0 [good_msg; ask_msg]), good_msg, ask_msg, 5.
  vm_compute. repeat split; auto. eexists. reflexivity.
Qed.
Print Assumptions C40_handled_twice_refuted.

(** C40, the other half: no message is lost when [process_messages] fails. *)
Theorem C40_nothing_is_lost_partial :
  forall (AR : Arith) V W (v_none : V) (on_receive : handler V W) now a w l w' calls p,
  e_inbox w a = Some l -> process_messages v_none on_receive now a w = (w', calls, p) ->
  (forall valid, p <> POk valid) ->
  exists more, e_inbox w' a = Some (l ++ more).
Proof. exact @process_failed. Qed.
Print Assumptions C40_nothing_is_lost_partial.

Example C40_not_vacuous :
  let '(w', calls, p) := process_messages 0 (fun _ _ _ _ w => (e_rest w, [], None)) (Fin 4) 0 three in
  p = PRaise /\ calls = [(good_msg, None)] /\ e_inbox w' 0 = e_inbox three 0.
Proof. vm_compute. repeat split. Qed.

(** C41 is false: what [received()] returns is always empty. *)
Theorem C41_received_returns_nothing_refuted :
  forall (AR : Arith) V W (v_none : V) (on_receive : handler V W) now a deadline w w' calls,
  received_resume v_none on_receive now a deadline true w = (w', calls, RInbox) ->
  e_inbox w' a = Some [].
Proof. exact @received_empty. Qed.
Print Assumptions C41_received_returns_nothing_refuted.

(** C41: it waits while the inbox is empty and times out at the deadline; with
    [process=False] it returns the inbox as it is. *)
Theorem C41_unprocessed_partial :
  forall (AR : Arith) V W (v_none : V) (on_receive : handler V W) now a deadline process w l,
  e_inbox w a = Some l ->
  let '(w', calls, r) := received_resume v_none on_receive now a deadline process w in
  (r = RTimedOut <-> n_ltb now deadline = false) /\
  (r = RWait <-> n_ltb now deadline = true /\ l = []) /\
  (process = false -> w' = w /\ calls = [] /\
     (r = RInbox <-> n_ltb now deadline = true /\ l <> [])).
Proof. exact @received_cases. Qed.
Print Assumptions C41_unprocessed_partial.

(** C41: an agent without inbox cannot wait for messages. *)
Theorem C41_without_inbox_partial :
  forall (AR : Arith) V W (v_none : V) (on_receive : handler V W) now a deadline process w,
  e_inbox w a = None ->
  received_resume v_none on_receive now a deadline process w =
  (w, [], if n_ltb now deadline then RRaise else RTimedOut).
Proof.
  intros AR V W v_none r now a deadline process w E. unfold received_resume.
  destruct (n_ltb now deadline); [|reflexivity]. now rewrite E.
Qed.
Print Assumptions C41_without_inbox_partial.

Example C41_not_vacuous :
  let d := received_deadline (Fin 4) None (Fin 60) in
  let '(w', calls, r) := received_resume 0 doubler (Fin 4) 0 d true three in
  d = Fin 64 /\ r = RInbox /\ e_inbox w' 0 = Some [] /\ map fst calls = [good_msg; ask_msg] /\
  snd (received_resume 0 doubler (Fin 4) 1 d true three) = RWait /\
  snd (received_resume 0 doubler (Fin 64) 1 d true three) = RTimedOut.
Proof. vm_compute. repeat split. Qed.

(** C42 is false for answers that are false in a boolean context (None, 0, "", False, an
    empty list...): the ask never returns. *)
Theorem C42_false_answers_are_ignored_refuted :
  forall (AR : Arith) V W (v_none : V) (on_receive : handler V W) truthy
         now a payload timeout w k d w' evs w2 tr,
  numbered w -> truthy v_none = false ->
  ask_start v_none now a payload timeout w = (w', k, d) ->
  run_events v_none truthy on_receive k d evs w' = (w2, tr) ->
  (forall m v, In (m, Some v) (calls_in tr) -> m_ask m = Some k -> truthy v = false) ->
  forall t v, ~ In (OAsk t (AReturn v)) tr.
Proof. exact @false_answers. Qed.
Print Assumptions C42_false_answers_are_ignored_refuted.

(** C42 is false for an answer that comes before the deadline if the asker is resumed
    after it: it gets TimedOut. *)
Theorem C42_late_resumption_refuted :
  exists V W (v_none : V) (on_receive : handler V W) truthy a w k d w' evs w2 v,
  truthy v = true /\
  ask_start v_none (Fin 0) a v_none (Some (Fin 5)) w = (w', k, d) /\
  run_events v_none truthy on_receive k d evs w' = (w2,
    [OAsk (Fin 0) AWait;
     OCalls (Fin 4) a [(Msg v_none (Some a) None (Some k), Some v)] (POk [Msg v_none (Some a) None (Some k)]);
     OAsk (Fin 5) ATimedOut]).
Proof.
  exists nat, nat, 0, (fun _ _ _ _ w => (0, [], Some 3)), (fun n => negb (Nat.eqb n 0)), 1, three.
  do 3 eexists. exists [VResume (Fin 0); VProcess (Fin 4) 1; VResume (Fin 5)].
  eexists. exists 3. split; [reflexivity|]. split; [reflexivity|]. vm_compute. reflexivity.
Qed.
Print Assumptions C42_late_resumption_refuted.

(** C42: what the ask does each time that it is resumed, in every execution: it depends on
    the last answer and on the deadline only. *)
Theorem C42_each_resumption_partial :
  forall (AR : Arith) V W (v_none : V) (on_receive : handler V W) truthy
         now a payload timeout w k d w' evs w2 tr,
  numbered w -> truthy v_none = false ->
  ask_start v_none now a payload timeout w = (w', k, d) ->
  run_events v_none truthy on_receive k d evs w' = (w2, tr) ->
  d = match timeout with Some t => n_add now t | None => PInf end /\
  forall tr1 t r tr2, tr = tr1 ++ OAsk t r :: tr2 ->
  r = if n_ltb t d
      then match last_answer k (calls_in tr1) with
           | Some v => if truthy v then AReturn v else AWait
           | None => AWait
           end
      else ATimedOut.
Proof. exact @each_resumption. Qed.
Print Assumptions C42_each_resumption_partial.

(** C42: there is an answer as soon as the receiver has processed its messages, and it is
    an answer of the receiver to the payload. *)
Theorem C42_the_receiver_answers :
  forall (AR : Arith) V W (v_none : V) (on_receive : handler V W) truthy
         now a payload timeout w l k d w' evs w2 tr,
  numbered w -> e_inbox w a = Some l ->
  ask_start v_none now a payload timeout w = (w', k, d) ->
  run_events v_none truthy on_receive k d evs w' = (w2, tr) ->
  (forall t b calls p m o, In (OCalls t b calls p) tr -> In (m, o) calls ->
     m_ask m = Some k -> b = a /\ m_payload m = payload) /\
  (forall tr1 t calls valid tr2, tr = tr1 ++ OCalls t a calls (POk valid) :: tr2 ->
     last_answer k (calls_in (tr1 ++ [OCalls t a calls (POk valid)])) <> None).
Proof. exact @receiver_answers. Qed.
Print Assumptions C42_the_receiver_answers.

(** The hypothesis [numbered] holds at the beginning and always. *)
Theorem C42_asks_stay_numbered :
  forall (AR : Arith) V W (v_none : V) (on_receive : handler V W) truthy k d evs w w' tr,
  run_events v_none truthy on_receive k d evs w = (w', tr) -> numbered w -> numbered w'.
Proof. exact @numbered_events. Qed.
Print Assumptions C42_asks_stay_numbered.

(** Agent 0 answers after two attempts of the asker, the second of which fails. *)
Example C42_not_vacuous :
  numbered three /\
  let '(w', k, d) := ask_start 0 (Fin 4) 0 30 (Some (Fin 10)) three in
  let evs := [VResume (Fin 4); VSend (Fin 4) (STell 1 5 None); VResume (Fin 5); VProcess (Fin 6) 1;
              VProcess (Fin 6) 0; VRest S; VResume (Fin 6)] in
  let '(w2, tr) := run_events 0 (fun n => negb (Nat.eqb n 0)) doubler k d evs w' in
  k = 1 /\ d = Fin 14 /\
  map (fun o => match o with OAsk t r => Some r | _ => None end) tr =
    [Some AWait; Some AWait; None; None; Some (AReturn 60)].
Proof.
  split; [|vm_compute; repeat split].
  intros a l m k I M A. destruct a as [|[|a]]; simpl in I; try discriminate; injection I as <-.
  - destruct M as [<-|[<-|[<-|[]]]]; try discriminate. injection A as <-. auto.
  - destruct M.
Qed.

(** C67 is false: whoever asks, the handler is told that the sender is the agent that was
    asked. *)
Theorem C67_sender_of_an_ask_refuted :
  forall (AR : Arith) V W (v_none : V) (on_receive : handler V W) truthy
         now a payload timeout w k d w' evs w2 tr,
  numbered w -> ask_start v_none now a payload timeout w = (w', k, d) ->
  run_events v_none truthy on_receive k d evs w' = (w2, tr) ->
  forall t b calls p m o, In (OCalls t b calls p) tr -> In (m, o) calls ->
  m_ask m = Some k -> m_sender m = Some b.
Proof. exact @ask_sender. Qed.
Print Assumptions C67_sender_of_an_ask_refuted.

Example C67_not_vacuous :
  let '(w', k, d) := ask_start 0 (Fin 4) 0 30 None three in
  let '(w2, tr) := run_events 0 (fun n => negb (Nat.eqb n 0)) doubler k d [VProcess (Fin 6) 0] w' in
  map (fun c => (m_ask (fst c), m_sender (fst c))) (calls_in tr) =
    [(Some 0, Some 0); (Some 1, Some 0)].
Proof. reflexivity. Qed.

(** C43: exactly one message for every selected agent with an inbox, except the sender,
    and nothing else happens.  [selected] are distinct agents. *)
Theorem C43_broadcast :
  forall (AR : Arith) V W now payload sender expiration ttl selected (w : eworld V W),
  NoDup selected ->
  let w' := broadcast now selected payload sender expiration ttl w in
  (forall b i, e_inbox w b = Some i -> In b selected -> sender <> Some b ->
     e_inbox w' b = Some (i ++ [Msg payload sender
                                 match ttl with Some t => Some (n_add now t) | None => expiration end
                                 None])) /\
  (forall b, ~ In b selected \/ sender = Some b \/ e_inbox w b = None ->
     e_inbox w' b = e_inbox w b) /\
  e_rest w' = e_rest w /\ e_reply w' = e_reply w.
Proof. exact @broadcast_once. Qed.
Print Assumptions C43_broadcast.

(** C43: the message is handled iff that happens no later than now + ttl. *)
Theorem C43_time_to_live :
  forall (AR : Arith) V W (v_none : V) (on_receive : handler V W)
         now t selected payload sender expiration ttl w b i w2 calls valid,
  NoDup selected -> e_inbox w b = Some i -> In b selected -> sender <> Some b ->
  is_time (n_add now ttl) = true -> is_time t = true ->
  let m := Msg payload sender (Some (n_add now ttl)) None in
  process_messages v_none on_receive t b
    (broadcast now selected payload sender expiration (Some ttl) w) = (w2, calls, POk valid) ->
  (In m (map fst calls) <-> n_leb t (n_add now ttl) = true).
Proof. exact @broadcast_ttl. Qed.
Print Assumptions C43_time_to_live.

Example C43_not_vacuous :
  let w' := broadcast (Fin 4) [0; 1; 2] 5 (Some 0) None (Some (Fin 2)) three in
  let m := Msg 5 (Some 0) (Some (Fin 6)) None in
  e_inbox w' 0 = e_inbox three 0 /\ e_inbox w' 1 = Some [m] /\ e_inbox w' 2 = None /\
  snd (fst (process_messages 0 doubler (Fin 6) 1 w')) = [(m, Some 10)] /\
  snd (fst (process_messages 0 doubler (Fin 7) 1 w')) = [].
Proof. vm_compute. repeat split. Qed.
