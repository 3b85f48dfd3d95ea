(** Vocabulary for the properties of messages (C39 to C43, C67). *)
From Coq Require Import ZArith List Bool Arith.
From Verif Require Import Num TimedModel EventModel.
Import ListNotations.

Section Spec.
Context {V W : Type}.

(** The message can still be handled at [now]: it has no expiration date, or that date
    is not in the past. *)
Definition fresh (now : num) (m : msg V) : bool :=
  match m_exp m with Some e => negb (n_ltb e now) | None => true end.

(** The answer given last to the ask [k], in the order of the calls. *)
Fixpoint last_answer (k : nat) (calls : list (call V)) : option V :=
  match calls with
  | [] => None
  | (m, o) :: l =>
      match last_answer k l with
      | Some v => Some v
      | None => if match m_ask m with Some j => Nat.eqb j k | None => false end
                then o else None
      end
  end.

(** All the calls of handlers in a trace. *)
Definition calls_in (tr : list (seen V)) : list (call V) :=
  flat_map (fun o => match o with OCalls _ _ calls _ => calls | OAsk _ _ => [] end) tr.

(** Asks are numbered: those in the inboxes are among those made so far. *)
Definition numbered (w : eworld V W) : Prop :=
  forall a l m k, e_inbox w a = Some l -> In m l -> m_ask m = Some k -> k < e_asks w.

(** The handler never raises, and never sends anything to the agent itself. *)
Definition calm (on_receive : num -> aid -> V -> option aid -> eworld V W ->
                              W * list (sending V) * option V) (a : aid) : Prop :=
  forall now p s w, let '(_, sends, res) := on_receive now a p s w in
  res <> None /\ forall x, In x sends -> reaches a x = false.
End Spec.
