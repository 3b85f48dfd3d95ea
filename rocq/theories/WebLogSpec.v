(** What the client should be told of the log of a run: soil/web/__init__.py:183-200 and 250-264. *)
From Coq Require Import List Bool Arith Ascii String.
From Verif Require Import WebLogModel.
Import ListNotations.

(** A logger below another: the names of the latter begin those of the former. *)
Definition under (name p : path) : Prop := exists rest, p = name ++ rest.
Definition underb (name p : path) : bool := if list_eq_dec string_dec (firstn (List.length name) p) name then true else false.

(** The lines sent tell the messages: they have no ends of lines, and with those ends they are the messages with theirs. *)
Definition told (sent : list text) (msgs : list text) : Prop :=
  Forall (fun l => ~ In "010"%char l) sent /\
  flat_map (fun l => l ++ ["010"%char]) sent = flat_map (fun m => m ++ ["010"%char]) msgs.

(** What is logged under a name, in the order of logging. *)
Definition heard_at (name : path) (r : path * text) : list text := if underb name (fst r) then [snd r] else [].
Definition heard (name : path) (es : list wevent) : list text :=
  flat_map (fun e => match e with
                     | WLog p m => heard_at name (p, m)
                     | WTick late => flat_map (heard_at name) late
                     | _ => []
                     end) es.

(** What happens during a run, with or without messages in the midst of an update. *)
Definition during (e : wevent) : bool := match e with WLog _ _ | WTick _ => true | _ => false end.
Definition calm (e : wevent) : bool := match e with WLog _ _ | WTick [] => true | _ => false end.
Definition only_log (e : wevent) : bool := match e with WLog _ _ => true | _ => false end.

(** A run: its name, what happens in it up to its last update, what is logged after that, and what happens until the next run. *)
Record arun := ARun { r_name : path; r_body : list wevent; r_tail : list wevent; r_idle : list wevent }.
Definition good_run (r : arun) : Prop :=
  forallb calm (r_body r) = true /\ forallb only_log (r_tail r) = true /\ forallb during (r_idle r) = true.
Definition events_of (i : nat) (r : arun) : list wevent :=
  WStart (r_name r) :: r_body r ++ WTick [] :: r_tail r ++ WEnd i :: r_idle r.
(** Runs one after another. *)
Fixpoint session (i : nat) (rs : list arun) : list wevent :=
  match rs with [] => [] | r :: rs' => events_of i r ++ session (S i) rs' end.

(** The full property: whatever happens during the runs of a session, all that is logged under the name of a run while it lasts is told. *)
Definition all_told : Prop :=
  forall rs, (forall r, In r rs -> forallb during (r_body r ++ r_tail r ++ r_idle r) = true) ->
    told (c_sent (wrun (session 0 rs) connected)) (flat_map (fun r => heard (r_name r) (r_body r ++ r_tail r)) rs).

Definition no_start_above (p : path) (e : wevent) : Prop := forall n, e = WStart n -> ~ under n p.
Definition is_start (e : wevent) : bool := match e with WStart _ => true | _ => false end.
Definition is_close (e : wevent) : bool := match e with WClose => true | _ => false end.

(** The loggers used in an event. *)
Definition logs_to (e : wevent) : list path :=
  match e with WLog p _ => [p] | WTick late => map fst late | _ => [] end.
