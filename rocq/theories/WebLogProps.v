(** Theorems about the log that the web interface captures (soil/web/__init__.py:183-200 and 250-264). *)
From Coq Require Import List Bool Arith Ascii String Lia.
From Verif Require Import WebLogModel WebLogSpec WebLogProofs.
Import ListNotations.
Local Open Scope string_scope.
Local Open Scope list_scope.

Definition msg (s : string) : text := list_ascii_of_string s.

(** ** C232: what is logged under the name of a run while it lasts is told to the client. *)
(** Refuted: what is logged after the last update of a run is lost, and what is logged in the midst of an update too. *)
Theorem C232_all_told_refuted : ~ all_told.
Proof.
  intros H. specialize (H [ARun ["soil"] [] [WLog ["soil"] (msg "end")] [WTick []]]). cbn in H.
  destruct H as [_ H]; [intros r [<-|[]]; reflexivity | discriminate].
Qed.
Theorem C232_race_refuted : exists r, forallb during (r_body r) = true /\ r_tail r = [] /\
  ~ told (c_sent (wrun (events_of 0 r) connected)) (heard (r_name r) (r_body r)).
Proof.
  exists (ARun ["soil"] [WLog ["soil"] (msg "a"); WTick [(["soil"], msg "b")]; WLog ["soil"] (msg "c")] [] []).
  split; [reflexivity|]. split; [reflexivity|]. intros [_ H]. discriminate.
Qed.

(** What does hold: in runs one after another on an open connection, with no message in the midst of an update, exactly what is logged under
    the name of each run up to its last update is told, in order and once.  Missing for the full property: the tail of a run, messages in the
    midst of an update, and runs that overlap. *)
Theorem C232_told_up_to_the_last_update_partial : forall rs, (forall r, In r rs -> good_run r) ->
  told (c_sent (wrun (session 0 rs) connected)) (flat_map (fun r => heard (r_name r) (r_body r)) rs).
Proof.
  intros rs H. destruct (session_told rs connected H connected_quiet) as [ls [S T]]. cbn [connected c_caps c_sent List.length app] in S. rewrite S. exact T.
Qed.
Definition runs_case : list arun :=
  [ARun ["x"] [WLog ["x"; "a"] (msg "one"); WLog ["y"] (msg "no"); WTick []; WLog ["x"] (msg "two")] [WLog ["x"] (msg "late")] [WLog ["x"] (msg "idle")];
   ARun ["y"] [WLog ["y"] (msg "three"); WLog ["x"] (msg "no")] [] [WTick []; WTick []]].
Example C232_case : (forall r, In r runs_case -> good_run r) /\
  c_sent (wrun (session 0 runs_case) connected) = [msg "one"; msg "two"; msg "three"].
Proof. split; [|reflexivity]. intros r [<-|[<-|[]]]; repeat split. Qed.

(** Once another run has begun on the connection, what is logged outside of its name is lost: it makes no difference to what is ever sent. *)
Theorem C232_overlap_refuted : forall es1 n2 es3 es4 p m, ~ under n2 p -> (forall e, In e es3 -> no_start_above p e) ->
  c_sent (wrun (es1 ++ WStart n2 :: es3 ++ WLog p m :: es4) connected) = c_sent (wrun (es1 ++ WStart n2 :: es3 ++ es4) connected).
Proof. exact overlap. Qed.
Example C232_overlap_case :
  let es1 := [WStart ["x"]; WLog ["x"] (msg "one"); WTick []] in
  let es4 := [WTick []; WEnd 1; WTick []; WEnd 0; WTick []] in
  ~ under ["y"] ["x"] /\
  c_sent (wrun (es1 ++ WStart ["y"] :: [WLog ["y"] (msg "two")] ++ WLog ["x"] (msg "lost") :: es4) connected) = [msg "one"; msg "two"] /\
  c_sent (wrun (es1 ++ WLog ["x"] (msg "kept") :: es4) connected) = [msg "one"; msg "kept"].
Proof. cbv zeta. split; [intros [r H]; discriminate|]. split; reflexivity. Qed.

(** ** C233: what a simulation and its agents log is told to the client. *)
(** Refuted: their loggers are under "soil", whereas the run listens to the logger with the name of the simulation. *)
Theorem C233_own_loggers_refuted : forall name rest, under name (sim_logger name rest) <-> Forall (eq "soil") name.
Proof. exact own_logger. Qed.
Theorem C233_nothing_told_refuted : forall name es, ~ Forall (eq "soil") name ->
  (forall n, In (WStart n) es -> n = name) -> (forall e p, In e es -> In p (logs_to e) -> exists rest, p = sim_logger name rest) ->
  c_sent (wrun es connected) = [].
Proof.
  intros name es N S L. apply (mute_run (fun p => exists rest, p = sim_logger name rest) es connected).
  - intros e I p J. exact (L e p I J).
  - intros n I p [rest ->] U. rewrite (S n I) in U. apply N. exact (proj1 (own_logger name rest) U).
  - split; [reflexivity | constructor].
Qed.
Example C233_case :
  c_sent (wrun [WStart ["spread"]; WLog (sim_logger ["spread"] ["agent"]) (msg "hello"); WTick []; WEnd 0] connected) = [] /\
  c_sent (wrun [WStart ["soil"]; WLog (sim_logger ["soil"] ["agent"]) (msg "hello"); WTick []; WEnd 0] connected) = [msg "hello"].
Proof. split; reflexivity. Qed.
(** What does hold: more generally, only what is logged under the name of some run is ever told. *)
Theorem C233_only_what_is_under_a_name_partial : forall es,
  (forall n, In (WStart n) es -> forall e p, In e es -> In p (logs_to e) -> ~ under n p) -> c_sent (wrun es connected) = [].
Proof.
  intros es H. apply (mute_run (fun p => exists e, In e es /\ In p (logs_to e)) es connected).
  - intros e I p J. exists e. auto.
  - intros n I p [e [J K]]. exact (H n I e p J K).
  - split; [reflexivity | constructor].
Qed.

(** ** C234: once the runs of a connection have ended, nothing of them goes on. *)
(** Refuted: if the client goes away during a run, its updates go on for ever, whatever happens. *)
Theorem C234_updates_for_ever_refuted : forall es es', c_capturing (wrun es connected) = true ->
  1 <= c_timers (wrun (es ++ WClose :: es') connected).
Proof.
  intros es es' C. rewrite wrun_app. cbn [wrun fold_left]. set (c := wstep (wrun es connected) WClose).
  destruct (gone_run es' c eq_refl C) as [_ D]. apply (timed_run es' c); [|exact D].
  apply timed_step, timed_run. intros X. discriminate.
Qed.
Example C234_gone_case : c_capturing (wrun [WStart ["x"]] connected) = true /\
  c_timers (wrun [WStart ["x"]; WClose; WEnd 0; WTick []; WTick []; WTick []] connected) = 1.
Proof. split; reflexivity. Qed.
(** What does hold: there are never more updates waiting than runs begun, one waits while a run lasts, and after the end of a run on an open
    connection that many suffice to have none waiting.  Missing: clients that go away. *)
Theorem C234_updates_end_partial : forall es i k j,
  let c := wrun es connected in
  c_timers c <= List.length (filter is_start es) /\
  (c_capturing c = true -> 1 <= c_timers c) /\
  (c_open c = true -> c_current c = Some j -> nth_error (c_caps c) i = Some k ->
   c_timers (wrun (WEnd i :: repeat (WTick []) (List.length (filter is_start es))) c) = 0).
Proof.
  intros es i k j. cbv zeta. pose proof (few_run es connected) as F. cbn [connected c_timers Nat.add] in F. unfold starts in F.
  split; [exact F|]. split; [apply timed_run; intros X; discriminate|]. intros O C K. cbn [wrun fold_left].
  apply idle_end; cbn [wstep]; unfold wrun in *; rewrite O, C, K; [reflexivity | exact F].
Qed.
(** And nothing more is told once the client has gone away. *)
Theorem C234_silence_partial : forall es es',
  c_sent (wrun (es ++ WClose :: es') connected) = c_sent (wrun es connected).
Proof.
  intros es es'. rewrite wrun_app. cbn [wrun fold_left]. set (c := wstep (wrun es connected) WClose).
  change (c_sent (wrun es connected)) with (c_sent c). assert (O : c_open c = false) by reflexivity. revert O. generalize c. clear.
  assert (U : forall late c, c_open c = false -> c_open (update_logging late c) = false /\ c_sent (update_logging late c) = c_sent c).
  { intros late c O. unfold update_logging. destruct (c_current c) as [i|]; [|auto]. destruct (nth_error (c_caps c) i) as [k|]; [|auto].
    rewrite O. cbn [orb]. destruct (negb (k_closed k) && negb (Nat.eqb (List.length (k_text k)) 0)); cbn [andb]; [|auto].
    destruct (Nat.eqb_spec (List.length (removelast (split (k_text k)))) 0) as [Z|Z]; [|auto]. cbn [c_open c_sent].
    apply length_zero_iff_nil in Z. rewrite Z, app_nil_r. auto. }
  induction es' as [|e es' IH]; intros c O; [reflexivity|]. cbn [fold_left].
  assert (H : c_open (wstep c e) = false /\ c_sent (wstep c e) = c_sent c).
  { destruct e as [name|p m|late|i|]; cbn [wstep].
    - match goal with |- context [update_logging [] ?x] => exact (U [] x O) end.
    - auto.
    - destruct (c_timers c); [auto|]. match goal with |- context [update_logging late ?x] => exact (U late x O) end.
    - rewrite O. auto.
    - auto. }
  destruct H as [A B]. rewrite <- B. apply IH. exact A.
Qed.
Example C234_silence_case :
  c_sent (wrun ([WStart ["x"]; WLog ["x"] (msg "one"); WTick []; WLog ["x"] (msg "two")] ++ WClose :: [WTick []; WTick []]) connected) = [msg "one"].
Proof. reflexivity. Qed.
Example C234_case : c_timers (wrun [WStart ["x"]; WTick []; WEnd 0] connected) = 1 /\
  c_timers (wrun [WStart ["x"]; WTick []; WEnd 0; WTick []] connected) = 0.
Proof. split; reflexivity. Qed.

Print Assumptions C232_all_told_refuted.
Print Assumptions C232_race_refuted.
Print Assumptions C232_told_up_to_the_last_update_partial.
Print Assumptions C232_overlap_refuted.
Print Assumptions C233_own_loggers_refuted.
Print Assumptions C233_nothing_told_refuted.
Print Assumptions C233_only_what_is_under_a_name_partial.
Print Assumptions C234_updates_for_ever_refuted.
Print Assumptions C234_updates_end_partial.
Print Assumptions C234_silence_partial.
