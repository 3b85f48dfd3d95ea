(** C204-C209: easy, the debugger of the command line, timers, dry runs and the decorators of states. *)
From Coq Require Import ZArith List Bool Arith String Lia.
From Verif Require Import PyDict AgentModel FsmModel EasyModel EasyProofs.
Import ListNotations.
Local Open Scope string_scope.
Local Open Scope list_scope.

(** C204.  The body of [with soil.easy(sim) as envs] is not run, although the simulation runs. *)
Theorem C204_easy_refuted : ~ (forall run s c pm body envs, cl_version c = false -> cl_convert c = false -> run s = inl envs ->
  In SBody (fst (with_easy (E := nat) run c false false true [s] pm body))).
Proof. intros H. exact (proj1 (with_easy_never _ _ _ _ _ _ _ _) (H (fun _ => inl []) 0 (Cli false false false false) false (fun _ => None) [] eq_refl eq_refl eq_refl)). Qed.
Print Assumptions C204_easy_refuted.
(** For all simulations, options and bodies: it is never run, and there is always an exception. *)
Theorem C204_never : forall E (run : nat -> list E + exc) c pdb debug ex sims pm body, let r := with_easy run c pdb debug ex sims pm body in
  ~ In SBody (fst r) /\ exists e, snd r = Some e.
Proof. intros E run c pdb debug ex sims pm body. apply with_easy_never. Qed.
Print Assumptions C204_never.
(** What holds: if nothing fails, a call of [easy] runs each of the simulations once, in order, and [with] does it too before the TypeError. *)
Theorem C204_easy_partial : forall E (run : nat -> list E + exc) c pdb debug s sims pm body, cl_version c = false -> cl_convert c = false ->
  (forall s', In s' (s :: sims) -> exists x, run s' = inl x) ->
  let tr := map SRun (s :: sims) ++ (if debug || cl_debug c then [STrace] else []) in
  (exists m, easy run c pdb debug true (s :: sims) pm = (tr, inl m) /\ run s = inl (mg_gen m)) /\
  with_easy run c pdb debug true (s :: sims) pm body = (tr, Some ETypeError).
Proof.
  intros E run c pdb debug s sims pm body V C H tr. destruct (run_sims_ok run (s :: sims) [] H) as (l & R & M). cbn [app] in R.
  destruct l as [|x l]; [discriminate M|]. cbn [map] in M. assert (X : run s = inl x) by congruence.
  assert (G : easy run c pdb debug true (s :: sims) pm = (tr, inl (Manager x))).
  { unfold easy, easy_body, main. rewrite V, C. cbn [negb]. cbv zeta. rewrite R. reflexivity. }
  split; [exists (Manager x); split; [exact G|exact X]|]. unfold with_easy. rewrite G. reflexivity.
Qed.
Print Assumptions C204_easy_partial.
Example C204_case : let run := fun s : nat => if Nat.eqb s 9 then inr (ESim 1) else inl [10 * s; 10 * s + 1] in
  easy run (Cli false false false false) false true true [3; 4] false = ([SRun 3; SRun 4; STrace], inl (Manager [30; 31])) /\
  with_easy run (Cli false false false false) false false true [3; 4] false (fun _ => None) = ([SRun 3; SRun 4], Some ETypeError) /\
  with_easy run (Cli false false false false) false false true [3; 9] false (fun _ => None) = ([SRun 3; SRun 9], Some (ESim 1)).
Proof. vm_compute. auto. Qed.

(** C205.  [pdb=True] does not open the debugger when a simulation fails, neither in [main] nor in [easy]. *)
Theorem C205_pdb_refuted : ~ (forall (run : nat -> list nat + exc) c s e, cl_version c = false -> cl_convert c = false -> run s = inr e ->
  In SPostMortem (fst (fst (main run c true false true [s] false)))).
Proof. intros H. destruct (H (fun _ => inr (ESim 0)) (Cli false false false false) 0 (ESim 0) eq_refl eq_refl eq_refl) as [X|[]]. discriminate X. Qed.
Print Assumptions C205_pdb_refuted.
Theorem C205_pdb_easy_refuted : ~ (forall (run : nat -> list nat + exc) c s e, cl_version c = false -> cl_convert c = false -> run s = inr e ->
  In SPostMortem (fst (easy run c true false true [s] false))).
Proof. intros H. destruct (H (fun _ => inr (ESim 0)) (Cli false false false false) 0 (ESim 0) eq_refl eq_refl eq_refl) as [X|[]]. discriminate X. Qed.
Print Assumptions C205_pdb_easy_refuted.
(** The option --pdb of the command line does: the debugger is opened once, at the first simulation that fails; the others are not run, the exception is
    not raised, and the results of those before are returned.  Without it the exception is raised. *)
Theorem C205_pdb_partial : forall E (run : nat -> list E + exc) c pdb debug pre s post e pm, cl_version c = false -> cl_convert c = false ->
  (forall s', In s' pre -> exists x, run s' = inl x) -> run s = inr e ->
  exists l, map inl l = map run pre /\
  main run c pdb debug true (pre ++ s :: post) pm =
    (map SRun (pre ++ [s]) ++ (if cl_pdb c then [SPostMortem] ++ (if debug || cl_debug c then [STrace] else []) else []),
     pm || cl_pdb c || (debug || cl_debug c), if cl_pdb c then inl (Some l) else inr e).
Proof.
  intros E run c pdb debug pre s post e pm V C H R. destruct (run_sims_fails run pre s post e [] H R) as (l & X & M). exists l. split; [exact M|].
  unfold main. rewrite V, C. cbn [negb]. cbv zeta. rewrite X. cbn [app]. destruct (cl_pdb c); [reflexivity|]. now rewrite app_nil_r.
Qed.
Print Assumptions C205_pdb_partial.
(** With [easy] the debugger is opened again, for an IndexError that hides the exception, if the first simulation fails. *)
Theorem C205_easy_hides : forall E (run : nat -> list E + exc) c pdb s post e pm, cl_version c = false -> cl_convert c = false -> cl_debug c = false -> run s = inr e ->
  easy run c pdb false true (s :: post) pm =
    (SRun s :: (if cl_pdb c then [SPostMortem; SPostMortem] else if pm then [SPostMortem] else []), inr (if cl_pdb c then EIndexError else e)).
Proof.
  intros E run c pdb s post e pm V C D R. unfold easy, easy_body, main. rewrite V, C, D. cbn [negb orb run_sims]. rewrite R. cbv zeta.
  destruct (cl_pdb c); cbn; [rewrite orb_true_r; reflexivity|]. rewrite !orb_false_r. destruct pm; reflexivity.
Qed.
Print Assumptions C205_easy_hides.
Example C205_case : let run := fun s : nat => if Nat.eqb s 9 then inr (ESim 1) else inl [s] in
  main run (Cli true false false false) false false true [3; 9; 4] false = ([SRun 3; SRun 9; SPostMortem], true, inl (Some [[3]])) /\
  main run (Cli false false false false) true false true [3; 9; 4] false = ([SRun 3; SRun 9], false, inr (ESim 1)).
Proof. vm_compute. auto. Qed.

(** C206.  [timer] logs the start, what the block logs, the end and the seconds between them, and gives the object both times. *)
Theorem C206_timer : forall A clock to_object (block : Z -> tworld -> tworld * (A + exc)) w wb a,
  block (clock (tw_reads w)) (TWorld (tw_log w ++ [TStarted (clock (tw_reads w))]) (tw_obj w) (S (tw_reads w))) = (wb, inl a) ->
  let start := clock (tw_reads w) in let end_ := clock (tw_reads wb) in
  with_timer clock to_object block w =
    (TWorld (tw_log wb ++ [TFinished end_ (end_ - start)]) (if to_object then Some (start, end_) else tw_obj wb) (S (tw_reads wb)), inl a).
Proof. intros A clock to_object block w wb a H start end_. unfold with_timer, tread, tlog. cbn. rewrite H. destruct to_object; reflexivity. Qed.
Print Assumptions C206_timer.
(** C206.  If the block raises, the end is not logged and the object not changed: the exception goes through. *)
Theorem C206_timer_fails_refuted : ~ (forall clock to_object (block : Z -> tworld -> tworld * (unit + exc)) w,
  exists t s, In (TFinished t s) (tw_log (fst (with_timer clock to_object block w)))).
Proof. intros H. destruct (H (fun _ => 0%Z) false (fun _ w => (w, inr ETypeError)) (TWorld [] None 0)) as (t & s & [X|[]]). discriminate X. Qed.
Print Assumptions C206_timer_fails_refuted.
Theorem C206_timer_fails_partial : forall A clock to_object (block : Z -> tworld -> tworld * (A + exc)) w wb e,
  block (clock (tw_reads w)) (TWorld (tw_log w ++ [TStarted (clock (tw_reads w))]) (tw_obj w) (S (tw_reads w))) = (wb, inr e) ->
  with_timer clock to_object block w = (wb, inr e).
Proof. intros A clock to_object block w wb e H. unfold with_timer, tread, tlog. cbn. now rewrite H. Qed.
Print Assumptions C206_timer_fails_partial.
Example C206_case : with_timer (fun i => Z.of_nat (i * i) + 5)%Z true (fun _ w => (TWorld (tw_log w ++ [TOther 1]) (tw_obj w) (2 + tw_reads w), inl 8)) (TWorld [] None 1) =
  (TWorld [TStarted 6; TOther 1; TFinished 21 15] (Some (6, 21)%Z) 5, inl 8).
Proof. vm_compute. reflexivity. Qed.

(** C207.  What a dry run would write is shown in full when the file is closed, text as it is; each write is also copied with the name of the file. *)
Theorem C207_dry_run : forall encode decode repr, (forall s, decode (encode s) = Some s) -> encode "" = [] -> (forall a b, encode (a ++ b)%string = encode a ++ encode b) ->
  forall fname copy texts, let d := dry_run encode decode repr fname copy (map DText texts) in
  dy_logged d = [("**Not** written to " ++ fname ++ " (no_dump mode): " ++ String.concat "" texts)%string] /\
  dy_copied d = (if copy then map (fun t => (fname ++ ":::" ++ t)%string) texts else []).
Proof.
  intros encode decode repr D0 E0 E1 fname copy texts d. unfold d. rewrite dry_run_shows. cbn [dy_logged dy_copied]. split.
  - assert (X : flat_map (bytes encode) (map DText texts) = encode (String.concat "" texts)).
    { induction texts as [|t texts IH]; [cbn; now rewrite E0|]. cbn [map flat_map bytes]. rewrite IH. destruct texts as [|t' texts]; [cbn [String.concat]; change (String.concat "" []) with ""; now rewrite E0, app_nil_r|].
      cbn [String.concat]. rewrite E1. reflexivity. }
    now rewrite X, D0.
  - destruct copy; [|reflexivity]. now rewrite map_map.
Qed.
Print Assumptions C207_dry_run.
(** Any mixture of text and bytes: the bytes in order, if they are text. *)
Theorem C207_dry_run_bytes : forall encode decode repr fname copy l, let d := dry_run encode decode repr fname copy l in
  dy_logged d = [("**Not** written to " ++ fname ++ " (no_dump mode): " ++
    match decode (flat_map (fun t => match t with DText s => encode s | DBytes b => b end) l) with Some s => s | None => "(binary data not shown)" end)%string] /\
  List.length (dy_copied d) = (if copy then List.length l else 0).
Proof.
  intros encode decode repr fname copy l d. unfold d. rewrite dry_run_shows. cbn [dy_logged dy_copied]. split; [reflexivity|].
  destruct copy; [now rewrite map_length|reflexivity].
Qed.
Print Assumptions C207_dry_run_bytes.
Example C207_case : let d := dry_run ascii_encode ascii_decode (fun _ => "b''") "a.csv" true [DText "x,"; DBytes [121; 10]] in
  dy_logged d = [String.append "**Not** written to a.csv (no_dump mode): x,y" (String (Ascii.ascii_of_nat 10) "")] /\ dy_copied d = ["a.csv:::x,"; "a.csv:::b''"] /\
  dy_logged (dry_run ascii_encode ascii_decode (fun _ => "b''") "a.bin" false [DBytes [200]]) = ["**Not** written to a.bin (no_dump mode): (binary data not shown)"].
Proof. vm_compute. auto. Qed.

(** C208.  It is not quite a file: closing it twice raises, and [write] does not return the number of bytes. *)
Theorem C208_close_twice_refuted : ~ (forall encode decode repr fname copy l, snd (dry_close decode fname (dry_run encode decode repr fname copy l)) = inl tt).
Proof. intros H. specialize (H ascii_encode ascii_decode (fun _ => "") "f" false []). discriminate H. Qed.
Print Assumptions C208_close_twice_refuted.
Theorem C208_write_returns_refuted : ~ (forall encode repr fname copy b d, dy_content d <> None ->
  snd (dry_write encode repr fname copy (DBytes b) d) = inl (Some (List.length b))).
Proof. intros H. specialize (H ascii_encode (fun _ => "") "f" false [1] new_dry ltac:(discriminate)). discriminate H. Qed.
Print Assumptions C208_write_returns_refuted.
(** Once it is closed, all further calls raise, and nothing more is logged; before, none does. *)
Theorem C208_like_a_file_partial : forall encode decode repr fname copy l t, let d := dry_writes encode repr fname copy l new_dry in
  (exists d', dry_write encode repr fname copy t d = (d', inl None)) /\ (exists d', dry_close decode fname d = (d', inl tt) /\
    dry_close decode fname d' = (d', inr EValueError) /\ snd (dry_write encode repr fname copy t d') = inr EValueError /\
    dy_logged (fst (dry_write encode repr fname copy t d')) = dy_logged d').
Proof.
  intros encode decode repr fname copy l t d. unfold d, new_dry. rewrite dry_writes_open. split; eexists; [reflexivity|]. split; [reflexivity|]. auto.
Qed.
Print Assumptions C208_like_a_file_partial.

(** C209.  [@default_state] below [@state] has no effect. *)
Theorem C209_default_state_refuted : ~ (forall (f dead : nat) name e s, state_decorator None false (default_decorator (DFun f name false)) = Some e -> in_body e = Some s ->
  fsm_init (fsm_with dead [e]) PNone = Some (Some s)).
Proof. intros H. specialize (H 1 0 "idle" _ _ eq_refl eq_refl). discriminate H. Qed.
Print Assumptions C209_default_state_refuted.
(** For all functions: agents of such a class cannot be made, if no other state is the default. *)
Theorem C209_no_default : forall F (f dead : F) name given e pre post, name <> "dead" -> match given with Some n => n <> "dead" | None => True end ->
  state_decorator given false (default_decorator (DFun f name false)) = Some e ->
  (forall x, In x (pre ++ post) -> match x with DState s => st_default s = false | _ => True end) ->
  fsm_init (fsm_with dead (pre ++ e :: post)) PNone = None.
Proof.
  intros F f dead name given e pre post N1 N2 E H. cbn in E. injection E as <-. unfold fsm_init.
  assert (U : snd (meta (fsm_with dead (pre ++ DState (State f match given with Some x => if (x =? "")%string then name else x | None => name end false) :: post))) = None).
  { apply unmarked. intros x I. apply in_app_iff in I as [I|[<-|I]]; [apply H, in_app_iff; now left|reflexivity|apply H, in_app_iff; now right]. }
  set (nm := match given with Some x => if (x =? "")%string then name else x | None => name end) in *.
  assert (NM : nm <> "dead"). { unfold nm. destruct given as [x|]; [|exact N1]. destruct (String.eqb_spec x ""); [exact N1|exact N2]. }
  set (c := fsm_with dead _) in *.
  assert (K1 : dget "dead" (fst (meta c)) <> None /\ dget nm (fst (meta c)) <> None).
  { unfold c, fsm_with. cbn [meta fsm_class fst fold_left]. rewrite map_app. cbn [map in_body].
    assert (G : forall own acc k, dget k (fst acc) <> None -> dget k (fst (fold_left (fun acc o => match o with Some st => add_state acc st | None => acc end) own acc)) <> (None : option (state F))).
    { induction own as [|[st|] own IH]; intros acc k A; cbn [fold_left]; [exact A| |now apply IH]. apply IH. unfold add_state. cbn [fst]. rewrite dget_set.
      destruct (eqb k (st_name st)); [discriminate|exact A]. }
    split; [apply G; cbn; discriminate|]. rewrite fold_left_app. cbn [fold_left]. apply G. unfold add_state. cbn [fst st_name]. rewrite dget_set_same. discriminate. }
  destruct (meta c) as [st d]. cbn [fst snd] in *. subst d. cbn [set_state].
  assert (L : 1 < List.length st).
  { destruct K1 as [A B]. destruct st as [|[k v] [|[k' v'] st]]; cbn [List.length]; [cbn in A; congruence| |lia]. clearbody nm.
    exfalso. rewrite dget_none in A, B. cbn in A, B. destruct (string_dec "dead" k) as [<-|]; [|apply A; intuition congruence].
    apply B. intros [X|[]]. congruence. }
  apply Nat.ltb_lt in L. rewrite L. reflexivity.
Qed.
Print Assumptions C209_no_default.
(** Above [@state], with or without a name, it does; so does [default=True]. *)
Theorem C209_default_state_partial : forall F (f dead : F) name given marked_ pre post e,
  option_map default_decorator (state_decorator given marked_ (DFun f name false)) = Some e \/ state_decorator given true (DFun f name marked_) = Some e ->
  (forall x, In x (pre ++ post) -> match x with DState s => st_default s = false | _ => True end) ->
  exists s, in_body e = Some s /\ st_fun s = f /\ (given = None -> st_name s = name) /\ (forall n, given = Some n -> n <> "" -> st_name s = n) /\
    fsm_init (fsm_with dead (pre ++ e :: post)) PNone = Some (Some s).
Proof.
  intros F f dead name given mk pre post e E H.
  assert (X : e = DState (State f match given with Some x => if (x =? "")%string then name else x | None => name end true)) by (destruct E as [E|E]; cbn in E; congruence).
  subst e. eexists. split; [reflexivity|]. split; [reflexivity|]. split; [intros ->; reflexivity|]. split.
  - intros n -> NE. cbn. destruct (String.eqb_spec n ""); [contradiction|reflexivity].
  - apply init_default. now apply marked.
Qed.
Print Assumptions C209_default_state_partial.
Example C209_case : fsm_init (fsm_with 0 [DState (State 1 "a" false); DState (State 2 "b" true); DFun 3 "helper" false]) PNone = Some (Some (State 2 "b" true)) /\
  fsm_init (fsm_with 0 [DState (State 1 "a" false); DState (State 2 "b" false)]) PNone = None.
Proof. vm_compute. auto. Qed.
