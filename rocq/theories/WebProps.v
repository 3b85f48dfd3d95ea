(** C217 to C221: the web interface (soil/web/__init__.py). *)
From Coq Require Import ZArith List Bool Arith String Lia.
From Verif Require Import PyDict WebModel WebProofs.
Import ListNotations.
Local Open Scope string_scope.
Local Open Scope list_scope.

(** Values for the examples: integers, booleans, texts and dictionaries. *)
Inductive yv := YInt (z : Z) | YBool (b : bool) | YText (s : string) | YDict (d : list (string * yv)).
Definition y_kind (v : yv) : vkind := match v with YInt z => KNumber (z <=? 1)%Z | YBool _ => KBool | _ => KOther end.
Definition y_text (v : yv) : option string := match v with YText s => Some s | _ => None end.
Definition y_items (v : yv) : option (dict string yv) := match v with YDict d => Some d | _ => None end.
(** Three files. *)
Definition good : dict string yv :=
  [("name", YText "demo"); ("max_time", YInt 50); ("visualization_params", YText "colours");
   ("environment_params", YDict [("prob", YInt 0); ("size", YInt 7); ("debug", YBool true); ("who", YText "me")])].
Definition plain : dict string yv := [("name", YText "demo"); ("max_time", YInt 50)].
Definition y_load (s : string) : option (list (option (dict string yv))) :=
  if String.eqb s "good" then Some [Some good] else if String.eqb s "plain" then Some [Some plain]
  else if String.eqb s "two" then Some [Some good; Some plain] else None.
(** All simulations that can be created succeed, with two trials that have graphs. *)
Definition y_session := session (G := string) y_kind y_text y_items YText YBool y_load (fun a b => a ++ "/" ++ b)%string
  (fun _ => Some [1; 2]) (fun t => if Nat.eqb t 1 then "one" else "two") (fun t => Some "graph") "output" false.

(** * C217: a configuration is run and the names of the trials are sent *)
(** C217 is false, for every configuration and every sequence of messages: the names of trials are never sent.  A configuration without
    environment_params closes the connection; with them, and after each run_simulation, Simulation refuses the field. *)
Theorem C217_no_trials_refuted : forall V T G kind text items of_text of_bool load_all join simulate trial_name history_to_graph outdir dump
    (es : list (event V)) names,
  ~ In (STrials names) (snd (session (T := T) (G := G) kind text items of_text of_bool load_all join simulate trial_name history_to_graph
                          outdir dump es opened)).
Proof.
  intros V T G kind text items of_text of_bool load_all join simulate trial_name history_to_graph outdir dump es names.
  destruct (session kind text items of_text of_bool load_all join simulate trial_name history_to_graph outdir dump es opened) as [h out] eqn:E.
  destruct (session_inv _ _ _ _ _ _ _ _ _ _ _ _ es opened h out inv_opened E) as [_ B]. cbn [snd]. intros I.
  rewrite Forall_forall in B. exact (B _ I).
Qed.
Print Assumptions C217_no_trials_refuted.
(** What happens instead: on an open connection each simulation that ends is reported as an error. *)
Theorem C217_always_wrong_refuted : forall V T G kind text items of_text of_bool load_all join simulate trial_name history_to_graph outdir dump
    (es : list (event V)) i,
  let h := fst (session (T := T) (G := G) kind text items of_text of_bool load_all join simulate trial_name history_to_graph outdir dump es opened) in
  h_open h = true -> i < List.length (h_runs h) ->
  In SWrong (snd (handle (G := G) kind text items of_text of_bool load_all join simulate trial_name history_to_graph outdir dump (Finish i) h)).
Proof.
  intros V T G kind text items of_text of_bool load_all join simulate trial_name history_to_graph outdir dump es i.
  destruct (session kind text items of_text of_bool load_all join simulate trial_name history_to_graph outdir dump es opened) as [h out] eqn:E.
  destruct (session_inv _ _ _ _ _ _ _ _ _ _ _ _ es opened h out inv_opened E) as [I _]. cbn [fst]. intros O L.
  cbn [handle]. destruct (finish text simulate trial_name i h) as [h' o'] eqn:F.
  destruct (finish_inv (G := G) text simulate trial_name i h h' o' I F) as (_ & _ & _ & W). auto.
Qed.
Print Assumptions C217_always_wrong_refuted.
(** C217, what holds: a simulation is started with the fields of the configuration (but for visualization_params), and the output directory
    and the option dump of the application. *)
Theorem C217_started_partial : forall V T G kind text items of_text of_bool load_all join simulate trial_name history_to_graph outdir dump
    (h : handler V T) data c name v,
  load_all data = Some [Some c] -> dwf c -> dget "name" c = Some v -> text v = Some name -> h_open h = true ->
  exists c', h_runs (fst (handle (G := G) kind text items of_text of_bool load_all join simulate trial_name history_to_graph outdir dump
                           (Message (MConfig data)) h)) = h_runs h ++ [c'] /\
    dget "outdir" c' = Some (of_text (join outdir name)) /\ dget "dump" c' = Some (of_bool dump) /\ dget "visualization_params" c' = None /\
    forall k, k <> "outdir" -> k <> "dump" -> k <> "visualization_params" -> dget k c' = dget k c.
Proof.
  intros V T G kind text items of_text of_bool load_all join simulate trial_name history_to_graph outdir dump h data c name v L W N X O.
  exists (dset "dump" (of_bool dump) (dset "outdir" (of_text (join outdir name)) (ddel "visualization_params" c))). split.
  - cbn [handle]. rewrite O. cbn [on_message]. rewrite L. unfold use_config. rewrite N, X.
    destruct (dget "environment_params" c) as [p|]; [|reflexivity]. destruct (items p); reflexivity.
  - split; [rewrite dget_set_other by discriminate; apply dget_set_same|]. split; [apply dget_set_same|]. split.
    + rewrite !dget_set_other by discriminate. rewrite dget_del by exact W. reflexivity.
    + intros k A B D. rewrite !dget_set_other by auto. rewrite dget_del by exact W.
      destruct (eqb k "visualization_params") eqn:E; [|reflexivity]. apply eqb_eq in E. congruence.
Qed.
Print Assumptions C217_started_partial.
(** ... and run_simulation starts another one, with the environment_params of the message instead. *)
Theorem C217_started_again_partial : forall V T G kind text items of_text of_bool load_all join simulate trial_name history_to_graph outdir dump
    (h : handler V T) data c name v,
  h_config h = Some c -> dwf c -> dget "name" c = Some v -> text v = Some name -> h_open h = true ->
  exists c', h_runs (fst (handle (G := G) kind text items of_text of_bool load_all join simulate trial_name history_to_graph outdir dump
                           (Message (MRun data)) h)) = h_runs h ++ [c'] /\
    dget "environment_params" c' = Some data /\ dget "name" c' = Some v /\
    forall k, k <> "outdir" -> k <> "dump" -> k <> "visualization_params" -> k <> "environment_params" -> dget k c' = dget k c.
Proof.
  intros V T G kind text items of_text of_bool load_all join simulate trial_name history_to_graph outdir dump h data c name v C W N X O.
  exists (dset "dump" (of_bool dump) (dset "outdir" (of_text (join outdir name))
    (ddel "visualization_params" (dset "environment_params" data c)))). split.
  - cbn [handle]. rewrite O. cbn [on_message]. unfold rerun. rewrite C, N, X. reflexivity.
  - assert (W' : dwf (dset "environment_params" data c)) by now apply dset_wf.
    assert (H : forall k, k <> "outdir" -> k <> "dump" -> k <> "visualization_params" ->
      dget k (dset "dump" (of_bool dump) (dset "outdir" (of_text (join outdir name)) (ddel "visualization_params" (dset "environment_params" data c))))
      = dget k (dset "environment_params" data c)).
    { intros k A B D. rewrite !(dget_set_other k) by auto. rewrite dget_del by exact W'.
      destruct (eqb k "visualization_params") eqn:E; [|reflexivity]. apply eqb_eq in E. congruence. }
    split; [rewrite H by discriminate; apply dget_set_same|]. split; [rewrite H by discriminate; rewrite dget_set_other by discriminate; exact N|].
    intros k A B D F. rewrite H by auto. now apply dget_set_other.
Qed.
Print Assumptions C217_started_again_partial.
(** C217, what the end of a run does, if one were started with fields that a simulation has: the names of the trials are sent, they are
    kept for later requests, and the other runs go on; if the simulation fails, or some field is not one of a simulation, the client is
    told that something went wrong, in the log of the simulation too, and the trials that were there stay. *)
Theorem C217_end_partial : forall V T G kind text items of_text of_bool load_all join simulate trial_name history_to_graph outdir dump (h : handler V T) before c after name v,
  h_open h = true -> h_runs h = before ++ c :: after -> (exists c0, h_config h = Some c0 /\ dget "name" c0 = Some v) -> text v = Some name ->
  let '(h', out) := handle (G := G) kind text items of_text of_bool load_all join simulate trial_name history_to_graph outdir dump
                      (Finish (List.length before)) h in
  h_runs h' = before ++ after /\ h_open h' = true /\ h_config h' = h_config h /\
  ((exists ts, (forall k, In k (dkeys c) -> In k simulation_fields) /\ simulate c = Some ts /\
      h_trials h' = Some ts /\ out = [STrials (map trial_name ts)]) \/
   (((exists k, In k (dkeys c) /\ ~ In k simulation_fields) \/ simulate c = None) /\
      h_trials h' = h_trials h /\ out = [SWrong; SLog ("ERROR." ++ name)%string "Something went wrong"])).
Proof.
  intros V T G kind text items of_text of_bool load_all join simulate trial_name history_to_graph outdir dump h before c after name v O R (c0 & C & N) X.
  cbn [handle]. unfold finish. rewrite R, nth_error_app2, Nat.sub_diag by lia. cbn [nth_error].
  assert (F : firstn (List.length before) (before ++ c :: after) = before).
  { rewrite firstn_app, Nat.sub_diag, firstn_all. apply app_nil_r. }
  assert (K : skipn (S (List.length before)) (before ++ c :: after) = after).
  { rewrite skipn_app, skipn_all2 by lia. now replace (S (List.length before) - List.length before) with 1 by lia. }
  rewrite F, K, O, C, N, X. unfold run_config.
  destruct (forallb (fun k => existsb (String.eqb k) simulation_fields) (dkeys c)) eqn:E.
  - rewrite forallb_forall in E. destruct (simulate c) as [ts|] eqn:Q; cbn [h_runs h_open h_config h_trials]; (split; [reflexivity|]);
      (split; [reflexivity|]); (split; [now symmetry|]).
    + left. exists ts. split; [|now repeat split]. intros k I. apply E in I. apply existsb_exists in I. destruct I as (k' & I & J).
      apply String.eqb_eq in J. now subst.
    + right. split; [now right|]. now split.
  - cbn [h_runs h_open h_config h_trials]. split; [reflexivity|]. split; [reflexivity|]. split; [now symmetry|]. right. split; [|now split].
    left. clear -E. induction (dkeys c) as [|k ks IH]; [discriminate|]. cbn [forallb] in E.
    destruct (existsb (String.eqb k) simulation_fields) eqn:B.
    + destruct IH as (k' & I & J); [exact E|]. exists k'. split; [now right|exact J].
    + exists k. split; [now left|]. intros I. assert (existsb (String.eqb k) simulation_fields = true); [|congruence].
      apply existsb_exists. exists k. split; [exact I|apply String.eqb_refl].
Qed.
Print Assumptions C217_end_partial.
(** C217, the order: what is sent is sent in the order of what happens. *)
Theorem C217_order_partial : forall V T G kind text items of_text of_bool load_all join simulate trial_name history_to_graph outdir dump (es es' : list (event V)) (h : handler V T),
  let run := session (G := G) kind text items of_text of_bool load_all join simulate trial_name history_to_graph outdir dump in
  run (es ++ es') h = (fst (run es' (fst (run es h))), snd (run es h) ++ snd (run es' (fst (run es h)))).
Proof.
  intros V T G kind text items of_text of_bool load_all join simulate trial_name history_to_graph outdir dump es. induction es as [|e es IH]; intros es' h; cbv zeta in *.
  - cbn [app session fst snd]. now destruct (session _ _ _ _ _ _ _ _ _ _ _ _ es' h).
  - cbn [app session]. destruct (handle _ _ _ _ _ _ _ _ _ _ _ _ e h) as [h1 o1]. rewrite IH.
    destruct (session _ _ _ _ _ _ _ _ _ _ _ _ es h1) as [h2 o2]. cbn [fst snd]. now rewrite app_assoc.
Qed.
Print Assumptions C217_order_partial.
Example C217_end_case :
  y_session [Finish 1; Finish 0] {| h_open := true; h_config := Some plain; h_trials := None; h_runs := [good; plain] |} =
  ({| h_open := true; h_config := Some plain; h_trials := Some [1; 2]; h_runs := [] |},
   [STrials ["one"; "two"]; SWrong; SLog "ERROR.demo" "Something went wrong"]).
Proof. reflexivity. Qed.
Example C217_case :
  let '(h, out) := y_session [Message (MConfig "good"); Finish 0; Message (MRun (YDict [("prob", YInt 1)])); Finish 0] opened in
  out = [SLog "INFO.demo" "Using config: demo"; SVisualization (YText "colours");
         SSettings [("prob", "number", YInt 0); ("size", "great_number", YInt 7); ("debug", "boolean", YBool true); ("who", "undefined", YText "me")];
         SWrong; SLog "ERROR.demo" "Something went wrong"; SLog "INFO.demo" "Running new simulation for demo";
         SWrong; SLog "ERROR.demo" "Something went wrong"] /\ h_open h = true /\
  (let '(h1, out1) := y_session [Message (MConfig "plain"); Finish 0] opened in
   out1 = [SLog "INFO.demo" "Using config: demo"] /\ h_open h1 = false /\ h_trials h1 = Some [1; 2]) /\
  (forall h2, h2 = fst (y_session [Message (MConfig "good")] opened) -> h_open h2 = true /\ List.length (h_runs h2) = 1).
Proof. vm_compute. repeat split; subst; reflexivity. Qed.

(** * C218: the settings are those of the configuration *)
(** C218: one setting for each of the environment_params, in order, with its value and a type: number up to 1, great_number above,
    boolean, or undefined.  Before it come the log and the visualization_params, if there are any. *)
Theorem C218_settings : forall V T G kind text items of_text of_bool load_all join simulate trial_name history_to_graph outdir dump
    (h : handler V T) data c name v p ps,
  load_all data = Some [Some c] -> dget "name" c = Some v -> text v = Some name ->
  dget "environment_params" c = Some p -> items p = Some ps -> h_open h = true ->
  exists settings,
  snd (handle (G := G) kind text items of_text of_bool load_all join simulate trial_name history_to_graph outdir dump (Message (MConfig data)) h) =
    SLog ("INFO." ++ name) ("Using config: " ++ name) ::
    match dget "visualization_params" c with Some w => [SVisualization w] | None => [] end ++ [SSettings settings] /\
  h_open (fst (handle (G := G) kind text items of_text of_bool load_all join simulate trial_name history_to_graph outdir dump (Message (MConfig data)) h)) = true /\
  map (fun s => (fst (fst s), snd s)) settings = ps /\
  (forall l t w, In (l, t, w) settings ->
     (kind w = KNumber true -> t = "number") /\ (kind w = KNumber false -> t = "great_number") /\
     (kind w = KBool -> t = "boolean") /\ (kind w = KOther -> t = "undefined")).
Proof.
  intros V T G kind text items of_text of_bool load_all join simulate trial_name history_to_graph outdir dump h data c name v p ps L N X E I O.
  exists (map (fun kv => (fst kv, setting_type kind (snd kv), snd kv)) ps).
  cbn [handle]. rewrite O. cbn [on_message]. rewrite L. unfold use_config. rewrite N, X, E, I. split; [reflexivity|]. split; [exact O|]. split.
  - rewrite map_map. cbn. rewrite <- (map_id ps) at 2. apply map_ext. now intros [a b].
  - intros l t w J. apply in_map_iff in J as ([a b] & J & _). cbn in J. injection J as <- <- <-. unfold setting_type.
    repeat split; intros K; now rewrite K.
Qed.
Print Assumptions C218_settings.
Example C218_case : y_load "good" = Some [Some good] /\ dget "environment_params" good <> None /\
  In (SSettings [("prob", "number", YInt 0); ("size", "great_number", YInt 7); ("debug", "boolean", YBool true); ("who", "undefined", YText "me")])
     (snd (y_session [Message (MConfig "good")] opened)).
Proof. vm_compute. repeat split; [discriminate|auto]. Qed.

(** * C219: requests for trials are answered *)
(** C219 is false: no graph is ever sent, even if trials could make one, and every request closes the connection. *)
Theorem C219_no_graph_refuted : forall V T G kind text items of_text of_bool load_all join simulate trial_name history_to_graph outdir dump
    (es : list (event V)),
  let '(h, out) := session (T := T) (G := G) kind text items of_text of_bool load_all join simulate trial_name history_to_graph outdir dump es opened in
  (forall type_ g, ~ In (SGraph type_ g) out) /\
  forall m, (exists i, m = MTrial i \/ m = MGexf i \/ m = MJson i) ->
    h_open (fst (handle (G := G) kind text items of_text of_bool load_all join simulate trial_name history_to_graph outdir dump (Message m) h)) = false.
Proof.
  intros V T G kind text items of_text of_bool load_all join simulate trial_name history_to_graph outdir dump es.
  destruct (session kind text items of_text of_bool load_all join simulate trial_name history_to_graph outdir dump es opened) as [h out] eqn:E.
  destruct (session_inv _ _ _ _ _ _ _ _ _ _ _ _ es opened h out inv_opened E) as [I B]. split.
  - intros type_ g J. rewrite Forall_forall in B. exact (B _ J).
  - intros m (i & M). cbn [handle]. destruct (h_open h) eqn:O; [|exact O].
    destruct M as [M|[M|M]]; subst m; cbn [on_message];
      match goal with |- context [send_graph history_to_graph ?t i h] => destruct (send_graph history_to_graph t i h) as [h1 o1] eqn:S end;
      destruct (send_graph_inv _ _ _ _ _ _ I O S) as [A _]; exact A.
Qed.
Print Assumptions C219_no_graph_refuted.
(** C219, what would hold of a trial with a graph: the answer has the type of the request and the graph, and the connection stays as
    it was; requests for other trials close it. *)
Theorem C219_graph_partial : forall V T G kind text items of_text of_bool load_all join simulate trial_name history_to_graph outdir dump (h : handler V T) ts i,
  h_open h = true -> h_trials h = Some ts ->
  (forall t g, nth_error ts i = Some t -> history_to_graph t = Some g ->
     handle (G := G) kind text items of_text of_bool load_all join simulate trial_name history_to_graph outdir dump (Message (MTrial (Some i))) h = (h, [SLog "INFO.soil.web" "Trial requested!"; SGraph "get_trial" g]) /\
     handle (G := G) kind text items of_text of_bool load_all join simulate trial_name history_to_graph outdir dump (Message (MGexf (Some i))) h = (h, [SGraph "download_gexf" g]) /\
     handle (G := G) kind text items of_text of_bool load_all join simulate trial_name history_to_graph outdir dump (Message (MJson (Some i))) h = (h, [SGraph "download_json" g])) /\
  (nth_error ts i = None -> forall m, In m [MTrial (Some i); MGexf (Some i); MJson (Some i)] ->
     let '(h', out) := handle (G := G) kind text items of_text of_bool load_all join simulate trial_name history_to_graph outdir dump (Message m) h in h_open h' = false /\ forall type_ g, ~ In (SGraph type_ g) out).
Proof.
  intros V T G kind text items of_text of_bool load_all join simulate trial_name history_to_graph outdir dump h ts i O Q. split.
  - intros t g N J. cbn [handle]. rewrite O. cbn [on_message]. unfold send_graph, graph_of. rewrite Q, N, J. now repeat split.
  - intros N m M. cbn [handle]. rewrite O. destruct M as [<-|[<-|[<-|[]]]]; cbn [on_message]; unfold send_graph, graph_of; rewrite Q, N;
      (split; [reflexivity|]); intros type_ g I; cbn in I; intuition discriminate.
Qed.
Print Assumptions C219_graph_partial.
Example C219_graph_case :
  y_session [Message (MGexf (Some 1)); Message (MTrial (Some 2)); Message (MJson (Some 0))]
    {| h_open := true; h_config := None; h_trials := Some [1; 2]; h_runs := [] |} =
  ({| h_open := false; h_config := None; h_trials := Some [1; 2]; h_runs := [] |},
   [SGraph "download_gexf" "graph"; SLog "INFO.soil.web" "Trial requested!"]).
Proof. reflexivity. Qed.
Example C219_case :
  let '(h, out) := y_session [Message (MConfig "good"); Message (MTrial (Some 0)); Message (MConfig "good")] opened in
  out = [SLog "INFO.demo" "Using config: demo"; SVisualization (YText "colours");
         SSettings [("prob", "number", YInt 0); ("size", "great_number", YInt 7); ("debug", "boolean", YBool true); ("who", "undefined", YText "me")];
         SLog "INFO.soil.web" "Trial requested!"] /\ h_open h = false.
Proof. vm_compute. auto. Qed.

(** * C220: what cannot be used is refused without effect *)
(** C220 is false: after a file with several configurations the former one is lost, and run_simulation closes the connection. *)
Theorem C220_lost_refuted : exists good two data,
  h_open (fst (y_session [Message (MConfig good); Message (MRun data)] opened)) = true /\
  let '(h, out) := y_session [Message (MConfig good); Message (MConfig two)] opened in
  h_open h = true /\ In (SError "Please, provide only one configuration.") out /\
  h_open (fst (y_session [Message (MRun data)] h)) = false.
Proof. exists "good", "two", (YDict []). vm_compute. intuition. Qed.
Print Assumptions C220_lost_refuted.
(** C220, what holds: several configurations are answered with an error and nothing is run; messages of unknown types are ignored. *)
Theorem C220_refused_partial : forall V T G kind text items of_text of_bool load_all join simulate trial_name history_to_graph outdir dump
    (h : handler V T), h_open h = true ->
  (forall data c1 c2 cs, load_all data = Some (c1 :: c2 :: cs) ->
     let '(h', out) := handle (G := G) kind text items of_text of_bool load_all join simulate trial_name history_to_graph outdir dump (Message (MConfig data)) h in
     out = [SError "Please, provide only one configuration."] /\ h_open h' = true /\ h_runs h' = h_runs h /\ h_trials h' = h_trials h) /\
  handle (G := G) kind text items of_text of_bool load_all join simulate trial_name history_to_graph outdir dump (Message MUnknown) h = (h, []).
Proof.
  intros V T G kind text items of_text of_bool load_all join simulate trial_name history_to_graph outdir dump h O. split.
  - intros data c1 c2 cs L. cbn [handle]. rewrite O. cbn [on_message]. rewrite L. destruct c1; repeat split; exact O.
  - cbn [handle]. now rewrite O.
Qed.
Print Assumptions C220_refused_partial.
Example C220_case : y_load "two" = Some [Some good; Some plain] /\
  snd (y_session [Message (MConfig "two"); Message MUnknown] opened) = [SError "Please, provide only one configuration."].
Proof. vm_compute. auto. Qed.

(** * C221: soil-web uses its options *)
(** C221 is false: it listens on port 8001 and does not dump, whatever the options are, and the name is a list. *)
Theorem C221_options_refuted : forall name dump port verbose,
  let '(a, p) := web_main name dump port verbose in
  p = 8001%Z /\ a_dump a = false /\ forall s, name = Some s -> a_name a <> Text s.
Proof. intros name dump port verbose. cbn. repeat split. intros s -> E. discriminate. Qed.
Print Assumptions C221_options_refuted.
(** C221, what holds: the option verbose, the default name, and the port and the options if the application is made by a program. *)
Theorem C221_options_partial : forall dump outdir name verbose port port',
  a_verbose (fst (web_main None dump port verbose)) = verbose /\ a_name (fst (web_main None dump port verbose)) = Text "SOIL" /\
  let a := modular_server dump outdir name verbose port' in
  a_dump a = dump /\ a_outdir a = outdir /\ a_name a = name /\ a_verbose a = verbose /\ forall p, launch a (Some p) = p.
Proof. repeat split. Qed.
Print Assumptions C221_options_partial.
Example C221_case : snd (web_main (Some "mine") true (Some 9000%Z) false) = 8001%Z /\
  a_name (fst (web_main (Some "mine") true (Some 9000%Z) false)) = Listed "mine".
Proof. split; reflexivity. Qed.
