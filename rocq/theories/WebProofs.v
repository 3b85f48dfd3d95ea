(** Proofs for WebProps.v. *)
From Coq Require Import ZArith List Bool Arith String Lia.
From Verif Require Import PyDict WebModel.
Import ListNotations.
Local Open Scope string_scope.
Local Open Scope list_scope.

Lemma ddel_other {V} (k k' : string) (d : dict string V) : k' <> k -> In k' (dkeys d) -> In k' (dkeys (ddel k d)).
Proof.
  intros N. induction d as [|[j v] d IH]; cbn; [auto|]. destruct (eqb k j) eqn:E.
  - apply eqb_eq in E. subst j. intros [X|X]; [congruence|]. try (now apply IH); exact X.
  - cbn. intros [X|X]; auto.
Qed.

Section Handler.
Context {V T G : Type}.
Notation config := (dict string V).
Context (kind : V -> vkind) (text : V -> option string) (items : V -> option config) (of_text : string -> V) (of_bool : bool -> V).
Context (load_all : string -> option (list (option config))).
Context (join : string -> string -> string) (simulate : config -> option (list T)) (trial_name : T -> string) (history_to_graph : T -> option G).
Context (outdir : string) (dump : bool).
Notation handle := (handle kind text items of_text of_bool load_all join simulate trial_name history_to_graph outdir dump).
Notation session := (session kind text items of_text of_bool load_all join simulate trial_name history_to_graph outdir dump).
Notation on_message := (on_message kind text items of_text of_bool load_all join history_to_graph outdir dump).

(** While the connection is open, no simulation has succeeded, and none of those that are running can. *)
Definition doomed (c : config) : Prop := In "environment_params" (dkeys c).
Definition inv (h : handler V T) : Prop := h_open h = true -> h_trials h = None /\ forall c, In c (h_runs h) -> doomed c.
Definition barren (o : sent V G) : Prop := match o with STrials _ | SGraph _ _ => False | _ => True end.

Lemma inv_closed h : h_open h = false -> inv h.
Proof. unfold inv. congruence. Qed.
Lemma run_doomed c : doomed c -> run_config simulate c = None.
Proof.
  unfold doomed, run_config. intros I. destruct (forallb _ (dkeys c)) eqn:E; [|reflexivity].
  rewrite forallb_forall in E. specialize (E _ I). discriminate.
Qed.
Lemma started_doomed c name : doomed c ->
  doomed (dset "dump" (of_bool dump) (dset "outdir" (of_text (join outdir name)) (ddel "visualization_params" c))).
Proof.
  unfold doomed. intros I. apply in_dkeys_set. right. apply in_dkeys_set. right. apply ddel_other; [discriminate|exact I].
Qed.
Lemma run_simulation_inv c name h : doomed c -> inv h -> inv (run_simulation of_text of_bool join outdir dump c name h).
Proof.
  intros D I O. cbn in O. destruct (I O) as [A B]. cbn. split; auto. intros x X. apply in_app_iff in X as [X|[<-|[]]]; auto.
  now apply started_doomed.
Qed.
Lemma send_graph_inv type_ i h h' out : inv h -> h_open h = true -> send_graph history_to_graph type_ i h = (h', out) ->
  h_open h' = false /\ out = [].
Proof.
  intros I O. destruct (I O) as [A _]. unfold send_graph, graph_of. rewrite A. destruct i; intros E; injection E as <- <-; auto.
Qed.
Lemma dget_doomed (c : config) v : dget "environment_params" c = Some v -> doomed c.
Proof. intros E. unfold doomed. apply (dget_in "environment_params" v c) in E. apply in_map_iff. now exists ("environment_params", v). Qed.
Lemma on_message_inv m h h' out : inv h -> h_open h = true -> on_message m h = (h', out) -> inv h' /\ Forall barren out.
Proof.
  intros I O E. destruct m as [data|i|data|i|i| |]; cbn [WebModel.on_message] in E.
  - destruct (load_all data) as [[|[c|] [|d docs]]|].
    + injection E as <- <-. split; [now apply inv_closed|constructor].
    + unfold use_config in E. destruct (dget "name" c) as [v|]; [|injection E as <- <-; split; [now apply inv_closed|constructor]].
      destruct (text v) as [name|]; [|injection E as <- <-; split; [now apply inv_closed|constructor]].
      set (vis := match dget "visualization_params" c with Some p => [SVisualization p] | None => [] end) in *.
      assert (BV : Forall barren (SLog ("INFO." ++ name) ("Using config: " ++ name) :: vis : list (sent V G))).
      { constructor; [exact Logic.I|]. unfold vis. destruct (dget "visualization_params" c); repeat constructor. }
      destruct (dget "environment_params" c) as [p|] eqn:EP; [|injection E as <- <-; split; [now apply inv_closed|exact BV]].
      destruct (items p) as [ps|]; [|injection E as <- <-; split; [now apply inv_closed|exact BV]].
      injection E as <- <-. split; [|change (Forall barren ((SLog ("INFO." ++ name) ("Using config: " ++ name) :: vis) ++ [SSettings (map (fun kv => (fst kv, setting_type kind (snd kv), snd kv)) ps)])); apply Forall_app; split; [exact BV|repeat constructor]].
      apply run_simulation_inv; [now apply (dget_doomed c p)|]. exact I.
    + injection E as <- <-. split; [exact I|repeat constructor].
    + injection E as <- <-. split; [now apply inv_closed|constructor].
    + injection E as <- <-. split; [exact I|repeat constructor].
    + injection E as <- <-. split; [now apply inv_closed|constructor].
  - destruct (send_graph history_to_graph "get_trial" i h) as [h1 o1] eqn:S. injection E as <- <-.
    destruct (send_graph_inv _ _ _ _ _ I O S) as [A ->]. split; [now apply inv_closed|repeat constructor].
  - unfold rerun in E. destruct (h_config h) as [c|]; [|injection E as <- <-; split; [now apply inv_closed|constructor]].
    destruct (dget "name" c) as [v|]; [|injection E as <- <-; split; [now apply inv_closed|constructor]].
    destruct (text v) as [name|]; [|injection E as <- <-; split; [now apply inv_closed|constructor]].
    injection E as <- <-. split; [|repeat constructor]. apply run_simulation_inv; auto. unfold doomed. apply in_dkeys_set. auto.
  - destruct (send_graph_inv _ _ _ _ _ I O E) as [A ->]. split; [now apply inv_closed|constructor].
  - destruct (send_graph_inv _ _ _ _ _ I O E) as [A ->]. split; [now apply inv_closed|constructor].
  - injection E as <- <-. split; [exact I|constructor].
  - injection E as <- <-. split; [now apply inv_closed|constructor].
Qed.
Lemma finish_inv i h h' out : inv h -> finish text simulate trial_name i h = (h', out) ->
  inv h' /\ Forall barren out /\ h_open h' = h_open h /\
  (h_open h = true -> i < List.length (h_runs h) -> In SWrong out).
Proof.
  intros I E. unfold finish in E. destruct (nth_error (h_runs h) i) as [c|] eqn:N.
  2:{ injection E as <- <-. split; [exact I|]. split; [constructor|]. split; [reflexivity|]. intros _ L. apply nth_error_None in N. lia. }
  destruct (h_open h) eqn:O.
  - destruct (I O) as [A B]. rewrite (run_doomed c) in E by (apply B; eapply nth_error_In; eauto). injection E as <- <-.
    split.
    { intros _. cbn. split; [exact A|]. intros x X. apply B. apply in_app_iff in X as [X|X].
      - rewrite <- (firstn_skipn i (h_runs h)). apply in_app_iff. now left.
      - rewrite <- (firstn_skipn (S i) (h_runs h)). apply in_app_iff. now right. }
    split; [|split; [reflexivity|intros _ _; now left]].
    constructor; [exact Logic.I|]. destruct (h_config h) as [c'|]; [|constructor]. destruct (dget "name" c') as [v|]; [|repeat constructor].
    destruct (text v); repeat constructor.
  - destruct (run_config simulate c) as [ts|]; injection E as <- <-; (split; [now apply inv_closed|split; [constructor|split; [reflexivity|discriminate]]]).
Qed.
Lemma handle_inv e h h' out : inv h -> handle e h = (h', out) -> inv h' /\ Forall barren out.
Proof.
  intros I E. destruct e as [m|i]; cbn [WebModel.handle] in E.
  - destruct (h_open h) eqn:O; [now apply (on_message_inv m h h' out)|]. injection E as <- <-. split; [exact I|constructor].
  - destruct (finish_inv i h h' out I E) as (A & B & _). auto.
Qed.
Lemma session_inv es : forall h h' out, inv h -> session es h = (h', out) -> inv h' /\ Forall barren out.
Proof.
  induction es as [|e es IH]; intros h h' out I E; cbn [WebModel.session] in E.
  - injection E as <- <-. split; [exact I|constructor].
  - destruct (handle e h) as [h1 o1] eqn:E1. destruct (session es h1) as [h2 o2] eqn:E2. injection E as <- <-.
    destruct (handle_inv e h h1 o1 I E1) as [I1 B1]. destruct (IH _ _ _ I1 E2) as [I2 B2]. split; [exact I2|]. apply Forall_app. auto.
Qed.
Lemma inv_opened : inv (opened : handler V T).
Proof. intros _. split; [reflexivity|intros c []]. Qed.
End Handler.
