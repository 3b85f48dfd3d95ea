(** C139 and C140: the data frames of a run. *)
From Coq Require Import List Bool Arith String Lia.
From Verif Require Import PyDict FramesModel.
Import ListNotations.
Local Open Scope string_scope.
Local Open Scope list_scope.

(** C139 is false if there is a table called "env": the variables of the model are nowhere. *)
Theorem C139_table_called_env_refuted : forall D (label : D -> D) dc t,
  dwf (tables dc) -> dget "env" (tables dc) = Some t ->
  dget "env" (get_dc_dfs label dc) = Some (label t) /\
  forall name f, In (name, f) (get_dc_dfs label dc) ->
  exists f0, f = label f0 /\ (agent_vars dc = Some f0 \/ exists n, dget n (tables dc) = Some f0).
Proof.
  intros D label dc t W T. unfold get_dc_dfs.
  set (dfs := match agent_vars dc with Some a => dset "agents" a [("env", model_vars dc)] | None => [("env", model_vars dc)] end).
  assert (WD : dwf dfs).
  { unfold dfs. destruct (agent_vars dc); [apply dset_wf|]; repeat constructor; easy. }
  assert (G : forall k d, dget k (map (fun kv => (fst kv, label (snd kv))) d) = option_map label (dget k d)).
  { intros k d. induction d as [|[a b] d IH]; cbn [map dget fst snd]; [reflexivity|]. now destruct (eqb k a). }
  assert (GET : forall k, dget k (dupdate dfs (tables dc)) = match dget k (tables dc) with Some v => Some v | None => dget k dfs end).
  { intros k. now rewrite dget_update_wf. }
  split; [now rewrite G, GET, T|].
  intros name f I. apply in_map_iff in I as ([n f0] & X & I). cbn [fst snd] in X. injection X as -> <-.
  exists f0. split; auto. apply dget_in_wf in I; [|now apply dupdate_wf]. rewrite GET in I.
  destruct (dget name (tables dc)) as [v|] eqn:TN; [right; exists name; congruence|]. left.
  unfold dfs in I. destruct (agent_vars dc) as [a|].
  - rewrite dget_set in I. destruct (eqb name "agents"); [congruence|]. cbn [dget] in I.
    destruct (eqb name "env") eqn:E; [|discriminate]. apply eqb_eq in E. congruence.
  - cbn [dget] in I. destruct (eqb name "env") eqn:E; [|discriminate]. apply eqb_eq in E. congruence.
Qed.
Print Assumptions C139_table_called_env_refuted.

(** C139 otherwise: the variables of the model, those of the agents if there are reporters, and the tables, each
    with the identifiers of the run. *)
Theorem C139_own_names_partial : forall D (label : D -> D) dc,
  dwf (tables dc) -> dget "env" (tables dc) = None -> dget "agents" (tables dc) = None ->
  get_dc_dfs label dc =
  ("env", label (model_vars dc)) ::
  match agent_vars dc with Some a => [("agents", label a)] | None => [] end ++
  map (fun kv => (fst kv, label (snd kv))) (tables dc).
Proof.
  intros D label dc W NE NA. unfold get_dc_dfs.
  assert (U : forall (e d : dict string D), dwf e -> (forall k, In k (dkeys d) -> ~ In k (dkeys e)) -> dupdate d e = d ++ e).
  { induction e as [|[k v] e IH]; intros d WE DJ; [now rewrite app_nil_r|]. rewrite dupdate_cons.
    assert (F : dhas k d = false).
    { destruct (dhas k d) eqn:H; auto. apply dhas_in in H. exfalso. apply (DJ k H). now left. }
    rewrite dset_fresh by auto. inversion WE; subst. rewrite IH; auto.
    - now rewrite <- app_assoc.
    - intros k' I I'. unfold dkeys in I. rewrite map_app in I. apply in_app_or in I as [I|I].
      + apply (DJ k' I). now right.
      + destruct I as [<-|[]]. auto. }
  apply dget_none in NE, NA.
  assert (K : forall k, k = "env" \/ k = "agents" -> ~ In k (dkeys (tables dc))) by (intros k [-> | ->]; auto).
  destruct (agent_vars dc) as [a|].
  - change (dset "agents" a [("env", model_vars dc)]) with [("env", model_vars dc); ("agents", a)].
    rewrite U by (auto; intros k I; apply K; destruct I as [<-|[<-|[]]]; auto). now rewrite map_app.
  - rewrite U by (auto; intros k I; apply K; destruct I as [<-|[]]; auto). now rewrite map_app.
Qed.
Print Assumptions C139_own_names_partial.
Example C139_case :
  get_dc_dfs (fun f => f ++ [0]) (Collector [1] (Some [2]) [("prices", [3]); ("env", [4])]) =
    [("env", [4; 0]); ("agents", [2; 0]); ("prices", [3; 0])] /\
  get_dc_dfs (fun f => f ++ [0]) (Collector [1] (Some [2]) [("prices", [3])]) =
    [("env", [1; 0]); ("agents", [2; 0]); ("prices", [3; 0])].
Proof. vm_compute. auto. Qed.

(** * C140 *)

Lemma to_sql_get {D} t (f : D) b k : dget k (to_sql t f b) =
  if String.eqb k t then Some (match dget t b with Some l => l ++ [f] | None => [f] end) else dget k b.
Proof. unfold to_sql. rewrite dget_set. reflexivity. Qed.

(** Frames under other names do not matter. *)
Lemma frames_other {D} k (l : list (string * D)) b : ~ In k (map fst l) ->
  dget k (fold_left (fun b kv => to_sql (fst kv) (snd kv) b) l b) = dget k b.
Proof.
  revert b. induction l as [|[t f] l IH]; cbn [fold_left map fst snd]; intros b N; [reflexivity|].
  rewrite IH by (intros I; apply N; now right). rewrite to_sql_get.
  destruct (String.eqb k t) eqn:E; auto. apply String.eqb_eq in E. subst. elim N. now left.
Qed.

Definition names_of {D} (it : D * (D -> D) * collector D) : list string := map fst (get_dc_dfs (snd (fst it)) (snd it)).

Lemma write_none {D} (cfg : D) its k b : k <> "configuration" -> k <> "parameters" -> dget k b = None ->
  Forall (fun it => ~ In k (names_of it)) its -> dget k (write_run cfg its b) = None.
Proof.
  intros N1 N2 B F. unfold write_run.
  assert (B' : dget k (to_sql "configuration" cfg b) = None).
  { rewrite to_sql_get. apply String.eqb_neq in N1. now rewrite N1. }
  revert B'. generalize (to_sql "configuration" cfg b). induction F as [|[[p lb] dc] its H F IH]; cbn [fold_left]; intros b' B'; auto.
  apply IH. rewrite frames_other by exact H. rewrite to_sql_get. apply String.eqb_neq in N2. now rewrite N2.
Qed.

(** C140 is false without reporters of agents: the results of such runs cannot be read. *)
Theorem C140_no_agent_reporters_refuted : forall D (cfg : D) its,
  Forall (fun it => agent_vars (snd it) = None /\ dwf (tables (snd it)) /\ dget "agents" (tables (snd it)) = None) its ->
  read_sql (write_run cfg its []) = None.
Proof.
  intros D cfg its F. unfold read_sql.
  rewrite (write_none cfg its "agents" []); try easy; [now destruct (dget "env" _)|].
  apply Forall_forall. intros [[p lb] dc] I. rewrite Forall_forall in F. destruct (F _ I) as (A & W & T). cbn [snd fst] in *.
  unfold names_of. cbn [fst snd]. unfold get_dc_dfs. rewrite A, map_map. cbn [fst].
  change (map (fun x : string * D => fst x)) with (@dkeys string D). rewrite in_dkeys_update.
  intros [[X|[]]|X]; [discriminate|]. apply dget_none in T. contradiction.
Qed.
Print Assumptions C140_no_agent_reporters_refuted.

(** C140 with reporters of agents, and tables with names of their own: everything is read, in order. *)
Definition names_apart {D} (dc : collector D) : Prop :=
  dwf (tables dc) /\ forall k, In k ["env"; "agents"; "configuration"; "parameters"] -> dget k (tables dc) = None.
Theorem C140_read_back_partial : forall D (cfg : D) its a0, its <> [] ->
  Forall (fun it => names_apart (snd it) /\ agent_vars (snd it) <> None) its ->
  read_sql (write_run cfg its []) = Some (Results [cfg] (map (fun it => fst (fst it)) its)
    (map (fun it => snd (fst it) (model_vars (snd it))) its)
    (map (fun it => snd (fst it) (match agent_vars (snd it) with Some a => a | None => a0 end)) its)).
Proof.
  intros D cfg its a0 NE F.
  assert (G : forall its (b : db D), Forall (fun it => names_apart (snd it) /\ agent_vars (snd it) <> None) its ->
    forall k, In k ["env"; "agents"; "configuration"; "parameters"] ->
    let b' := fold_left (fun b it => let '(params, label, dc) := it in
      fold_left (fun b kv => to_sql (fst kv) (snd kv) b) (get_dc_dfs label dc) (to_sql "parameters" params b)) its b in
    let added := if String.eqb k "env" then map (fun it : D * (D -> D) * collector D => snd (fst it) (model_vars (snd it))) its
      else if String.eqb k "agents" then map (fun it => snd (fst it) (match agent_vars (snd it) with Some a => a | None => a0 end)) its
      else if String.eqb k "parameters" then map (fun it => fst (fst it)) its else [] in
    dget k b' = match added with [] => dget k b | _ => Some (match dget k b with Some l => l | None => [] end ++ added) end).
  { clear. induction its as [|[[p lb] dc] its IH]; intros b F k K; cbn [fold_left map].
    - cbv zeta. now destruct (String.eqb k "env"), (String.eqb k "agents"), (String.eqb k "parameters").
    - inversion F as [|? ? [[W NA] AV] F']; subst. cbn [fst snd] in *. specialize (IH
        (fold_left (fun b kv => to_sql (fst kv) (snd kv) b) (get_dc_dfs lb dc) (to_sql "parameters" p b)) F' k K).
      cbv zeta in *. rewrite IH. clear IH.
      destruct (agent_vars dc) as [a|] eqn:EA; [|easy].
      rewrite (C139_own_names_partial D lb dc W) by (apply NA; cbn; auto). rewrite EA. cbn [app fold_left fst snd].
      assert (NT : ~ In k (map fst (map (fun kv : string * D => (fst kv, lb (snd kv))) (tables dc)))).
      { rewrite map_map. cbn [fst]. change (map (fun x : string * D => fst x)) with (@dkeys string D).
        apply dget_none. now apply NA. }
      rewrite frames_other by exact NT. rewrite !to_sql_get.
      destruct K as [<-|[<-|[<-|[<-|[]]]]]; cbn [String.eqb Ascii.eqb Bool.eqb andb];
        repeat match goal with |- context [match map ?f its with _ => _ end] => destruct (map f its) end;
        try destruct (dget _ b); cbn [app]; rewrite <- ?app_assoc; reflexivity. }
  unfold read_sql, write_run. rewrite !G by (auto; cbn; auto). cbn [String.eqb Ascii.eqb Bool.eqb andb].
  destruct its as [|it its]; [easy|]. cbn [map]. rewrite !to_sql_get. cbn [String.eqb Ascii.eqb Bool.eqb andb dget app]. reflexivity.
Qed.
Print Assumptions C140_read_back_partial.
Example C140_case :
  read_sql (write_run [9] [([5], (fun f => f ++ [0]), Collector [1] (Some [2]) [("prices", [3])]);
                           ([6], (fun f => f ++ [1]), Collector [7] (Some [8]) [])] []) =
    Some (Results [[9]] [[5]; [6]] [[1; 0]; [7; 1]] [[2; 0]; [8; 1]]) /\
  read_sql (write_run [9] [([5], (fun f => f ++ [0]), Collector [1] None [("prices", [3])])] []) = None.
Proof. vm_compute. auto. Qed.
