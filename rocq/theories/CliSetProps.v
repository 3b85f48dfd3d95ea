(** Theorems about the option [--set] (soil/__init__.py:232-247): property C113. *)
From Coq Require Import List Bool String Ascii.
From Verif Require Import PyDict CliSetModel CliSetSpec CliSetProofs.
Import ListNotations.
Local Open Scope string_scope.
Local Open Scope list_scope.

(** C113 is false: values are not treated as texts, as the help of the option says, but
    evaluated.  A text that does not evaluate to itself does not arrive as a text, and one
    that cannot be evaluated ends the command. *)
Theorem C113_values_are_texts_refuted :
  forall A method (eval : string -> option (pv A)) (str : string -> A) k text d,
  lacks "." k -> lacks "=" k -> eval text <> Some (PA (str text)) ->
  (forall t, cli_set method eval (k ++ "=" ++ text)%string (PD d) = Some t ->
     lookup [k] t <> Some (PA (str text))) /\
  (eval text = None -> cli_set method eval (k ++ "=" ++ text)%string (PD d) = None).
Proof.
  intros A method eval str k text d L1 L2 N.
  rewrite (cli_set_parse method eval k [] text) by (repeat constructor; auto).
  destruct (eval text) as [v|].
  - split; [|discriminate]. cbn. intros t [= <-]. cbn. rewrite dget_set_same. congruence.
  - split; [discriminate|auto].
Qed.
Print Assumptions C113_values_are_texts_refuted.

(** Numbers and texts: "5" becomes a number, and "hello" ends the command. *)
Example C113_values_are_texts_not_vacuous :
  let eval s := if String.eqb s "5" then Some (PA (inl 5))
                else if String.eqb s "'hi'" then Some (PA (inr "hi")) else None in
  let str s := inr s : nat + string in
  eval "5" <> Some (PA (str "5")) /\ eval "hello" <> Some (PA (str "hello")) /\
  cli_set (fun _ => false) eval "n=5" (PD []) = Some (PD [("n", PA (inl 5))]) /\
  cli_set (fun _ => false) eval "n='hi'" (PD []) = Some (PD [("n", PA (inr "hi"))]) /\
  cli_set (fun _ => false) eval "n=hello" (PD []) = None.
Proof. repeat split; discriminate. Qed.

(** C113: so is it for a nested parameter whose name is the one of a method of
    dictionaries, even if it is there. *)
Theorem C113_nested_names_refuted :
  exists (p : pv nat) method eval v,
  method "items" = true /\ eval "3" = Some v /\ lookup ["items"] p = Some (PD []) /\
  cli_set method eval "items.size=3" p = None.
Proof.
  exists (PD [("items", PD [])]), (fun n => existsb (String.eqb n) ["items"; "keys"; "get"; "values"]),
    (fun s => if String.eqb s "3" then Some (PA 3) else None), (PA 3).
  repeat split.
Qed.
Print Assumptions C113_nested_names_refuted.

(** C113, what holds instead: the value is found at the path, nothing that has nothing to
    do with the path changes, and the option is refused exactly if the text cannot be
    evaluated or there is no dictionary or object to put the value in. *)
Theorem C113_effect_partial :
  forall A method (eval : string -> option (pv A)) path tail text t,
  Forall (fun x => lacks "." x /\ lacks "=" x) (path ++ [tail]) ->
  forall p ps, p :: ps = path ++ [tail] ->
  match cli_set method eval (dotted p ps ++ "=" ++ text)%string t with
  | Some t' =>
      exists v, eval text = Some v /\
      (forall q, lookup (path ++ tail :: q) t' = lookup q v) /\
      (forall q, ~ related (path ++ [tail]) q -> lookup q t' = lookup q t)
  | None => eval text = None \/ ~ leads method path t
  end.
Proof.
  intros A method eval path tail text t F p ps E.
  rewrite (cli_set_parse method eval p ps text t) by now rewrite E.
  destruct (eval text) as [v|]; [|auto].
  rewrite E, removelast_last, last_last.
  destruct (set_along method path tail v t) as [t'|] eqn:S.
  - exists v. split; auto. split.
    + intros q. eapply lookup_same; eauto.
    + intros q R. eapply lookup_other; eauto.
  - right. intros L. apply (set_along_leads method path tail v) in L. contradiction.
Qed.
Print Assumptions C113_effect_partial.

Definition demo_eval (s : string) : option (pv nat) :=
  if String.eqb s "5" then Some (PA 5) else if String.eqb s "{}" then Some (PD []) else None.
Definition demo_method (s : string) : bool := existsb (String.eqb s) ["items"; "keys"].

Example C113_not_vacuous :
  cli_sets demo_method demo_eval ["net.n=5"; "extra={}"; "extra.a=5"; "net.model.p=5"]
    (PD [("net", PD [("n", PA 1); ("model", PO [("p", PA 0)])]); ("k", PA 7)]) =
  Some (PD [("net", PD [("n", PA 5); ("model", PO [("p", PA 5)])]); ("k", PA 7);
            ("extra", PD [("a", PA 5)])]) /\
  cli_sets demo_method demo_eval ["k=5"; "k=hello"] (PD []) = None /\
  leads demo_method ["net"; "model"] (PD [("net", PD [("model", PO [("p", PA 0)])])]).
Proof.
  split; [reflexivity|]. split; [reflexivity|]. cbn. split; auto.
  eexists. split; [reflexivity|]. split; auto. eexists. split; [reflexivity|]. exact I.
Qed.

(** C113: the options are applied in order; the first one that fails ends the command. *)
Theorem C113_options_in_order_partial :
  forall A method (eval : string -> option (pv A)) s1 s2 t,
  cli_sets method eval (s1 ++ s2) t =
  match cli_sets method eval s1 t with
  | Some t' => cli_sets method eval s2 t'
  | None => None
  end /\ forall s, cli_sets method eval [s] t = cli_set method eval s t.
Proof.
  intros A method eval s1 s2 t. split; [|intros s; cbn; now destruct (cli_set method eval s t)]. revert t. induction s1 as [|s s1 IH]; intros t; cbn; auto.
  destruct (cli_set method eval s t); auto.
Qed.
Print Assumptions C113_options_in_order_partial.
