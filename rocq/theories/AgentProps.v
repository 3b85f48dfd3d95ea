(** C32, C37, C38 and C61: generator steps, attributes, class defaults and [prob]. *)
From Coq Require Import ZArith List Bool Arith String.
From Verif Require Import Num PyDict TimedModel AgentModel AgentSpec AgentProofs.
Import ListNotations.

(** C32.  Whatever the interleaving of activations, and whatever happens to the world in
    between, the activations of each agent play its body piece by piece: see [plays]. *)
Theorem C32_bodies_are_played_in_order :
  forall W Q V (g_start : aid -> Q)
    (g_resume : sched -> aid -> Q -> W -> W * list sop * gout Q V)
    (v_none : V) (is_none : V -> bool) (to_float : V -> option num),
  is_none v_none = true ->
  forall l w a,
  plays (g_start a) (fun s => g_resume s a) (as_delay is_none to_float) (g_start a)
    (map snd (filter (fun p => Nat.eqb (fst p) a)
       (activations g_start g_resume v_none is_none to_float l w no_cors))).
Proof. exact @generator_plays. Qed.
Print Assumptions C32_bodies_are_played_in_order.

(** Two agents whose bodies yield twice, the second delay being a number computed from
    the world, and then return. *)
Definition two_yields (s : sched) (a : aid) (q : nat) (w : Z)
  : Z * list sop * gout nat (option num) :=
  match q with
  | 0 => ((w + 1)%Z, [], GYield (Some (Fin 3)) 1)
  | 1 => ((w * 2)%Z, [], GYield (Some (Fin w)) 2)
  | _ => ((w - 5)%Z, [], GReturn None)
  end.
Definition is_None {X} (o : option X) : bool := match o with None => true | _ => false end.
Definition sched0 := timed_init false (Fin 1).

Example C32_not_vacuous :
  map (fun r => match r with (a, (_, w, w', _, o)) => (a, w, w', o) end)
    (activations (fun _ => 0) two_yields None is_None (fun o => o)
       (map (fun a => (sched0, a, fun w => w)) [7; 7; 8; 7; 7; 8]) 10%Z no_cors)
  = [(7%nat, 10, 11, Ret (Some (Fin 3))); (7%nat, 11, 22, Ret (Some (Fin 11)));
     (8%nat, 22, 23, Ret (Some (Fin 3))); (7%nat, 23, 18, Ret None);
     (7%nat, 18, 19, Ret (Some (Fin 3))); (8%nat, 19, 38, Ret (Some (Fin 19)))]%Z.
Proof. reflexivity. Qed.

(** C32 is false for bodies that end with an exception: the next activation does not
    start the body afresh, it does nothing. *)
Theorem C32_activation_after_a_failure_is_lost_refuted :
  exists W Q V (g_start : aid -> Q)
    (g_resume : sched -> aid -> Q -> W -> W * list sop * gout Q V)
    (v_none : V) (is_none : V -> bool) (to_float : V -> option num),
  is_none v_none = true /\
  exists s a w, match activations g_start g_resume v_none is_none to_float
                        [(s, a, fun w => w); (s, a, fun w => w)] w no_cors with
  | [(_, (_, w1, w2, _, Exc)); (_, (_, w3, w4, _, o4))] =>
      g_resume s a (g_start a) w1 = (w2, [], GRaise false) /\
      (let '(w5, _, _) := g_resume s a (g_start a) w3 in w5 <> w4) /\
      w4 = w3 /\ o4 = Ret None
  | _ => False
  end.
Proof.
  exists nat, unit, (option num), (fun _ => tt), (fun _ _ _ w => (S w, [], GRaise false)),
    None, is_None, (fun o => o).
  split; [reflexivity|]. exists sched0, 0, 0. simpl. repeat split. discriminate.
Qed.
Print Assumptions C32_activation_after_a_failure_is_lost_refuted.

(** C37 is false for the attributes that the constructor sets itself: the default given
    by the class for [name] or [alive] is ignored. *)
Theorem C37_some_defaults_are_ignored_refuted :
  forall k, In k ["name"; "alive"]%string ->
  exists dv class_attr model_attr read_only uid model name logger (d : dict string val) (h' : list unit),
  model_attr k = VNone /\ class_attr k = None /\
  base_init class_attr model_attr read_only [(k, dv)] uid model name logger [] [] = Some (d, h') /\
  dget k d <> Some dv /\ forall v, fresh_copy [] h' dv v -> dget k d <> Some v.
Proof.
  intros k I.
  exists (VAtom 7), (fun _ => None), (fun _ => VNone), (fun _ => false), (VAtom 0), (VAtom 0),
    (VAtom 3), (VAtom 0).
  destruct I as [<-|[<-|[]]]; eexists; eexists;
    (split; [reflexivity|]); (split; [reflexivity|]); (split; [reflexivity|]);
    (split; [discriminate|]); intros v E; simpl in E; subst v; discriminate.
Qed.
Print Assumptions C37_some_defaults_are_ignored_refuted.

(** C37 for all other attributes (those that are not [reserved] and are not the name of a
    method or property): arguments win, then the model, then a fresh copy of the class
    default; nothing else appears, and no existing object is changed. *)
Theorem C37_precedence_partial :
  forall C class_attr model_attr read_only ds unique_id model name logger kw (h : list C) d h',
  base_init class_attr model_attr read_only ds unique_id model name logger kw h = Some (d, h') ->
  dwf ds -> dwf kw -> valid h ds ->
  (exists t, h' = h ++ t) /\
  (forall k v, dget k kw = Some v -> dget k d = Some v) /\
  (forall k dv, dget k kw = None -> dget k ds = Some dv -> model_attr k <> VNone ->
     dget k d = Some (model_attr k)) /\
  (forall k dv, dget k kw = None -> dget k ds = Some dv -> model_attr k = VNone ->
     ~ In k reserved -> class_attr k = None ->
     exists v, dget k d = Some v /\ fresh_copy h h' dv v) /\
  (forall k, dget k kw = None -> dget k ds = None -> dget k d <> None -> In k preset).
Proof. exact @init_attributes. Qed.
Print Assumptions C37_precedence_partial.

(** C37: the attributes that the constructor sets itself have those values (agents are alive),
    unless they are arguments, or attributes of the model for which the class has a default. *)
Theorem C37_own_attributes_partial :
  forall C class_attr model_attr read_only ds unique_id model name logger kw (h : list C) d h',
  base_init class_attr model_attr read_only ds unique_id model name logger kw h = Some (d, h') ->
  dwf kw ->
  forall k v, In (k, v) [("unique_id", unique_id); ("model", model); ("name", name);
                         ("alive", VAtom 1); ("logger", logger)]%string ->
  v <> VNone -> dget k kw = None -> dget k ds = None \/ model_attr k = VNone -> dget k d = Some v.
Proof. exact @init_own. Qed.
Print Assumptions C37_own_attributes_partial.

(** C37: no two attributes get the same copy, so an object that two attributes share
    existed before (it came from the model). *)
Theorem C37_copies_are_not_shared :
  forall C class_attr model_attr read_only ds unique_id model name logger (h : list C) d h',
  base_init class_attr model_attr read_only ds unique_id model name logger [] h = Some (d, h') ->
  valid h ds ->
  (forall v, In v [unique_id; model; name; logger] -> forall l, v = VRef l -> l < List.length h) ->
  (forall k l, model_attr k = VRef l -> l < List.length h) ->
  (forall k l, dget k d = Some (VRef l) -> l < List.length h') /\
  forall k1 k2 l, k1 <> k2 -> dget k1 d = Some (VRef l) -> dget k2 d = Some (VRef l) ->
    l < List.length h.
Proof. exact @init_no_sharing. Qed.
Print Assumptions C37_copies_are_not_shared.

(** Two agents of a class with two mutable defaults, an immutable one overridden by the
    model and one overridden by an argument. *)
Definition demo_defaults : dict string val :=
  [("friends", VRef 0); ("seen", VRef 0); ("rate", VAtom 5); ("size", VAtom 6)]%string.
Definition demo_model (k : string) : val :=
  if String.eqb k "rate" then VAtom 50 else VNone.
Definition demo_init (h : list Z) :=
  base_init (fun _ => None) demo_model (fun _ => false) demo_defaults (VAtom 0) (VAtom 0)
    (VAtom 0) (VAtom 0) [("size", VAtom 60); ("extra", VAtom 1)]%string h.

Example C37_not_vacuous :
  dwf demo_defaults /\ valid [42%Z] demo_defaults /\
  exists d1 h1 d2 h2,
  demo_init [42%Z] = Some (d1, h1) /\ demo_init h1 = Some (d2, h2) /\
  map (fun k => dget k d1) ["friends"; "seen"; "rate"; "size"; "extra"]%string
    = [Some (VRef 1); Some (VRef 2); Some (VAtom 50); Some (VAtom 60); Some (VAtom 1)] /\
  map (fun k => dget k d2) ["friends"; "seen"]%string = [Some (VRef 3); Some (VRef 4)] /\
  h2 = [42; 42; 42; 42; 42]%Z.
Proof.
  split; [repeat constructor; simpl; intuition discriminate|].
  split; [intros k l [E|[E|[E|[E|[]]]]]; try discriminate; injection E as _ <-; simpl; auto|].
  do 4 eexists. repeat split; reflexivity.
Qed.

(** C38 is false: with two bases, the default inherited by the second one replaces the
    override made in the first one. *)
Definition base_a : cls (item nat) := Cls 1 [] [IAttr "rate" 1]%string.
Definition left_b : cls (item nat) := Cls 2 [base_a] [IAttr "rate" 2]%string.
Definition right_c : cls (item nat) := Cls 3 [base_a] [].
Definition both_d : cls (item nat) := Cls 4 [left_b; right_c] [].

Theorem C38_override_is_lost_refuted :
  exists V (c : cls (item V)) l k,
  mro c = Some l /\ first_value k l <> None /\ dget k (defaults c) <> first_value k l.
Proof.
  exists nat, both_d, [both_d; left_b; right_c; base_a], "rate"%string.
  repeat split; discriminate.
Qed.
Print Assumptions C38_override_is_lost_refuted.

(** C38: what the code does for every hierarchy: the class itself first, and then the
    last base that has the attribute. *)
Theorem C38_last_base_wins_partial :
  forall V i bases (own : list (item V)) k,
  dget k (defaults (Cls i bases own)) =
  match body_value k own with
  | Some v => Some v
  | None => last_some (map (fun b => dget k (defaults b)) bases)
  end.
Proof. exact @defaults_get. Qed.
Print Assumptions C38_last_base_wins_partial.

(** C38 with single inheritance. *)
Theorem C38_single_inheritance_partial :
  forall V (c : cls (item V)) k l, line c = Some l -> NoDup (map c_id l) ->
  mro c = Some l /\ dget k (defaults c) = first_value k l.
Proof. exact @defaults_single. Qed.
Print Assumptions C38_single_inheritance_partial.

(** C38 for any hierarchy, if the classes that define the attribute agree on it. *)
Theorem C38_one_definition_partial :
  forall V (c : cls (item V)) l k,
  coherent c -> mro c = Some l ->
  (forall x y v w, ancestor c x -> ancestor c y ->
     body_value k (c_own x) = Some v -> body_value k (c_own y) = Some w -> v = w) ->
  dget k (defaults c) = first_value k l.
Proof. exact @defaults_agree. Qed.
Print Assumptions C38_one_definition_partial.

Definition leaf_e : cls (item nat) :=
  Cls 5 [left_b] [IAttr "size" 3; IDefaults [("rate", 9); ("size", 4)]]%string.
Example C38_not_vacuous :
  line leaf_e = Some [leaf_e; left_b; base_a] /\
  NoDup (map c_id [leaf_e; left_b; base_a]) /\
  dget "size"%string (defaults leaf_e) = Some 4 /\
  dget "rate"%string (defaults leaf_e) = Some 9.
Proof. repeat split. repeat constructor; simpl; intuition discriminate. Qed.

(** A diamond in which only one class defines the attribute. *)
Definition mid_f : cls (item nat) := Cls 6 [base_a] [IAttr "size" 8]%string.
Definition dia_g : cls (item nat) := Cls 7 [mid_f; right_c] [].
Example C38_not_vacuous_diamond :
  coherent dia_g /\ mro dia_g = Some [dia_g; mid_f; right_c; base_a] /\
  first_value "size" [dia_g; mid_f; right_c; base_a] = Some 8 /\
  (forall x y v w, ancestor dia_g x -> ancestor dia_g y ->
     body_value "size" (c_own x) = Some v -> body_value "size" (c_own y) = Some w -> v = w).
Proof.
  assert (A : forall x, ancestor dia_g x -> In x [dia_g; mid_f; right_c; base_a]).
  { assert (B : forall x, ancestor base_a x -> x = base_a).
    { intros x X. inversion X as [|? ? ? I]; subst; auto. contradiction. }
    assert (M : forall x, ancestor mid_f x -> x = mid_f \/ x = base_a).
    { intros x X. inversion X as [|? b ? I]; subst; auto. destruct I as [<-|[]]; auto. }
    assert (R : forall x, ancestor right_c x -> x = right_c \/ x = base_a).
    { intros x X. inversion X as [|? b ? I]; subst; auto. destruct I as [<-|[]]; auto. }
    intros x X. inversion X as [|? b ? I Y]; subst; [simpl; auto|].
    destruct I as [<-|[<-|[]]]; [destruct (M x Y)|destruct (R x Y)]; subst; simpl; auto. }
  repeat split.
  - intros x y X Y. apply A in X. apply A in Y. simpl in X, Y.
    destruct X as [<-|[<-|[<-|[<-|[]]]]], Y as [<-|[<-|[<-|[<-|[]]]]]; simpl; auto; discriminate.
  - intros x y v w X Y. apply A in X. apply A in Y. simpl in X, Y.
    destruct X as [<-|[<-|[<-|[<-|[]]]]], Y as [<-|[<-|[<-|[<-|[]]]]]; simpl; congruence.
Qed.

(** C61.  [one] is the number 1 and [draw] is in [0, 1). *)
Theorem C61_prob_is_false_for_nonpositive :
  forall draw p, n_leb (Fin 0) draw = true -> n_leb p (Fin 0) = true -> prob draw p = false.
Proof. exact prob_low. Qed.
Print Assumptions C61_prob_is_false_for_nonpositive.

Theorem C61_prob_is_true_from_one_on :
  forall draw p one, n_ltb draw one = true -> n_leb one p = true -> prob draw p = true.
Proof. exact prob_high. Qed.
Print Assumptions C61_prob_is_true_from_one_on.

Theorem C61_prob_is_monotone :
  forall draw p q, n_leb p q = true -> prob draw p = true -> prob draw q = true.
Proof. exact prob_mono. Qed.
Print Assumptions C61_prob_is_monotone.

Example C61_not_vacuous :
  prob (Fin 4) (Fin 5) = true /\ prob (Fin 5) (Fin 5) = false /\ prob (Fin 0) (Fin 0) = false /\
  prob (Fin 9) (Fin 10) = true /\ prob (Fin 0) (Fin (-3)) = false /\ prob (Fin 9) PInf = true.
Proof. repeat split. Qed.
