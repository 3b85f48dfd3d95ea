(** Model of agent distributions: soil/agents/__init__.py:318-365 and 606-669,
    and the agents with a specification of their own, 571-603. *)
From Coq Require Import List Bool Arith ZArith QArith Qround Qminmax String.
From Verif Require Import PyDict.
Import ListNotations.

(** calculate_distribution, soil/agents/__init__.py:318-365, for any arithmetic. *)
Section Thresholds.
Context {R : Type}.
Variables zero one : R.
Variables add div : R -> R -> R.

(** An entry: its weight, if it has one, and whether it has "ids".  (A dictionary never has
    an attribute "id", so that line 343 keeps all of them.) *)
Record dist := Dist { di_weight : option R; di_ids : bool }.
Definition weight (d : dist) : R := match di_weight d with Some w => w | None => one end.

(** soil/agents/__init__.py:357-364. *)
Fixpoint intervals (total acc : R) (l : list dist) : list (option (R * R)) :=
  match l with
  | [] => []
  | d :: l' =>
      if di_ids d then None :: intervals total acc l'
      else let upper := add acc (div (weight d) total) in
           Some (acc, upper) :: intervals total upper l'
  end.
(** soil/agents/__init__.py:341-365: the thresholds of the entries (None: it has none), or
    None for the ValueError. *)
Definition thresholds (agents : option (list dist)) (agent_class : bool) : option (list (option (R * R))) :=
  match match agents, agent_class with
        | Some (d :: l), _ => Some (d :: l)
        | _, true => Some [Dist None false]
        | _, false => None
        end with
  | None => None
  | Some l => Some (intervals (fold_left (fun s d => add s (weight d)) l zero) zero l)
  end.
End Thresholds.
Arguments dist : clear implicits.
Arguments Dist {R}.

(** _from_distro, soil/agents/__init__.py:606-669.  Weights are rational numbers here. *)
Section Distro.
(** Values in states, and classes. *)
Context {V C : Type}.
(** [en_topology] is None if the field was not set.  Simplification: states have no keys
    "agent_class" and "topology". *)
Record entry := Entry {
  en_weight : option Q; en_n : option nat; en_state : dict string V;
  en_class : option C; en_topology : option bool }.
Record defaults := Defaults { df_state : dict string V; df_class : option C; df_topology : bool }.
(** What describes one agent.  [sp_topology] is None if it is not in the dictionary. *)
Record spec := Spec { sp_state : dict string V; sp_class : option C; sp_topology : option bool }.

Inductive exn := TypeError | ValueError | ZeroDivisionError.
Inductive result := Agents (l : list spec) | Raises (x : exn).

(** soil/agents/__init__.py:623-624. *)
Definition the_weight (e : entry) : Q := match en_weight e with Some w => w | None => 1%Q end.
Definition min_weight (w : Q) (l : list Q) : Q := fold_left (fun m x => if Qle_bool m x then m else x) l w.
Definition norms (distro : list entry) : list Q :=
  match map the_weight distro with
  | [] => []
  | w :: l => map (fun x => x / min_weight w l)%Q (w :: l)
  end.
Definition Qsum (l : list Q) : Q := fold_left Qplus l 0%Q.
(** soil/agents/__init__.py:626-627: [n // total]. *)
Definition chunk (n : nat) (distro : list entry) : Z :=
  Qfloor (inject_Z (Z.of_nat n) / Qsum (norms distro)).
(** soil/agents/__init__.py:633-635. *)
Definition share (n : nat) (distro : list entry) (norm : Q) : nat :=
  Z.to_nat (Qfloor (norm * inject_Z (chunk n distro))).
Fixpoint repeat_indices (n : nat) (distro : list entry) (i : nat) (l : list Q) : list nat :=
  match l with
  | [] => []
  | w :: l' => repeat i (share n distro w) ++ repeat_indices n distro (S i) l'
  end.
Definition indices (n : nat) (distro : list entry) : list nat := repeat_indices n distro 0 (norms distro).

(** soil/agents/__init__.py:638-643: [more k] is what [random.choices] would give for [k] of
    them, if the weights are all numbers. *)
Definition completed (n : nat) (distro : list entry) (more : nat -> list nat) : option (list nat) :=
  let l := indices n distro in
  if (List.length l <? n)%nat
  then if forallb (fun e => match en_weight e with Some _ => true | None => false end) distro
       then Some (l ++ more (n - List.length l)%nat) else None
  else Some l.

(** soil/agents/__init__.py:653-667: one turn; the variable [topology] is assigned. *)
Definition or_default {X} (x d : option X) : option X := match x with Some _ => x | None => d end.
Definition describe (df : defaults) (topology : bool) (e : entry) : spec * bool :=
  let t := match en_topology e with Some t => t | None => topology || df_topology df end in
  (Spec (dupdate (en_state e) (df_state df)) (or_default (en_class e) (df_class df))
     (if t then Some true else None), t).
Fixpoint describe_all (df : defaults) (distro : list entry) (topology : bool) (l : list nat) : list spec :=
  match l with
  | [] => []
  | i :: l' =>
      match nth_error distro i with
      | None => []
      | Some e => let '(s, t) := describe df topology e in s :: describe_all df distro t l'
      end
  end.

(** soil/agents/__init__.py:606-669.  [shuffled] is the effect of [random.shuffle].  Without
    [n], line 617 calls [any] with two arguments, which is a TypeError. *)
Definition from_distro (distro : list entry) (n : option nat) (df : defaults) (topology : bool)
    (more : nat -> list nat) (shuffled : list nat -> list nat) : result :=
  match n with
  | None => Raises TypeError
  | Some n =>
      match distro with
      | [] => Raises ValueError
      | _ =>
          if existsb (fun e => Qeq_bool (the_weight e) 0) distro
             && forallb (fun e => Qle_bool 0 (the_weight e)) distro
          then Raises ZeroDivisionError
          else match completed n distro more with
               | None => Raises TypeError
               | Some l => Agents (describe_all df distro topology (shuffled l))
               end
      end
  end.

(** _from_fixed, soil/agents/__init__.py:571-603, with the two numbers that it counts. *)
Record fixed := Fixed {
  fx_state : dict string V; fx_class : option C; fx_topology : option bool; fx_hidden : bool }.
(** soil/agents/__init__.py:582-598: one turn. *)
Definition describe_fixed (df : defaults) (topology : bool) (f : fixed) : spec :=
  let t := match fx_topology f with Some t => t | None => topology || df_topology df end in
  Spec (dupdate (df_state df) (fx_state f)) (or_default (fx_class f) (df_class df))
    (if t then Some true else None).
Definition networked (s : spec) : bool := match sp_topology s with Some _ => true | None => false end.
Fixpoint from_fixed_loop (df : defaults) (topology : bool) (l : list fixed)
    (agents : list spec) (total network : nat) : list spec * nat * nat :=
  match l with
  | [] => (agents, total, network)
  | f :: l' =>
      let s := describe_fixed df topology f in
      from_fixed_loop df topology l' (agents ++ [s])
        (if fx_hidden f then total else S total) (if networked s then S network else network)
  end.
Definition from_fixed (lst : list fixed) (topology : bool) (df : defaults) : list spec * nat * nat :=
  from_fixed_loop df topology lst [] 0 0.
End Distro.
Arguments fixed : clear implicits.
Arguments entry : clear implicits.
Arguments defaults : clear implicits.
Arguments spec : clear implicits.
Arguments result : clear implicits.
