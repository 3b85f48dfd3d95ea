(** The wealth examples: C65, C84, C85 and C119. *)
From Coq Require Import ZArith QArith List Bool Arith Lia Permutation.
From Verif Require Import PyDict WealthModel WealthSpec WealthProofs.
Import ListNotations.
Local Open Scope Z_scope.

(** C65, for all grids, networks, draws and activations of agents on the grid, of either class:
    the agents have as much together as before, and nobody has less than nothing. *)
Theorem C65_money_is_conserved : forall (P R : Type) (EP : Eqb P) neighborhood all friends social
    (pick : R -> nat -> R * nat) order, (forall l x, In x (order l) <-> In x l) -> NoDup all ->
  forall activations, (forall a, In a activations -> In a all) ->
  forall w : world P R, (forall a, 0 <= w_wealth w a) ->
  let w' := steps neighborhood all friends social pick order activations w in
  total (w_wealth w') all = total (w_wealth w) all /\ forall a, 0 <= w_wealth w' a.
Proof. intros P R EP nb all friends social pick order O N l I w H. apply steps_ok; auto. intros x y. apply O. Qed.
Print Assumptions C65_money_is_conserved.

(** Two cells, each next to the other; draws in turn. *)
Definition two_cells (p : nat) : list nat := [1 - p]%nat.
Definition in_turn (r n : nat) : nat * nat := (S r, r mod n)%nat.
Definition start : world nat nat := World (fun _ => 1) (fun a => a mod 2)%nat 0%nat.
Definition example_run (social : nat -> bool) := steps two_cells [0; 1; 2; 3]%nat (fun a => [a + 1; a + 2])%nat social
  in_turn (fun l => rev l) [0; 1; 2; 3; 0; 3]%nat start.
Example C65_not_vacuous :
  map (w_wealth (example_run (fun _ => false))) [0; 1; 2; 3]%nat = [0; 1; 2; 1] /\
  map (w_wealth (example_run (fun _ => true))) [0; 1; 2; 3]%nat = [0; 1; 1; 2] /\
  (forall l x, In x (rev l) <-> In x (l : list nat)).
Proof. split; [vm_compute; reflexivity|]. split; [vm_compute; reflexivity|]. intros l x. symmetry. apply in_rev. Qed.

(** C84: an activation that changes anybody's wealth takes one unit from the agent activated,
    which had one, and gives it to one in the same cell, that is its friend if it is social
    (it may be the agent itself). *)
Theorem C84_one_unit_to_a_cellmate : forall (P R : Type) (EP : Eqb P) neighborhood all friends social
    (pick : R -> nat -> R * nat) order, (forall l x, In x (order l) <-> In x l) ->
  forall a (w : world P R),
  let w' := fst (money_step neighborhood all friends social pick order a w) in
  (forall b, w_wealth w' b = w_wealth w b) \/
  exists other, In other all /\ w_pos w' other = w_pos w' a /\ 0 < w_wealth w a /\
    (social a = true -> In other (friends a)) /\
    forall b, w_wealth w' b = w_wealth w b + (if Nat.eqb b other then 1 else 0) - (if Nat.eqb b a then 1 else 0).
Proof. intros P R EP nb all friends social pick order O a w. apply step_transfer. intros x y. apply O. Qed.
Print Assumptions C84_one_unit_to_a_cellmate.
Example C84_not_vacuous :
  let w' := fst (money_step two_cells [0; 1; 2; 3]%nat (fun a => [a + 1; a + 2]%nat) (fun _ => true) in_turn (fun l => rev l) 0%nat start) in
  map (w_wealth w') [0; 1; 2; 3]%nat = [0; 2; 1; 1] /\ map (w_pos w') [0; 1; 2; 3]%nat = [1; 1; 0; 1]%nat.
Proof. vm_compute. auto. Qed.

(** C85: with some money and no debts the coefficient is between 0 and 1 - 1/N, is 0 if all have
    the same, and does not depend on the order of the agents. *)
Theorem C85_gini_in_range : forall l, Forall (fun x => 0 <= x) l -> 0 < fold_right Z.add 0 l ->
  exists g, gini l = Some g /\ (0 <= g <= 1 - 1 / inject_Z (Z.of_nat (List.length l)))%Q.
Proof. exact gini_bounds. Qed.
Theorem C85_gini_of_equals : forall x n, 0 < x -> (0 < n)%nat -> exists g, gini (repeat x n) = Some g /\ (g == 0)%Q.
Proof. exact gini_equal. Qed.
Theorem C85_gini_in_any_order : forall l m, Permutation l m -> gini l = gini m.
Proof. exact gini_order. Qed.
(** Without any money the coefficient is not defined: ZeroDivisionError. *)
Theorem C85_gini_without_money : forall n, gini (repeat 0 n) = None.
Proof.
  intros n. unfold gini. rewrite sort_repeat, sum_repeat, Z.mul_0_r, Z.mul_0_r. reflexivity.
Qed.
Print Assumptions C85_gini_in_range.
Print Assumptions C85_gini_of_equals.
Print Assumptions C85_gini_in_any_order.
Print Assumptions C85_gini_without_money.
Example C85_not_vacuous :
  (exists g, gini [0; 0; 7; 0] = Some g /\ (g == 3 # 4)%Q) /\ (exists g, gini [1; 3; 2] = Some g /\ (g == 2 # 9)%Q).
Proof. split; eexists; (split; [vm_compute; reflexivity|reflexivity]). Qed.

(** C119: an agent that is activated goes to a cell next to its own, and nobody else moves.  If
    there is none, IndexError is raised and nothing changes. *)
Theorem C119_only_the_agent_moves : forall (P R : Type) (EP : Eqb P) neighborhood all friends social
    (pick : R -> nat -> R * nat) order a (w : world P R),
  let '(w', raised) := money_step neighborhood all friends social pick order a w in
  (neighborhood (w_pos w a) = [] -> raised = true /\ w' = w) /\
  (neighborhood (w_pos w a) <> [] -> raised = false /\ In (w_pos w' a) (neighborhood (w_pos w a))) /\
  forall b, b <> a -> w_pos w' b = w_pos w b.
Proof. intros. apply step_moves. Qed.
Print Assumptions C119_only_the_agent_moves.
(** C119: if it has money and is then with somebody else (a friend, if it is social), it gives
    one unit to one of those with it. *)
Theorem C119_money_is_given : forall (P R : Type) (EP : Eqb P) neighborhood all friends social
    (pick : R -> nat -> R * nat) order, (forall l x, In x (order l) <-> In x l) ->
  forall a (w : world P R), neighborhood (w_pos w a) <> [] -> 0 < w_wealth w a -> In a all -> NoDup all ->
  let w' := fst (money_step neighborhood all friends social pick order a w) in
  (exists b, In b all /\ w_pos w' b = w_pos w' a /\ if social a then In b (friends a) else b <> a) ->
  exists other, In other all /\ w_pos w' other = w_pos w' a /\ (social a = true -> In other (friends a)) /\
    forall b, w_wealth w' b = w_wealth w b + (if Nat.eqb b other then 1 else 0) - (if Nat.eqb b a then 1 else 0).
Proof.
  intros P R EP nb all friends social pick order O a w. apply step_gives; intros l x; apply O.
Qed.
Print Assumptions C119_money_is_given.
Example C119_not_vacuous :
  let act social := fst (money_step two_cells [0; 1; 2; 3]%nat (fun a => [a + 1; a + 2]%nat) social in_turn (fun l => rev l) 0%nat start) in
  map (w_pos (act (fun _ => false))) [0; 1; 2; 3]%nat = [1; 1; 0; 1]%nat /\
  map (w_wealth (act (fun _ => false))) [0; 1; 2; 3]%nat = [0; 2; 1; 1] /\
  snd (money_step (fun _ : nat => []) [0; 1]%nat (fun _ => []) (fun _ => true) in_turn (fun l => rev l) 0%nat start) = true.
Proof. vm_compute. auto. Qed.
