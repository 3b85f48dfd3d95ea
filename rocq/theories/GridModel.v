(** Model of examples/mesa/wealth.py: the mesa version of the wealth example, with the cells of the grid. *)
From Coq Require Import ZArith QArith List Bool Arith.
From Verif Require Import PyDict WealthModel.
Import ListNotations.
Local Open Scope Z_scope.
Local Open Scope list_scope.

(** Cells: [(x, y)]. *)
Notation cell := (Z * Z)%type.
#[global, refine] Instance Eqb_cell : Eqb cell := {| eqb := fun p q => Z.eqb (fst p) (fst q) && Z.eqb (snd p) (snd q) |}.
Proof.
  intros [a b] [c d]. cbn. rewrite andb_true_iff, !Z.eqb_eq. split; [intros [-> ->]; reflexivity | intros E; now inversion E].
Defined.

(** [range(a, b)]. *)
Definition zrange (a b : Z) : list Z := map (fun i => a + Z.of_nat i) (seq 0 (Z.to_nat (b - a))).
(** The keys of a dictionary that is filled in this order. *)
Definition keys_of (l : list cell) : list cell := fold_left (fun ks p => if existsb (eqb p) ks then ks else ks ++ [p]) l [].

(** mesa's [get_neighborhood(pos, moore=True, include_center=False)] with radius 1, called in examples/mesa/wealth.py:24-26 (on a torus, 48)
    and examples/mesa/social_wealth.py:36-38 (on a grid with borders, 99).  On a torus of an even size the largest radius goes one cell less far
    to one side. *)
Definition offsets (size : Z) : list Z :=
  let most := size / 2 in
  let radius := Z.min 1 most in
  let less := if (radius =? most) && Z.even size then 1 else 0 in
  zrange (- radius) (radius + 1 - less).
Definition around (torus : bool) (width height : Z) (p : cell) : list cell :=
  let cells :=
    if torus then
      flat_map (fun dx => map (fun dy => ((fst p + dx) mod width, (snd p + dy) mod height)) (offsets height)) (offsets width)
    else
      flat_map (fun x => map (fun y => (x, y)) (zrange (Z.max 0 (snd p - 1)) (Z.min height (snd p + 2))))
        (zrange (Z.max 0 (fst p - 1)) (Z.min width (fst p + 2))) in
  filter (fun q => negb (eqb q p)) (keys_of cells).

Section Model.
(** States of the random generator; [choice], [randrange] and [shuffle]. *)
Context {R : Type}.
Variable pick : R -> nat -> R * nat.
Variable draw : R -> Z -> R * Z.
Variable shuffle : R -> list nat -> R * list nat.
(** The parameters of the model, examples/mesa/wealth.py:46. *)
Variable n : nat.
Variables width height : Z.

Inductive gexn := EIndex | EValue | EZeroDivision.
(** The model: its agents, and what is collected from the model and from the agents. *)
Record mmodel := MModel { mm_world : world cell R; mm_gini : list Q; mm_wealth : list (list (nat * Z)) }.

(** examples/mesa/wealth.py:53-59: [randrange(0)] raises a ValueError. *)
Fixpoint place_all (agents : list nat) (w : world cell R) : option (world cell R) :=
  match agents with
  | [] => Some w
  | a :: l =>
      if (width <=? 0) || (height <=? 0) then None
      else
        let '(r1, x) := draw (w_rng w) width in
        let '(r2, y) := draw r1 height in
        place_all l (World (w_wealth w) (fun b => if Nat.eqb b a then (x, y) else w_pos w b) r2)
  end.
(** examples/mesa/wealth.py:16-21 and 46-63. *)
Definition new_model (r : R) : option mmodel :=
  match place_all (seq 0 n) (World (fun _ => 1) (fun _ => (0, 0)) r) with
  | Some w => Some (MModel w [] [])
  | None => None
  end.

(** The activations of [schedule.step], until one of them raises. *)
Fixpoint activations (l : list nat) (w : world cell R) : world cell R * bool :=
  match l with
  | [] => (w, false)
  | a :: l' =>
      match money_step (around true width height) (seq 0 n) (fun _ => []) (fun _ => false) pick (fun l => l) a w with
      | (w1, true) => (w1, true)
      | (w1, false) => activations l' w1
      end
  end.
(** examples/mesa/wealth.py:65-67, with mesa's RandomActivation: every agent once, in an order drawn at each step. *)
Definition model_step (m : mmodel) : mmodel * option gexn :=
  let w := mm_world m in
  match gini (map (w_wealth w) (seq 0 n)) with
  | None => (m, Some EZeroDivision)
  | Some g =>
      let '(r1, order) := shuffle (w_rng w) (seq 0 n) in
      let '(w1, raised) := activations order (World (w_wealth w) (w_pos w) r1) in
      (MModel w1 (mm_gini m ++ [g]) (mm_wealth m ++ [map (fun a => (a, w_wealth w a)) (seq 0 n)]), if raised then Some EIndex else None)
  end.
(** Steps, one after another, until one of them raises. *)
Fixpoint model_run (k : nat) (m : mmodel) : mmodel * option gexn :=
  match k with
  | O => (m, None)
  | S k' => match model_step m with (m1, None) => model_run k' m1 | x => x end
  end.
End Model.
Arguments mmodel : clear implicits.
