(** Model of the wealth examples: examples/mesa/social_wealth.py and examples/mesa/wealth.py. *)
From Coq Require Import ZArith QArith List Bool Arith.
From Verif Require Import PyDict.
Import ListNotations.
Local Open Scope Z_scope.

Section Wealth.
(** Cells of the grid, and states of the random generator. *)
Context {P R : Type} `{EP : Eqb P}.
Notation aid := nat (only parsing).
(** mesa's [get_neighborhood] without the centre; the agents on the grid; the neighbours of an
    agent in the network, and whether it is a SocialMoneyAgent. *)
Variable neighborhood : P -> list P.
Variable all : list aid.
Variable friends : aid -> list aid.
Variable social : aid -> bool.
(** [random.choice] of [n > 0] elements gives a position; the order of a set. *)
Variable pick : R -> nat -> R * nat.
Variable order : list aid -> list aid.

Record world := World { w_wealth : aid -> Z; w_pos : aid -> P; w_rng : R }.
Definition set_wealth (w : world) (a : aid) (v : Z) : world :=
  World (fun b => if Nat.eqb b a then v else w_wealth w b) (w_pos w) (w_rng w).

(** None is the IndexError of an empty list. *)
Definition choice {X} (l : list X) (w : world) : option (X * world) :=
  match l with
  | [] => None
  | x :: _ => let '(r, i) := pick (w_rng w) (List.length l) in
              Some (nth i l x, World (w_wealth w) (w_pos w) r)
  end.

(** examples/mesa/social_wealth.py:35-40. *)
Definition move (a : aid) (w : world) : option world :=
  match choice (neighborhood (w_pos w a)) w with
  | None => None
  | Some (p, w1) => Some (World (w_wealth w1) (fun b => if Nat.eqb b a then p else w_pos w1 b) (w_rng w1))
  end.
(** [get_cell_list_contents([self.pos])].  Simplification: the agents in a cell are in the order
    of [all], not in that of their arrival. *)
Definition cellmates (a : aid) (w : world) : list aid := filter (fun b => eqb (w_pos w b) (w_pos w a)) all.
(** examples/mesa/social_wealth.py:46-47, one line after the other. *)
Definition transfer (a other : aid) (w : world) : world :=
  let w1 := set_wealth w other (w_wealth w other + 1) in
  set_wealth w1 a (w_wealth w1 a - 1).
(** examples/mesa/social_wealth.py:42-47 and 59-73 (logging is left out). *)
Definition give_money (a : aid) (w : world) : world :=
  if social a then
    match choice (order (filter (fun b => existsb (Nat.eqb b) (friends a)) (cellmates a w))) w with
    | None => w
    | Some (other, w1) => transfer a other w1
    end
  else
    if Nat.ltb 1 (List.length (cellmates a w)) then
      match choice (cellmates a w) w with None => w | Some (other, w1) => transfer a other w1 end
    else w.
(** examples/mesa/social_wealth.py:49-53; the second component tells whether IndexError was
    raised. *)
Definition money_step (a : aid) (w : world) : world * bool :=
  match move a w with
  | None => (w, true)
  | Some w1 => (if 0 <? w_wealth w1 a then give_money a w1 else w1, false)
  end.
(** Any activations, one after another. *)
Definition steps (l : list aid) (w : world) : world := fold_left (fun w a => fst (money_step a w)) l w.
End Wealth.
Arguments world : clear implicits.
Arguments World {P R}.

(** compute_gini, examples/mesa/social_wealth.py:17-22.  Python's [sorted]: *)
Fixpoint insert (x : Z) (l : list Z) : list Z :=
  match l with [] => [x] | y :: l' => if x <=? y then x :: y :: l' else y :: insert x l' end.
Fixpoint sort (l : list Z) : list Z := match l with [] => [] | x :: l' => insert x (sort l') end.
Definition sum (l : list Z) : Z := fold_right Z.add 0 l.
(** The sum of [xi * (N - i)] over the elements from position [i] on. *)
Fixpoint weighted (n i : Z) (l : list Z) : Z :=
  match l with [] => 0 | x :: l' => x * (n - i) + weighted n (i + 1) l' end.
(** None is a ZeroDivisionError.  Simplification: fractions, not floats. *)
Definition gini (wealths : list Z) : option Q :=
  let x := sort wealths in
  let n := Z.of_nat (List.length wealths) in
  if (n * sum x =? 0) then None
  else Some (1 + (1 / inject_Z n) - 2 * (inject_Z (weighted n 0 x) / inject_Z (n * sum x)))%Q.
