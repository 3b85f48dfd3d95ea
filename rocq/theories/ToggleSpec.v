(** When an agent that goes to and fro between two states is activated. *)
From Coq Require Import ZArith List Bool Arith.
From Verif Require Import Num TimedModel.
Import ListNotations.
Local Open Scope Z_scope.

(** [gap di d z]: an agent that returns the delay [d] (None for no delay) waits [z]; the default interval [di] if there is no delay or it is zero. *)
Inductive gap (di : Z) : option num -> Z -> Prop :=
| gap_none : gap di None di
| gap_zero : gap di (Some (Fin 0)) di
| gap_some z : 0 < z -> gap di (Some (Fin z)) z.
(** Its activation number [k], from 0, when it waits [p] in the first state and [q] in the second: it has left the first (k + 1) / 2 times and the second
    k / 2 times. *)
Definition toggle_at (t0 p q : Z) (k : nat) : Z := t0 + Z.of_nat ((k + 1) / 2) * p + Z.of_nat (k / 2) * q.
