(** What agents that wait for messages do, in terms of what was told, what was handled and when each agent was activated. *)
From Coq Require Import ZArith List Bool Arith.
From Verif Require Import Num TimedModel.
Import ListNotations.
Local Open Scope Z_scope.

(** The three parts of an entry: when, after how many activations of the receiver, and the payload. *)
Definition when_of {V} (e : num * nat * V) : num := fst (fst e).
Definition turn_of {V} (e : num * nat * V) : nat := snd (fst e).
Definition text_of {V} (e : num * nat * V) : V := snd e.

(** A message is told at [t], when the receiver, which was added for [t0] and polls every [d], has completed [i] activations; the interval of the
    simulation is [di].  The last moment at which it is handled (with exact arithmetic): *)
Definition handled_by (t0 d di : Z) (i : nat) (t : num) : num :=
  match i with O => Fin t0 | S _ => match t with Fin t => Fin (t + d + di) | _ => t end end.
(** The activations of the receiver are [l].  What was told after [i] activations was handled in activation number [j], from 0: the next one, or
    the one after it if the next one ended without a delay, after a wait. *)
Definition in_turn (l : list (num * outcome)) (i j : nat) : Prop :=
  j = i \/ j = S i /\ exists i' t d t', i = S i' /\ nth_error l i' = Some (t, Ret (Some d)) /\ nth_error l i = Some (t', Ret None).
