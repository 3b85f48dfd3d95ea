(** What the styles of tests/test_agents.py have in common. *)
From Coq Require Import ZArith List Bool Arith String.
From Verif Require Import Num TimedModel TimedSpec AgentModel FsmModel StyleModel.
Import ListNotations.

(** The number of the state in which an agent is, from 0: that of [state_id] for an agent with states, and [my_state] for the others. *)
Definition in_state {R} (styles : aid -> style) (w : fworld sfun (sattrs R)) (a : aid) (i : nat) : Prop :=
  match styles a with
  | ByStates => option_map st_name (fa_cur (fw_agents w a)) = Some (name_of i)
  | _ => x_state (fw_rest w) a = i
  end.

(** All the waits of a script one after the other, each with the number of the state in which the agent is while it waits. *)
Fixpoint waits_from (i : nat) (l : list phase) : list (wait * nat) :=
  match l with
  | [] => []
  | ph :: l' => map (fun x => (x, i)) (ph_inner ph) ++ (ph_last ph, S i) :: waits_from (S i) l'
  end.
(** The [k]-th wait, from 0. *)
Definition nth_wait (sc : script) (k : nat) : wait * nat :=
  nth k (waits_from 0 (sc_phases sc)) (sc_rest sc, List.length (sc_phases sc)).
(** The state after [k] waits. *)
Definition state_after (sc : script) (k : nat) : nat :=
  match k with O => 0 | S k => snd (nth_wait sc k) end.

(** What the scheduler gets. *)
Definition asks {AR : Arith} (now : num) (x : wait) : outcome :=
  Ret (match x with WNone => None | WDelay d => Some d | WAt t => Some (n_add t (n_opp now)) end).
(** When the agent is woken then, with the default interval [di]; None for never. *)
Definition woken (di now : Z) (x : wait) : option Z :=
  match x with
  | WNone => Some (now + di)%Z
  | WDelay (Fin d) => Some (if Z.eqb d 0 then now + di else now + d)%Z
  | WAt (Fin t) => Some (if Z.eqb t now then now + di else t)%Z
  | _ => None
  end.
(** The first [n] instants of an agent that has made [k] waits and is activated at [t]. *)
Fixpoint timeline (di : Z) (sc : script) (n k : nat) (t : Z) : list num :=
  match n with
  | O => []
  | S n => Fin t :: match woken di t (fst (nth_wait sc k)) with Some t' => timeline di sc n (S k) t' | None => [] end
  end.
