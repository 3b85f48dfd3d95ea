(** Specification for the runs of an iteration. *)
From Coq Require Import ZArith List Bool Arith String.
From Verif Require Import Num PyDict TimedModel TimedSpec RunModel.
Import ListNotations.

Section Arith.
Context {AR : Arith}.

Section S.
Context {W V : Type}.
Variable u : user W.
Variable running : W -> bool.

(** [stepped n e e' tr]: [n] calls to [model.step()], none of which raises, lead from [e]
    to [e'] and show the trace [tr]. *)
Inductive stepped : nat -> @env W V -> @env W V -> list ev -> Prop :=
| stepped_0 e : stepped 0 e e []
| stepped_S n e e1 e2 tr1 tr2 :
    stepped n e e1 tr1 -> env_step u e1 = (e2, tr2, false) ->
    stepped (S n) e e2 (tr1 ++ tr2).

(** The three reasons to stop. *)
Definition stopped_itself (e : @env W V) : Prop := running (e_world e) = false.
Definition time_reached (l : limits) (e : @env W V) : Prop :=
  exists t, max_time l = Some t /\ n_leb t (s_time (e_sched e)) = true.
Definition steps_reached (l : limits) (e : @env W V) : Prop :=
  exists m, max_steps l = Some m /\ (m <= Z.of_nat (s_steps (e_sched e)))%Z.
Definition reason (l : limits) (e : @env W V) : Prop :=
  stopped_itself e \/ time_reached l e \/ steps_reached l e.

(** No agent dies, fails or asks never to be woken again. *)
Definition immortal : Prop :=
  forall s a w, match u_step u s a w with
                | (_, _, Ret None) => True
                | (_, _, Ret (Some d)) => exists z, d = Fin z
                | _ => False
                end.
End S.

(** Each element is at most the next one. *)
Fixpoint non_decreasing (l : list num) : Prop :=
  match l with
  | a :: ((b :: _) as l') => n_leb a b = true /\ non_decreasing l'
  | _ => True
  end.

(** A history without steps: what a model's constructor does to its scheduler. *)
Definition setup {W} (h : list (@cmd W)) : bool :=
  forallb (fun c => match c with CStep => false | _ => true end) h.
End Arith.
