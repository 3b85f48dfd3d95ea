(** Specification of the order in which the agents of one instant run when the scheduler
    does not shuffle them (soil/time.py), in terms of the observable trace. *)
From Coq Require Import ZArith List Bool Arith.
From Verif Require Import Num TimedModel TimedSpec.
Import ListNotations.

Section Arith.
Context {AR : Arith}.

(** First come, first served: every activation is for the appointment that was made
    first among those with the earliest instant.  The appointments [ag] are listed in the
    order in which they were made. *)
Fixpoint first_come (di : num) (ag : list (num * aid)) (tr : list ev) : Prop :=
  match tr with
  | [] => True
  | EvAdd t a :: tr' => first_come di (ag ++ [(t, a)]) tr'
  | EvAct t a o :: tr' =>
      (exists l1 l2, ag = l1 ++ (t, a) :: l2 /\
         (forall p, In p l1 -> n_ltb t (fst p) = true) /\
         (forall p, In p l2 -> n_leb t (fst p) = true)) /\
      first_come di (remove1 (t, a) ag ++ opt_due a (next_due di t o)) tr'
  end.

(** The order of tuples [(instant, number)] in Python. *)
Definition before (x y : num * aid) : Prop :=
  n_ltb (fst x) (fst y) = true \/ fst x = fst y /\ snd x < snd y.

(** Nobody asks to be woken again at the same instant: every activation of the trace that
    leads to another one leads to a later instant.  (With exact arithmetic: all the delays
    are positive.) *)
Definition onward (tr : list ev) (di : num) : Prop :=
  Forall (fun e => match e with
                   | EvAct t a o => match next_due di t o with
                                    | Some t' => n_ltb t t' = true
                                    | None => True
                                    end
                   | EvAdd _ _ => True
                   end) tr.
End Arith.

(** In this trace, agent [b] always asks to be woken after [d]. *)
Definition paced (di : num) (d : Z) (b : aid) (tr : list ev) : Prop :=
  forall t o, In (EvAct t b o) tr -> next_due (AR := exact) di t o = Some (x_add t (Fin d)).
