(** Model of soil/time.py:206-228, [Lockstepper], wrapped around a [TimedActivation]. *)
From Coq Require Import ZArith List Bool Arith.
From Verif Require Import Num TimedModel.
Import ListNotations.

(** The wrapper object.  Attributes that it does not define ([add], [remove], ...) are
    those of the wrapped scheduler (soil/time.py:227-228). *)
Record lock := Lock {
  l_sched : sched;
  l_time : num;
  l_steps : nat;
  l_interval : num }.

(** soil/time.py:212-216 [Lockstepper.__init__]. *)
Definition lock_init (s : sched) (interval : num) : lock := Lock s (s_time s) 0 interval.

Section WithUser.
Context {AR : Arith}.
Context {W : Type}.
Variable u : user W.

(** soil/time.py:221-222: the while loop; None when it does not end within the given
    number of iterations.  The boolean tells whether an exception escaped. *)
Fixpoint lock_loop (fuel : nat) (end_time : num) (s : sched) (w : W)
  : option (sched * W * list ev * bool) :=
  match fuel with
  | O => None
  | S fuel' =>
      if n_ltb (s_time s) end_time then
        let '(s1, w1, tr1, x) := timed_step u s w in
        if x then Some (s1, w1, tr1, true)
        else match lock_loop fuel' end_time s1 w1 with
             | None => None
             | Some (s2, w2, tr2, x2) => Some (s2, w2, tr1 ++ tr2, x2)
             end
      else Some (s, w, [], false)
  end.

(** soil/time.py:218-225 [Lockstepper.step]. *)
Definition lock_step (fuel : nat) (l : lock) (w : W) : option (lock * W * list ev * bool) :=
  let end_time := n_add (l_time l) (l_interval l) in
  match lock_loop fuel end_time (l_sched l) w with
  | None => None
  | Some (s, w', tr, true) =>
      Some (Lock s (l_time l) (l_steps l) (l_interval l), w', tr, true)
  | Some (s, w', tr, false) =>
      Some (Lock s end_time (S (l_steps l)) (l_interval l), w', tr, false)
  end.

(** Commands of the owner of the model; [CStep] is the wrapper's [step]. *)
Definition lock_cmd (fuel : nat) (l : lock) (w : W) (c : @cmd W)
  : option (lock * W * list ev) :=
  match c with
  | CStep => match lock_step fuel l w with
             | None => None
             | Some (l', w', tr, _) => Some (l', w', tr)
             end
  | _ => let '(s', w', tr) := run_cmd u (l_sched l) w c in
         Some (Lock s' (l_time l) (l_steps l) (l_interval l), w', tr)
  end.

Fixpoint lock_hist (fuel : nat) (h : list (@cmd W)) (l : lock) (w : W)
  : option (lock * W * list ev) :=
  match h with
  | [] => Some (l, w, [])
  | c :: h' =>
      match lock_cmd fuel l w c with
      | None => None
      | Some (l1, w1, tr1) =>
          match lock_hist fuel h' l1 w1 with
          | None => None
          | Some (l2, w2, tr2) => Some (l2, w2, tr1 ++ tr2)
          end
      end
  end.
End WithUser.
