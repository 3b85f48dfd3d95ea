(** Model of soil/time.py:121-203, [TimedActivation] and its two subclasses, on top of
    the part of mesa's [BaseScheduler] that it uses. *)
From Coq Require Import ZArith List Bool Arith.
From Verif Require Import Num.
Import ListNotations.

(** Agents are identified by a number (object identity). *)
Definition aid := nat.

(** The scheduler object.
    [s_time], [s_steps] and [s_reg] are mesa's [BaseScheduler.time], [.steps] and
    [._agents]; [s_queue] is the deque of (instant, list of agents) of
    soil/time.py:125; [s_shuffle] is soil/time.py:126; [s_di] is [default_interval],
    soil/time.py:36. *)
Record sched := Sched {
  s_time : num;
  s_steps : nat;
  s_queue : list (num * list aid);
  s_reg : list aid;
  s_shuffle : bool;
  s_di : num }.

Definition set_queue (s : sched) q :=
  Sched (s_time s) (s_steps s) q (s_reg s) (s_shuffle s) (s_di s).
Definition set_time (s : sched) t :=
  Sched t (s_steps s) (s_queue s) (s_reg s) (s_shuffle s) (s_di s).
Definition set_steps (s : sched) n :=
  Sched (s_time s) n (s_queue s) (s_reg s) (s_shuffle s) (s_di s).
Definition set_reg (s : sched) r :=
  Sched (s_time s) (s_steps s) (s_queue s) r (s_shuffle s) (s_di s).

(** What calling an agent's [step] method ends in: a value (None or a number),
    the exception [DeadAgent] (soil/time.py:31), or another exception. *)
Inductive outcome := Ret (d : option num) | Dead | Exc.

(** Calls that user code can make on the scheduler while it runs. *)
Inductive sop :=
| SAdd (a : aid) (when : option num)   (* model.schedule.add(a, when=when) *)
| SRem (a : aid).                      (* model.schedule.remove(a) *)

(** User code.  [W] is the rest of the world (agents' attributes, graph, random
    generator, ...).  [u_step s a w] is the effect of [a.step()] when called with
    scheduler state [s] and world [w]: the new world, the scheduler calls made, in
    order, and how the call ended.  [u_shuffle] is [model.random.shuffle]. *)
Record user (W : Type) := User {
  u_step : sched -> aid -> W -> W * list sop * outcome;
  u_shuffle : list aid -> W -> W * list aid }.
Arguments u_step {W}.
Arguments u_shuffle {W}.

(** What an observer sees: additions (with the clock at that moment) and completed
    activations (with the clock and how they ended). *)
Inductive ev :=
| EvAdd (t : num) (a : aid)
| EvAct (t : num) (a : aid) (o : outcome).

(** soil/time.py:140-148: the loop over the buckets of [_schedule]. *)
Fixpoint insert_bucket (q : list (num * list aid)) (when : num) (a : aid)
  : list (num * list aid) :=
  match q with
  | [] => [(when, [a])]
  | l :: q' =>
      if n_eqb (fst l) when then (fst l, snd l ++ [a]) :: q'
      else if n_ltb when (fst l) then (when, [a]) :: l :: q'
      else l :: insert_bucket q' when a
  end.

(** soil/time.py:138-148 [TimedActivation._schedule].  The [replace] argument is not
    used by the code. *)
Definition timed_schedule (s : sched) (a : aid) (when : option num) : sched :=
  set_queue s (insert_bucket (s_queue s) (or_num when (s_time s)) a).

(** mesa [BaseScheduler.add]: insertion in an ordered set. *)
Definition reg_add (s : sched) (a : aid) : sched :=
  if existsb (Nat.eqb a) (s_reg s) then s else set_reg s (s_reg s ++ [a]).

(** mesa [BaseScheduler.remove]: deletion from an ordered set.  The [KeyError] for a
    missing agent is left to the user code (BaseAgent.die catches it). *)
Definition reg_rem (s : sched) (a : aid) : sched :=
  set_reg s (filter (fun b => negb (Nat.eqb a b)) (s_reg s)).

(** soil/time.py:130-136 [TimedActivation.add].  Line 135 passes [when] as the third
    argument, [replace]; the second argument is the constant None. *)
Definition timed_add (s : sched) (a : aid) (when : option num) : sched :=
  reg_add (timed_schedule s a None) a.

(** One scheduler call made by user code, and what is observed. *)
Definition run_op (s : sched) (op : sop) : sched * list ev :=
  match op with
  | SAdd a when => (timed_add s a when, [EvAdd (s_time s) a])
  | SRem a => (reg_rem s a, [])
  end.

Fixpoint run_ops (s : sched) (ops : list sop) : sched * list ev :=
  match ops with
  | [] => (s, [])
  | op :: ops' =>
      let '(s1, e1) := run_op s op in
      let '(s2, e2) := run_ops s1 ops' in
      (s2, e1 ++ e2)
  end.

Section WithUser.
Context {AR : Arith}.
Context {W : Type}.
Variable u : user W.

(** soil/time.py:169-177: the loop over the agents of the bucket.  The last component
    tells whether an exception other than DeadAgent escaped. *)
Fixpoint run_bucket (now : num) (bucket : list aid) (s : sched) (w : W)
  : sched * W * list ev * bool :=
  match bucket with
  | [] => (s, w, [], false)
  | a :: rest =>
      let '(w1, ops, o) := u_step u s a w in
      let '(s1, tr1) := run_ops s ops in
      let tr1 := tr1 ++ [EvAct now a o] in
      match o with
      | Exc => (s1, w1, tr1, true)
      | Dead =>
          let '(s2, w2, tr2, x) := run_bucket now rest s1 w1 in
          (s2, w2, tr1 ++ tr2, x)
      | Ret r =>
          (* when = agent.step() or self.default_interval; when += now *)
          let when := n_add (or_num r (s_di s1)) now in
          let s2 := if negb (n_eqb when PInf) then timed_schedule s1 a (Some when) else s1 in
          let '(s3, w3, tr3, x) := run_bucket now rest s2 w1 in
          (s3, w3, tr1 ++ tr3, x)
      end
  end.

(** soil/time.py:150-183 [TimedActivation.step]. *)
Definition timed_step (s : sched) (w : W) : sched * W * list ev * bool :=
  match s_queue s with
  | [] => (s, w, [], false)
  | (next_time, bucket) :: q' =>
      let now := s_time s in
      if n_ltb now next_time then (set_time s next_time, w, [], false)
      else
        let s0 := set_queue s q' in
        let '(w0, bucket0) := if s_shuffle s then u_shuffle u bucket w else (w, bucket) in
        let '(s1, w1, tr, x) := run_bucket now bucket0 s0 w0 in
        if x then (s1, w1, tr, true)
        else
          let s2 := set_steps s1 (S (s_steps s1)) in
          let s3 := match s_queue s2 with
                    | [] => set_time s2 PInf
                    | (t, _) :: _ => set_time s2 t
                    end in
          (s3, w1, tr, false)
  end.

(** What the owner of the model can do: step, add, remove, or change the world.  An
    exception that escapes from a step is caught by the caller and the history goes
    on. *)
Inductive cmd :=
| CStep
| CAdd (a : aid) (when : option num)
| CRem (a : aid)
| CWorld (f : W -> W).

Definition run_cmd (s : sched) (w : W) (c : cmd) : sched * W * list ev :=
  match c with
  | CStep => let '(s', w', tr, _) := timed_step s w in (s', w', tr)
  | CAdd a when => let '(s', tr) := run_op s (SAdd a when) in (s', w, tr)
  | CRem a => let '(s', tr) := run_op s (SRem a) in (s', w, tr)
  | CWorld f => (s, f w, [])
  end.

Fixpoint run_hist (h : list cmd) (s : sched) (w : W) : sched * W * list ev :=
  match h with
  | [] => (s, w, [])
  | c :: h' =>
      let '(s1, w1, tr1) := run_cmd s w c in
      let '(s2, w2, tr2) := run_hist h' s1 w1 in
      (s2, w2, tr1 ++ tr2)
  end.
End WithUser.
Arguments CStep {W}.
Arguments CAdd {W}.
Arguments CRem {W}.
Arguments CWorld {W}.

(** soil/time.py:123-128 [TimedActivation.__init__] (with mesa's zero clock and step
    counter). *)
Definition timed_init (shuffle : bool) (di : num) : sched :=
  Sched (Fin 0) 0 [] [] shuffle di.

(** soil/time.py:35-40 [DiscreteActivation.__init__]: [m_default] and [m_interval] are
    the attributes [default_interval] and [interval] that the model has at that moment,
    if any, and [one] is the number 1.  The result is the scheduler's default interval,
    or None when the constructor raises AttributeError. *)
Definition discrete_interval (one : num) (m_default m_interval : option num)
  : option num :=
  match m_default with
  | Some _ => m_interval
  | None => Some one
  end.

(** soil/environment.py:97-104, the part of [BaseEnvironment.__init__] that creates the
    scheduler and then stores the parameters.  [c_default], [c_interval] are the
    attributes [default_interval] and [interval] of the class of the model, and
    [p_default], [p_interval] the parameters of the same names.  The result is the
    default interval of the scheduler and the attribute [default_interval] of the
    model, or None when the constructor raises. *)
Definition env_interval (one : num) (c_default c_interval p_default p_interval : option num)
  : option (num * option num) :=
  match discrete_interval one c_default c_interval with
  | None => None
  | Some i =>
      Some (i, match p_default with Some d => Some d | None => c_default end)
  end.
