(** Model of soil/time.py:43-118, [PQueueActivation]. *)
From Coq Require Import ZArith List Bool Arith.
From Verif Require Import Num TimedModel.
Import ListNotations.

(** An element of the heap, [((when, tie), agent)] (soil/time.py:70-77).  The tie breaker
    is a random number (its value counted in ticks of 2^-53) or the agent's id. *)
Definition entry := (num * Z * aid)%type.
Definition e_when (e : entry) : num := fst (fst e).
Definition e_agent (e : entry) : aid := snd e.

(** The scheduler object: as in [TimedModel.sched], but with a heap; [p_running] is the
    model's attribute [running] (soil/time.py:116). *)
Record pq := PQ {
  p_time : num;
  p_steps : nat;
  p_heap : list entry;
  p_reg : list aid;
  p_shuffle : bool;
  p_di : num;
  p_running : bool }.

Definition pset_heap (s : pq) h :=
  PQ (p_time s) (p_steps s) h (p_reg s) (p_shuffle s) (p_di s) (p_running s).
Definition pset_reg (s : pq) r :=
  PQ (p_time s) (p_steps s) (p_heap s) r (p_shuffle s) (p_di s) (p_running s).

(** User code, as in [TimedModel.user]; [p_draw] is [model.random.random()]. *)
Record puser (W : Type) := PUser {
  p_step : pq -> aid -> W -> W * list sop * outcome;
  p_draw : W -> W * Z }.
Arguments p_step {W}.
Arguments p_draw {W}.

(** Python's order on the tuples [(when, tie)]. *)
Definition key_ltb (x y : entry) : bool :=
  if n_eqb (fst (fst x)) (fst (fst y)) then Z.ltb (snd (fst x)) (snd (fst y))
  else n_ltb (fst (fst x)) (fst (fst y)).

(** The contract of [heapq]: position 0 holds a least element.  The heap is modelled as
    a list sorted by key; elements with equal keys are kept in order of arrival (with
    different ties, which is what the code relies on, there are none). *)
Fixpoint heappush (h : list entry) (e : entry) : list entry :=
  match h with
  | [] => [e]
  | x :: h' => if key_ltb e x then e :: x :: h' else x :: heappush h' e
  end.

Section WithPUser.
Context {AR : Arith}.
Context {W : Type}.
Variable u : puser W.

(** soil/time.py:67-77 [PQueueActivation._schedule].  The last component is true when
    [heapreplace] raises IndexError (empty heap). *)
Definition pq_schedule (s : pq) (w : W) (a : aid) (when : option num) (replace : bool)
  : pq * W * bool :=
  let when := match when with None => p_time s | Some t => t end in
  let '(w1, tie) := if p_shuffle s then p_draw u w else (w, Z.of_nat a) in
  let e := (when, tie, a) in
  if replace then
    match p_heap s with
    | [] => (s, w1, true)
    | _ :: h => (pset_heap s (heappush h e), w1, false)
    end
  else (pset_heap s (heappush (p_heap s) e), w1, false).

Definition preg_add (s : pq) (a : aid) : pq :=
  if existsb (Nat.eqb a) (p_reg s) then s else pset_reg s (p_reg s ++ [a]).
Definition preg_rem (s : pq) (a : aid) : pq :=
  pset_reg s (filter (fun b => negb (Nat.eqb a b)) (p_reg s)).

(** soil/time.py:58-65 [PQueueActivation.add]: line 64 passes [when] as the argument
    [replace], where its truth value is used. *)
Definition pq_add (s : pq) (w : W) (a : aid) (when : option num) : pq * W * bool :=
  let when := match when with None => p_time s | Some t => t end in
  let '(s1, w1, x) := pq_schedule s w a None (n_truthy when) in
  if x then (s1, w1, true) else (preg_add s1 a, w1, false).

(** Scheduler calls made by user code; an exception ends them. *)
Fixpoint pq_run_ops (s : pq) (w : W) (ops : list sop) : pq * W * list ev * bool :=
  match ops with
  | [] => (s, w, [], false)
  | SAdd a when :: ops' =>
      let '(s1, w1, x) := pq_add s w a when in
      if x then (s1, w1, [], true)
      else
        let '(s2, w2, tr, x2) := pq_run_ops s1 w1 ops' in
        (s2, w2, EvAdd (p_time s) a :: tr, x2)
  | SRem a :: ops' => pq_run_ops (preg_rem s a) w ops'
  end.

(** How the loop of [step] ends: normally with the value of [next_time], with an
    exception, or not within the given number of iterations. *)
Inductive pres :=
| PDone (s : pq) (w : W) (tr : list ev) (next_time : num)
| PRaised (s : pq) (w : W) (tr : list ev)
| PFuel.

Definition pres_pre (tr : list ev) (r : pres) : pres :=
  match r with
  | PDone s w tr' t => PDone s w (tr ++ tr') t
  | PRaised s w tr' => PRaised s w (tr ++ tr')
  | PFuel => PFuel
  end.

(** soil/time.py:92-109: the while loop. *)
Fixpoint pq_loop (fuel : nat) (now : num) (s : pq) (w : W) : pres :=
  match fuel with
  | O => PFuel
  | S fuel' =>
      match p_heap s with
      | [] => PDone s w [] PInf
      | e :: _ =>
          if n_ltb now (e_when e) then PDone s w [] (e_when e)
          else
            let a := e_agent e in
            let '(w1, ops, o) := p_step u s a w in
            let '(s1, w2, tr1, x) := pq_run_ops s w1 ops in
            let o := if x then Exc else o in
            let tr1 := tr1 ++ [EvAct now a o] in
            let pop := match p_heap s1 with
                       | [] => PRaised s1 w2 tr1   (* heappop: IndexError *)
                       | _ :: h => pres_pre tr1 (pq_loop fuel' now (pset_heap s1 h) w2)
                       end in
            match o with
            | Exc => PRaised s1 w2 tr1
            | Dead => pop
            | Ret r =>
                let when := n_add (or_num r (p_di s1)) now in
                if n_eqb when PInf then pop
                else
                  let '(s2, w3, x2) := pq_schedule s1 w2 a (Some when) true in
                  if x2 then PRaised s2 w3 tr1
                  else pres_pre tr1 (pq_loop fuel' now s2 w3)
            end
      end
  end.

(** soil/time.py:79-118 [PQueueActivation.step]; None when the loop does not end within
    the given number of iterations; the boolean tells whether an exception escaped. *)
Definition pq_step (fuel : nat) (s : pq) (w : W) : option (pq * W * list ev * bool) :=
  if n_eqb (p_time s) PInf then Some (s, w, [], false)
  else
    match pq_loop fuel (p_time s) s w with
    | PFuel => None
    | PRaised s1 w1 tr => Some (s1, w1, tr, true)
    | PDone s1 w1 tr next =>
        Some (PQ next (S (p_steps s1)) (p_heap s1) (p_reg s1) (p_shuffle s1) (p_di s1)
                 (if n_eqb next PInf then false else p_running s1),
              w1, tr, false)
    end.

(** Commands of the owner of the model, as in [TimedModel]; exceptions are caught. *)
Definition pq_cmd (fuel : nat) (s : pq) (w : W) (c : @cmd W)
  : option (pq * W * list ev) :=
  match c with
  | CStep => match pq_step fuel s w with
             | None => None
             | Some (s', w', tr, _) => Some (s', w', tr)
             end
  | CAdd a when =>
      let '(s', w', x) := pq_add s w a when in
      Some (s', w', if x then [] else [EvAdd (p_time s) a])
  | CRem a => Some (preg_rem s a, w, [])
  | CWorld f => Some (s, f w, [])
  end.

Fixpoint pq_hist (fuel : nat) (h : list (@cmd W)) (s : pq) (w : W)
  : option (pq * W * list ev) :=
  match h with
  | [] => Some (s, w, [])
  | c :: h' =>
      match pq_cmd fuel s w c with
      | None => None
      | Some (s1, w1, tr1) =>
          match pq_hist fuel h' s1 w1 with
          | None => None
          | Some (s2, w2, tr2) => Some (s2, w2, tr1 ++ tr2)
          end
      end
  end.
End WithPUser.

(** soil/time.py:51-56 [PQueueActivation.__init__]. *)
Definition pq_init (shuffle : bool) (di : num) : pq :=
  PQ (Fin 0) 0 [] [] shuffle di true.
