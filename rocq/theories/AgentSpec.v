(** What users expect of agents: generator steps, class defaults and attributes. *)
From Coq Require Import ZArith List Bool Arith String.
From Verif Require Import Num PyDict TimedModel AgentModel.
Import ListNotations.

(** * Generator steps (C32) *)
Section Plays.
Context {W Q V : Type}.
Variable start : Q.
Variable resume : sched -> Q -> W -> W * list sop * gout Q V.
(** How the step ends when the body yields or returns a value. *)
Variable ends : V -> outcome.

(** [plays q l]: [l] are the successive activations of one agent whose body is suspended
    in [q].  Each one runs the body from where the previous one stopped; after a return
    it runs it from the beginning.  After an exception there is one activation that does
    nothing at all before the body is run from the beginning. *)
Inductive plays : Q -> list (record (W := W)) -> Prop :=
| plays_nil q : plays q []
| plays_yield q s w w' ops v q' l :
    resume s q w = (w', ops, GYield v q') -> plays q' l ->
    plays q ((s, w, w', ops, ends v) :: l)
| plays_return q s w w' ops v l :
    resume s q w = (w', ops, GReturn v) -> plays start l ->
    plays q ((s, w, w', ops, ends v) :: l)
| plays_raise q s w w' ops d :
    resume s q w = (w', ops, GRaise d) ->
    plays q [(s, w, w', ops, if d then Dead else Exc)]
| plays_idle q s w w' ops d s2 w2 l :
    resume s q w = (w', ops, GRaise d) -> plays start l ->
    plays q ((s, w, w', ops, if d then Dead else Exc) :: (s2, w2, w2, [], Ret None) :: l).
End Plays.

(** * Method resolution order (C35, C38) *)
Section Mro.
Context {I : Type}.

Definition same (x y : cls I) : bool := Nat.eqb (c_id x) (c_id y).

Definition drop_head (h : cls I) (l : list (cls I)) : list (cls I) :=
  match l with x :: l' => if same h x then l' else l | [] => [] end.

(** A head that is in the tail of no list. *)
Definition good (ls : list (list (cls I))) (h : cls I) : bool :=
  negb (existsb (fun l => existsb (same h) (tl l)) ls).
Definition candidate (ls : list (list (cls I))) : option (cls I) :=
  find (good ls) (flat_map (fun l => match l with x :: _ => [x] | [] => [] end) ls).

(** Python's C3 merge. *)
Fixpoint merge (n : nat) (ls : list (list (cls I))) : option (list (cls I)) :=
  if forallb (fun l => match l with [] => true | _ => false end) ls then Some []
  else match n with
       | O => None
       | S n => match candidate ls with
                | None => None
                | Some h => option_map (cons h) (merge n (map (drop_head h) ls))
                end
       end.

Fixpoint all_some {X} (l : list (option X)) : option (list X) :=
  match l with
  | [] => Some []
  | None :: _ => None
  | Some x :: l' => option_map (cons x) (all_some l')
  end.

(** The method resolution order of a class; None if it has none. *)
Fixpoint mro (c : cls I) : option (list (cls I)) :=
  match c with
  | Cls _ bases _ =>
      match all_some (map mro bases) with
      | None => None
      | Some ls =>
          option_map (cons c)
            (merge (List.length (List.concat ls) + List.length bases) (ls ++ [bases]))
      end
  end.

(** [x] is [c] or one of its ancestors. *)
Inductive ancestor : cls I -> cls I -> Prop :=
| anc_refl c : ancestor c c
| anc_base c b x : In b (c_bases c) -> ancestor b x -> ancestor c x.

(** Classes are different objects. *)
Definition coherent (c : cls I) : Prop :=
  forall x y, ancestor c x -> ancestor c y -> c_id x = c_id y -> x = y.

(** Single inheritance: at most one base, all the way up. *)
Fixpoint line (c : cls I) : option (list (cls I)) :=
  match c with
  | Cls _ [] _ => Some [c]
  | Cls _ [b] _ => option_map (cons c) (line b)
  | _ => None
  end.
End Mro.

(** The last value that the body of a class gives to [k]. *)
Fixpoint body_value {V} (k : string) (own : list (item V)) : option V :=
  match own with
  | [] => None
  | i :: own' =>
      match body_value k own' with
      | Some v => Some v
      | None =>
          match i with
          | IAttr k' v => if String.eqb k k' then Some v else None
          | IDefaults d => match find (fun p => String.eqb k (fst p)) (rev d) with
                           | Some p => Some (snd p)
                           | None => None
                           end
          end
      end
  end.

(** The first class of a list whose body defines [k]. *)
Fixpoint first_value {V} (k : string) (l : list (cls (item V))) : option V :=
  match l with
  | [] => None
  | c :: l' => match body_value k (c_own c) with Some v => Some v | None => first_value k l' end
  end.

(** The last of a list of results. *)
Fixpoint last_some {X} (l : list (option X)) : option X :=
  match l with
  | [] => None
  | o :: l' => match last_some l' with Some x => Some x | None => o end
  end.

(** * Attributes after construction (C37) *)

(** [v] is a copy of [d] made after the heap was [h]: a new object with the same
    contents, or the same thing if it is not an object. *)
Definition fresh_copy {C} (h h' : list C) (d v : val) : Prop :=
  match d with
  | VRef l => exists l', v = VRef l' /\ List.length h <= l' /\ nth_error h' l' = nth_error h l
  | _ => v = d
  end.

(** The names to which the constructor gives a value that is not None, and the names
    that it sets. *)
Definition reserved : list string := ["unique_id"; "model"; "name"; "alive"; "logger"]%string.
Definition preset : list string := ("pos" :: reserved)%string.
