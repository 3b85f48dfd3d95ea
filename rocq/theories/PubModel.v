(** Model of examples/pubcrawl/pubcrawl_sim.py: the pubs of a city and the patrons in them. *)
From Coq Require Import ZArith List Bool Arith.
From Verif Require Import PyDict.
Import ListNotations.
Local Open Scope Z_scope.

(** examples/pubcrawl/pubcrawl_sim.py:19-24.  The name of a pub is its number. *)
Record pub := Pub { p_open : bool; p_capacity : Z; p_occupancy : Z }.
Notation name := nat (only parsing).
(** The patrons, and the attribute [pub] of each of them.  The class attribute of
    examples/pubcrawl/pubcrawl_sim.py:71 is moved to the defaults by the metaclass
    (soil/agents/__init__.py:97-98) and is set on each agent (138-140), so that it may be
    deleted: [None] is a deleted attribute, [Some None] the value None. *)
Notation patron := nat (only parsing).
Record city := City { c_pubs : dict name pub; c_pub : patron -> option (option name) }.

Definition set_pub (c : city) (a : patron) (v : option (option name)) : city :=
  City (c_pubs c) (fun b => if Nat.eqb b a then v else c_pub c b).

(** examples/pubcrawl/pubcrawl_sim.py:16-25. *)
Definition new_city (number_of_pubs : nat) (capacity : Z) : city :=
  City (map (fun i => (i, Pub true capacity 0)) (seq 0 number_of_pubs)) (fun _ => Some None).

(** AttributeError: the environment has no method of that name; KeyError: soil/agents/__init__.py:184-188. *)
Inductive result := Returns (b : bool) | NoValue | ValueError | AttributeError | KeyError.

(** examples/pubcrawl/pubcrawl_sim.py:31-42. *)
Definition enter (p : name) (nodes : list patron) (c : city) : city * result :=
  match dget p (c_pubs c) with
  | None => (c, ValueError)
  | Some b =>
      let k := Z.of_nat (List.length nodes) in
      if negb (p_open b) || (p_capacity b <? k + p_occupancy b) then (c, Returns false)
      else
        let c1 := City (dset p (Pub (p_open b) (p_capacity b) (p_occupancy b + k)) (c_pubs c)) (c_pub c) in
        (fold_left (fun c a => set_pub c a (Some (Some p))) nodes c1, Returns true)
  end.

(** examples/pubcrawl/pubcrawl_sim.py:44-47. *)
Definition available (c : city) : list name :=
  map fst (filter (fun e => p_open (snd e) && (p_occupancy (snd e) <? p_capacity (snd e))) (c_pubs c)).

Section Exit.
(** [self.get_agent], examples/pubcrawl/pubcrawl_sim.py:56, if there is such a method (any
    function from ids to patrons). *)
Variable get_agent : option (nat -> patron).

(** examples/pubcrawl/pubcrawl_sim.py:55-59. *)
Fixpoint leave (p : name) (ids : list nat) (c : city) : city * result :=
  match ids with
  | [] => (c, NoValue)
  | i :: ids' =>
      match get_agent with
      | None => (c, AttributeError)
      | Some get =>
          let a := get i in
          match c_pub c a with
          | None => (c, KeyError)
          | Some at_ =>
              if match at_ with Some q => Nat.eqb p q | None => false end
              then
                let c1 := set_pub c a None in
                match dget p (c_pubs c) with
                | None => (c1, ValueError) (* never: see [exit] *)
                | Some b =>
                    leave p ids' (City (dset p (Pub (p_open b) (p_capacity b) (p_occupancy b - 1)) (c_pubs c1)) (c_pub c1))
                end
              else leave p ids' c
          end
      end
  end.
(** examples/pubcrawl/pubcrawl_sim.py:49-59. *)
Definition exit (p : name) (ids : list nat) (c : city) : city * result :=
  match dget p (c_pubs c) with
  | None => (c, ValueError)
  | Some _ => leave p ids c
  end.

(** Calls of the two methods, one after another. *)
Inductive call := Enter (p : name) (nodes : list patron) | Exit (p : name) (ids : list nat).
Definition one_call (x : call) (c : city) : city * result :=
  match x with Enter p nodes => enter p nodes c | Exit p ids => exit p ids c end.
Definition calls (l : list call) (c : city) : city := fold_left (fun c x => fst (one_call x c)) l c.
End Exit.

(** The environment has no method [get_agent]: neither examples/pubcrawl/pubcrawl_sim.py:8-59 nor
    soil/environment.py:24-436 nor mesa's [Model] have one. *)
Definition city_get_agent : option (nat -> patron) := None.

(** examples/pubcrawl/pubcrawl_sim.py:92-103: the state function of a patron with its group; the
    result tells whether the next state is [sober_in_pub], or is an exception.  (The generator
    of available pubs is not resumed after a change.) *)
Fixpoint try_pubs (a : patron) (group : list patron) (l : list name) (c : city) : city * bool :=
  match l with
  | [] => (c, false)
  | p :: l' =>
      match enter p (a :: group) c with
      | (c1, Returns true) => (c1, true)
      | (c1, _) => try_pubs a group l' c1
      end
  end.
Definition looking_for_pub (a : patron) (group : list patron) (c : city) : city * option bool :=
  match c_pub c a with
  | None => (c, None)
  | Some (Some _) => (c, Some true)
  | Some None => let '(c1, b) := try_pubs a group (available c) c in (c1, Some b)
  end.
