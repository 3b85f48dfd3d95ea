(** What is expected of reporters. *)
From Coq Require Import List Bool String.
From Verif Require Import ReportModel.
Import ListNotations.
Local Open Scope string_scope.

(** A call of [add_agent_reporter]: the name, what is given as the reporter (nothing, an attribute
    or a function) and the class. *)
Inductive given (A V : Type) := Nothing | Attribute (s : string) | Function (f : A -> result V).
Arguments Nothing {A V}. Arguments Attribute {A V}. Arguments Function {A V}.
Definition as_reporter {A T V} (g : given A V) : reporter A T V :=
  match g with Nothing => PNone | Attribute s => PStr s | Function f => PFun f end.

Section S.
Context {A T V : Type}.
Variable none : V.
Variable getattr : A -> string -> result V.

(** The last call with a name. *)
Fixpoint last_call (name : string) (l : list (string * given A V * option T)) : option (given A V * option T) :=
  match l with
  | [] => None
  | (k, g, t) :: l' => match last_call name l' with
                       | Some x => Some x
                       | None => if String.eqb k name then Some (g, t) else None
                       end
  end.
(** What is reported of an agent without a class: the function, or the attribute, that of the name
    by default; None for a missing attribute. *)
Definition attribute (a : A) (s : string) : result V :=
  match getattr a s with AttributeError => Value none | x => x end.
Definition expected (name : string) (g : given A V) (a : A) : result V :=
  match g with
  | Nothing | Attribute "" => attribute a name
  | Attribute s => attribute a s
  | Function f => f a
  end.
(** The state after some calls. *)
Definition after (l : list (string * given A V * option T)) : env A T V :=
  fold_left (fun e x => let '(name, g, t) := x in add_agent_reporter name (as_reporter g) t e) l (Env [] []).
End S.
