(** Model of flatten_dict and unflatten_dict: soil/utils.py:88-124. *)
From Coq Require Import List Bool Ascii String.
From Verif Require Import PyDict.
Import ListNotations.
Local Open Scope string_scope.

Section Flat.
(** Values that are not dictionaries, and keys that are not strings; [str_of k] is what
    [str.format] writes for [k]. *)
Context {V K : Type} `{EK : Eqb K}.
Variable str_of : K -> string.

Inductive key := KStr (s : string) | KOther (k : K).
#[global, refine] Instance Eqb_key : Eqb key := {|
  eqb a b := match a, b with
             | KStr s, KStr t => eqb s t
             | KOther k, KOther l => eqb k l
             | _, _ => false
             end |}.
Proof.
  intros [s|k] [t|l]; try rewrite eqb_eq; split; intros E; try congruence; try discriminate; now injection E.
Defined.

(** Nested dictionaries. *)
Inductive tree := Leaf (v : V) | Node (d : list (key * tree)).

Definition fmt (k : key) : string := match k with KStr s => s | KOther k => str_of k end.
(** soil/utils.py:99-100. *)
Definition with_dot (prefix : string) : string :=
  match prefix with EmptyString => EmptyString | _ => prefix ++ "." end.

(** soil/utils.py:94-105. *)
Fixpoint flat (prefix : string) (t : tree) : list (string * V) :=
  match t with
  | Leaf v => [(prefix, v)]
  | Node d =>
      (fix go d := match d with
                   | [] => []
                   | (k, t') :: d' => (flat (with_dot prefix ++ fmt k) t' ++ go d')%list
                   end) d
  end.

(** soil/utils.py:88-91. *)
Definition flatten (t : tree) : tree :=
  match t with
  | Leaf v => Leaf v
  | Node d => Node (dict_of (map (fun p => (KStr (fst p), Leaf (snd p))) (flat "" t)))
  end.

(** [k.split(".")]. *)
Fixpoint split (s : string) : list string :=
  match s with
  | EmptyString => [EmptyString]
  | String c s' =>
      if Ascii.eqb c "."%char then EmptyString :: split s'
      else match split s' with
           | [] => [String c EmptyString]
           | t :: l => String c t :: l
           end
  end.

(** soil/utils.py:118-123: [target] is followed along all tokens but the last.  None is the
    TypeError of a target that is not a dictionary (simplification: none of the values that
    are not dictionaries can be used as one). *)
Fixpoint insert (tokens : list string) (v : tree) (target : list (key * tree))
  : option (list (key * tree)) :=
  match tokens with
  | [] => None
  | [k] => Some (dset (KStr k) v target)
  | k :: tokens' =>
      match match dget (KStr k) target with
            | None => insert tokens' v []
            | Some (Node d) => insert tokens' v d
            | Some (Leaf _) => None
            end with
      | None => None
      | Some d' => Some (dset (KStr k) (Node d') target)
      end
  end.
(** soil/utils.py:110-123, one key.  (A single token is the key itself.) *)
Definition unflatten_one (out : option (list (key * tree))) (p : key * tree) : option (list (key * tree)) :=
  match out with
  | None => None
  | Some out =>
      match fst p with
      | KOther k => Some (dset (KOther k) (snd p) out)
      | KStr k => insert (split k) (snd p) out
      end
  end.
(** soil/utils.py:108-124.  None is an exception (for what is not a dictionary, the
    AttributeError of [d.items]). *)
Definition unflatten (t : tree) : option tree :=
  match t with
  | Leaf _ => None
  | Node d => match fold_left unflatten_one d (Some []) with
              | None => None
              | Some out => Some (Node out)
              end
  end.
End Flat.
Arguments key : clear implicits.
Arguments tree : clear implicits.
Arguments KStr {K}. Arguments KOther {K}.
Arguments Leaf {V K}. Arguments Node {V K}.
