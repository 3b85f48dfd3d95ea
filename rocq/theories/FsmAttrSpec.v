(** Small specification for the attributes of state machines. *)
From Coq Require Import List Bool Arith String.
From Verif Require Import PyDict FsmModel FsmAttrModel.
Import ListNotations.

(** The classes that can be made: from a class body, which binds each name once, and from
    other classes. *)
Inductive made {F V} (as_dict : V -> option (dict string V)) : fcls F V -> Prop :=
| Made bases ns c :
    (forall b, In (BFsm b) bases -> made as_dict b) ->
    dwf ns ->
    new_class as_dict bases ns = Some c ->
    made as_dict c.

(** The last state of a class body that has name [k]. *)
Definition last_state {F V} (ns : list (string * entry F V)) (k : string) (st : state F) : Prop :=
  exists l1 a l2, ns = (l1 ++ (a, EState st) :: l2)%list /\ st_name st = k /\
    forall b st', In (b, EState st') l2 -> st_name st' <> k.

(** No state of a class body has name [k]. *)
Definition no_state {F V} (ns : list (string * entry F V)) (k : string) : Prop :=
  forall b st', In (b, EState st') ns -> st_name st' <> k.
