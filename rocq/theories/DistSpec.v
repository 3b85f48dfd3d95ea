(** What distributions of agents should give. *)
From Coq Require Import List Bool Arith ZArith QArith Qround String.
From Verif Require Import PyDict DistModel.
Import ListNotations.

(** Intervals that follow each other from [a] to [b]. *)
Fixpoint tiles (a : Q) (l : list (Q * Q)) (b : Q) : Prop :=
  match l with
  | [] => a == b
  | (x, y) :: l' => x == a /\ tiles y l' b
  end.
(** The intervals of the entries that have one. *)
Fixpoint somes {X} (l : list (option X)) : list X :=
  match l with [] => [] | Some x :: l' => x :: somes l' | None :: l' => somes l' end.
Fixpoint sumQ (l : list Q) : Q := match l with [] => 0 | x :: l' => x + sumQ l' end.
(** The weight of an entry is the one given, or 1. *)
Definition weighs {R} (one : R) (d : dist R) (w : R) : Prop :=
  di_weight d = Some w \/ di_weight d = None /\ w = one.
(** [u] is in the interval. *)
Definition within (u : Q) (i : Q * Q) : Prop := fst i <= u /\ u < snd i.

Section Distro.
Context {V C : Type}.
(** All entries have a weight, and it is positive. *)
Definition weighted (distro : list (entry V C)) (ws : list Q) : Prop :=
  Forall2 (fun e w => en_weight e = Some w /\ 0 < w) distro ws.
Definition smallest (m : Q) (ws : list Q) : Prop := In m ws /\ forall w, In w ws -> m <= w.
(** What [random.choices] may return: as many as wanted, all indices of entries. *)
Definition may_choose (distro : list (entry V C)) (more : nat -> list nat) : Prop :=
  forall k, List.length (more k) = k /\ forall i, In i (more k) -> (i < List.length distro)%nat.
(** Agent [s] is of the type of entry [i]. *)
Definition of_type (df : defaults V C) (distro : list (entry V C)) (i : nat) (s : spec V C) : Prop :=
  exists e, nth_error distro i = Some e
    /\ sp_class s = match en_class e with Some c => Some c | None => df_class df end.
(** The value that [k] should have for an agent whose own state is [own]. *)
Definition overrides (k : string) (own dflt : dict string V) : option V :=
  match dget k own with Some v => Some v | None => dget k dflt end.
(** Whether an agent should be in the network. *)
Definition in_network (own : option bool) (topology : bool) (df : defaults V C) : bool :=
  match own with Some b => b | None => topology || df_topology df end.
Definition placed (s : spec V C) (b : bool) : Prop := sp_topology s = if b then Some true else None.
End Distro.
