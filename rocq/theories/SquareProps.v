(** The streets of a square city (examples/markov_chains/markov_sim.py:128-136). *)
From Coq Require Import ZArith List Bool Arith Lia.
From Verif Require Import CityModel CityProofs.
Import ListNotations.

(** Neighbours in a grid: one coordinate is the same, and the other one more. *)
Definition next_to (p q : nat * nat) : Prop := (fst q = S (fst p) /\ snd q = snd p) \/ (fst q = fst p /\ snd q = S (snd p)).
Definition inside_square (side : nat) (p : nat * nat) : Prop := fst p < side /\ snd p < side.

Lemma square_in side p q : In (p, q) (square_edges side) <-> inside_square side p /\ inside_square side q /\ next_to p q.
Proof.
  unfold square_edges, inside_square, next_to. rewrite in_flat_map. destruct p as [i j], q as [k l]. cbn [fst snd]. split.
  - intros (x & X & H). rewrite in_flat_map in H. destruct H as (y & Y & H). apply in_seq in X, Y. apply in_app_or in H.
    destruct H as [H|H].
    + destruct (Nat.ltb_spec (S x) side); [|destruct H]. destruct H as [H|[]]. injection H as <- <- <- <-. lia.
    + destruct (Nat.ltb_spec (S y) side); [|destruct H]. destruct H as [H|[]]. injection H as <- <- <- <-. lia.
  - intros ([A B] & [C D] & H). exists i. split; [apply in_seq; lia|]. rewrite in_flat_map. exists j. split; [apply in_seq; lia|].
    apply in_or_app. destruct H as [[-> ->]|[-> ->]].
    + left. destruct (Nat.ltb_spec (S i) side); [now left|lia].
    + right. destruct (Nat.ltb_spec (S j) side); [now left|lia].
Qed.
Lemma sum_flat {A B} (f : A -> list B) l : List.length (flat_map f l) = list_sum (map (fun x => List.length (f x)) l).
Proof. induction l as [|x l IH]; cbn; auto. now rewrite app_length, IH. Qed.
Lemma sum_last (g : nat -> nat) n m : list_sum (map (fun i => g i + (if S i <? n then m else 0)) (seq 0 n)) = list_sum (map g (seq 0 n)) + (n - 1) * m.
Proof.
  assert (K : forall len k, k + len = n -> list_sum (map (fun i => g i + (if S i <? n then m else 0)) (seq k len)) = list_sum (map g (seq k len)) + (len - 1) * m).
  { induction len as [|len IH]; intros k E; [reflexivity|]. cbn [seq map]. cbn [list_sum fold_right]. 
    change (fold_right Nat.add 0 (map (fun i => g i + (if S i <? n then m else 0)) (seq (S k) len))) with (list_sum (map (fun i => g i + (if S i <? n then m else 0)) (seq (S k) len))).
    change (fold_right Nat.add 0 (map g (seq (S k) len))) with (list_sum (map g (seq (S k) len))).
    rewrite IH by lia. destruct (Nat.ltb_spec (S k) n); destruct len; cbn; nia. }
  apply K. reflexivity.
Qed.
Lemma square_count side : List.length (square_edges side) = 2 * side * (side - 1).
Proof.
  unfold square_edges. rewrite sum_flat.
  assert (R : forall i, List.length (flat_map (fun j => (if S i <? side then [((i, j), (S i, j))] else []) ++ (if S j <? side then [((i, j), (i, S j))] else [])) (seq 0 side)) =
     (side - 1) + (if S i <? side then side else 0)).
  { intros i. rewrite sum_flat.
    rewrite (map_ext _ (fun j => (if S i <? side then 1 else 0) + (if S j <? side then 1 else 0))).
    2:{ intros j. rewrite app_length. destruct (S i <? side), (S j <? side); reflexivity. }
    rewrite (sum_last (fun _ => if S i <? side then 1 else 0)).
    assert (C : forall m l, list_sum (map (fun _ : nat => m) l) = List.length l * m) by (intros m l; induction l as [|x l IH]; cbn; auto; now rewrite IH).
    rewrite C, seq_length. destruct (S i <? side); lia. }
  rewrite (map_ext _ _ R), (sum_last (fun _ => side - 1)).
  assert (C : forall m l, list_sum (map (fun _ : nat => m) l) = List.length l * m) by (intros m l; induction l as [|x l IH]; cbn; auto; now rewrite IH).
  rewrite C, seq_length. nia.
Qed.

(** C184: the streets join neighbours in the square, all of them, each once. *)
Theorem C184_streets_partial : forall side, NoDup (square_edges side) /\ List.length (square_edges side) = 2 * side * (side - 1) /\
  forall p q, In (p, q) (square_edges side) <-> inside_square side p /\ inside_square side q /\ next_to p q.
Proof.
  intros side. split; [|split; [apply square_count|intros; apply square_in]].
  unfold square_edges. apply nodup_flat; [apply seq_NoDup| |].
  - intros i. apply nodup_flat; [apply seq_NoDup| |].
    + intros j. destruct (S i <? side), (S j <? side); cbn; repeat constructor; cbn; try tauto.
      intros [E|[]]. injection E as E. lia.
    + intros x y z X Y. apply in_app_or in X, Y. destruct (S i <? side), (S x <? side), (S y <? side);
        repeat match goal with H : _ \/ _ |- _ => destruct H | H : In _ [] |- _ => destruct H | H : In _ [_] |- _ => destruct H end;
        subst z; try congruence; try lia;
        match goal with H : ((_, _), (_, _)) = _ |- _ => injection H; intros; lia end.
  - intros x y z X Y. rewrite in_flat_map in X, Y. destruct X as (j & _ & X), Y as (k & _ & Y). apply in_app_or in X, Y.
    destruct (S x <? side), (S y <? side), (S j <? side), (S k <? side);
      repeat match goal with H : _ \/ _ |- _ => destruct H | H : In _ [] |- _ => destruct H | H : In _ [_] |- _ => destruct H end;
      subst z; try congruence; try lia;
      match goal with H : ((_, _), (_, _)) = _ |- _ => injection H; intros; lia end.
Qed.
Print Assumptions C184_streets_partial.
Example C184_streets_case : In ((2, 1), (2, 2)) (square_edges 3) /\ ~ In ((2, 1), (3, 1)) (square_edges 3) /\ List.length (square_edges 20) = 760.
Proof.
  split; [vm_compute; tauto|]. split; [|vm_compute; reflexivity]. intros H. apply square_in in H. destruct H as (_ & [H _] & _). cbn in H. lia.
Qed.
