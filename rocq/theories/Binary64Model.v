(** The addition of Python floats (IEEE 754 binary64, round to nearest, ties to even), on
    numbers measured in ticks of 2^-1074, the least positive float.  Every finite float is
    a whole number of ticks, and the sum of two of them is rounded to 53 significant
    bits.  The two zeros are identified. *)
From Coq Require Import ZArith List Bool Lia.
From Verif Require Import Num.
Import ListNotations.
Local Open Scope Z_scope.

(** Rounding of [z >= 0] to 53 significant bits: [sh] bits are dropped. *)
Definition round_abs (z : Z) : Z :=
  let sh := Z.log2 z - 52 in
  if sh <=? 0 then z
  else
    let q := z / 2 ^ sh in
    let r := z mod 2 ^ sh in
    let half := 2 ^ (sh - 1) in
    let up := if r <? half then false
              else if half <? r then true
              else Z.odd q in
    (if up then q + 1 else q) * 2 ^ sh.

Definition round53 (z : Z) : Z :=
  if z <? 0 then - round_abs (- z) else round_abs z.

(** The first power of two that is not a finite float, 2^1024, in ticks. *)
Definition overflow : Z := 2 ^ 2098.

(** The float nearest to a number of ticks. *)
Definition to_float (z : Z) : num :=
  let r := round53 z in
  if overflow <=? r then PInf
  else if r <=? - overflow then NInf
  else Fin r.

(** The numbers of ticks that are floats. *)
Definition is_float (z : Z) : bool := (round53 z =? z) && (Z.abs z <? overflow).

(** Python [x + y].  On numbers that are no floats, which never occur (see
    [add_float_closed] in Binary64Proofs.v), it is the exact sum. *)
Definition add_float (x y : num) : num :=
  match x, y with
  | Fin a, Fin b => if is_float a && is_float b then to_float (a + b) else Fin (a + b)
  | _, _ => x_add x y
  end.
