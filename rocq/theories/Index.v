(** * Index: vocabulary of the accuracy of the relative strength index (C60).  Nothing here models code of /repo. *)
From Coq Require Import Reals List ZArith Bool.
From Verif Require Import Num Formulas Rounding RealMarket RealLinear.
Import ListNotations.
Local Open Scope R_scope.

(** What an arithmetic must provide beside [accurate] and [ordered]: negation is exact, products and quotients have
    the sign of the operands, and 100 / (1 + x / y) vanishes where x / y is huge or y is 0. *)
Record indexed (N : FOps) (fin : F -> Prop) (val : F -> R) : Prop := {
  i_neg : forall x, fin x -> fin (fneg x) /\ val (fneg x) = - val x;
  i_mul : forall x y, fin x -> fin y -> 0 <= val x -> 0 <= val y -> fin (fmul x y) -> 0 <= val (fmul x y);
  i_div : forall x y, fin x -> fin y -> 0 <= val x -> 0 < val y -> fin (fdiv x y) -> 0 <= val (fdiv x y);
  i_div_down : forall x y, fin x -> fin y -> val x <= 0 -> 0 < val y -> fin (fdiv x y) -> val (fdiv x y) <= 0;
  i_over : forall x y, fin x -> fin y -> 0 < val x -> 0 <= val y -> 2 ^ 100 * val y <= val x ->
    let t := fdiv (f_of_Z 100) (fadd (f_of_Z 1) (fdiv x y)) in fin t /\ Rabs (val t) <= half_ulp
}.
(** No step of the series is larger than [V]. *)
Definition moves_within (V : R) (xs : list R) : Prop := forall n, (S n < length xs)%nat -> Rabs (nth (S n) xs 0 - nth n xs 0) <= V.
(** The rolling average of period [p] of the absolute steps of a history (the newest number first). *)
Definition average_move (p : nat) (h : list R) : R := rrma p (map Rabs (rchanges h)).
