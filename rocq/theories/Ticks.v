(** * Ticks: vocabulary of property C69 (whole multiples of a power of two in float32).  Nothing here models code of /repo. *)
From Coq Require Import Reals List ZArith Bool Permutation.
From Flocq Require Import Core.
From Verif Require Import Num Py Tensor Streamable Series Formulas Positions Rounding.
Import ListNotations.
Local Open Scope R_scope.

(** The tick 2^e. *)
Definition tick (e : Z) : R := bpow radix2 e.
(** The sizes of ticks for which 2^24 ticks are neither too large nor too small for float32. *)
Definition tick_size (e : Z) : Prop := (-149 <= e <= 103)%Z.
(** The numbers float32 can represent. *)
Definition representable (y : R) : Prop := exists z e, (Z.abs z <= 2 ^ 24)%Z /\ (-149 <= e)%Z /\ y = IZR z * tick e.

(** The rounding of IEEE 754 float32: to the nearest representable number, ties to the even one. *)
Definition nearest32 : R -> R := round radix2 (FLT_exp (-149) 24) ZnearestE.

(** [v] is the sum of the numbers [l], added in some order. *)
Inductive summed {N : FOps} : list F -> F -> Prop :=
| summed_none : summed [] f0
| summed_one x : summed [x] x
| summed_both l a b u v : Permutation l (a ++ b) -> summed a u -> summed b v -> summed l (fadd u v).

(** What an arithmetic must provide: sums, differences and quotients are rounded by [rd] to a nearest representable number, the sum of
    a list is taken in some order, and comparisons and extrema are those of the values. *)
Record nearest (N : FOps) (fin : F -> Prop) (val : F -> R) (rd : R -> R) : Prop := {
  n_of_Z : forall z, (Z.abs z <= 2 ^ 24)%Z -> fin (f_of_Z z) /\ val (f_of_Z z) = IZR z;
  n_add : forall x y, fin x -> fin y -> Rabs (val x + val y) <= big -> fin (fadd x y) /\ val (fadd x y) = rd (val x + val y);
  n_sub : forall x y, fin x -> fin y -> Rabs (val x - val y) <= big -> fin (fsub x y) /\ val (fsub x y) = rd (val x - val y);
  n_div : forall x y, fin x -> fin y -> val y <> 0 -> Rabs (val x / val y) <= big -> fin (fdiv x y) /\ val (fdiv x y) = rd (val x / val y);
  n_sum : forall l, summed l (fsum l);
  n_near : forall x y, representable y -> Rabs (rd x - x) <= Rabs (y - x);
  n_order : forall x y, x <= y -> rd x <= rd y;
  n_eq : forall x y, fin x -> fin y -> (feq x y = true <-> val x = val y);
  n_rmax : forall x l, fin x -> Forall fin l -> fin (frmax (x :: l)) /\ val (frmax (x :: l)) = fold_left Rmax (map val l) (val x);
  n_rmin : forall x l, fin x -> Forall fin l -> fin (frmin (x :: l)) /\ val (frmin (x :: l)) = fold_left Rmin (map val l) (val x)
}.
(** The same arithmetic with another way [s] of summing lists. *)
Definition resum (N : FOps) (s : list (@F N) -> @F N) : FOps := {|
  F := @F N; D := @D N; fadd := @fadd N; fsub := @fsub N; fmul := @fmul N; fdiv := @fdiv N; fneg := @fneg N; fabs := @fabs N; fsqrt := @fsqrt N;
  flog := @flog N; fsign := @fsign N; fpow := @fpow N; fmax := @fmax N; fmin := @fmin N; flt := @flt N; fle := @fle N; feq := @feq N;
  fisnan := @fisnan N; fsum := s; fmean := @fmean N; frmax := @frmax N; frmin := @frmin N; f_of_Z := @f_of_Z N; f_to_Z := @f_to_Z N;
  f_of_D := @f_of_D N; d_of_Z := @d_of_Z N; dadd := @dadd N; dsub := @dsub N; ddiv := @ddiv N |}.

Section Spec.
Context {N : FOps} (fin : F -> Prop) (val : F -> R).
(** A finite number of at most [M] ticks, up or down. *)
Definition ticks (e M : Z) (x : F) : Prop := fin x /\ exists z, (Z.abs z <= M)%Z /\ val x = IZR z * tick e.
Definition all_ticks (e M : Z) (xs : list (list F)) : Prop := Forall (Forall (ticks e M)) xs.
Definition candle_ticks (e M : Z) (c : candle) : Prop := ticks e M (c_open c) /\ ticks e M (c_high c) /\ ticks e M (c_low c) /\ ticks e M (c_close c).
(** The exact mean of the [p] numbers at positions [n - p + 1] to [n] of column [j]. *)
Definition true_mean (p : nat) (xs : list (list F)) (j n : nat) : R :=
  fold_right Rplus 0 (map (fun i => val (number xs j (n - i))) (seq 0 p)) / INR p.
End Spec.
