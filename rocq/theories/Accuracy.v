(** * Accuracy: vocabulary of property C60.  Nothing here models code of /repo. *)
From Coq Require Import Reals List ZArith Bool.
From Verif Require Import Num Py Tensor Streamable Series Formulas B32 ER RealMarket Rounding.
Import ListNotations.
Local Open Scope R_scope.

(** Twice the square root of [tiny]: square roots of numbers lost to underflow. *)
Definition root_tiny : R := / 2 ^ 74.
(** What an arithmetic must provide beside [accurate]: comparisons, absolute values and extrema are exact, square roots are off by
    half a unit in the last place, a variance is not negative, a mean is a sum divided by a count, and the constant 0.0001 is known up to 1 %. *)
Record ordered (N : FOps) (fin : F -> Prop) (val : F -> R) : Prop := {
  o_lt : forall x y, fin x -> fin y -> (flt x y = true <-> val x < val y);
  o_eq : forall x y, fin x -> fin y -> (feq x y = true <-> val x = val y);
  o_abs : forall x, fin x -> fin (fabs x) /\ val (fabs x) = Rabs (val x);
  o_max : forall x y, fin x -> fin y -> fin (fmax x y) /\ val (fmax x y) = Rmax (val x) (val y);
  o_min : forall x y, fin x -> fin y -> fin (fmin x y) /\ val (fmin x y) = Rmin (val x) (val y);
  o_rmax : forall x l, fin x -> Forall fin l -> fin (frmax (x :: l)) /\ val (frmax (x :: l)) = fold_left Rmax (map val l) (val x);
  o_rmin : forall x l, fin x -> Forall fin l -> fin (frmin (x :: l)) /\ val (frmin (x :: l)) = fold_left Rmin (map val l) (val x);
  o_sqrt : forall x, fin x -> 0 <= val x -> fin (fsqrt x) /\ Rabs (val (fsqrt x) - sqrt (val x)) <= half_ulp * sqrt (val x) + tiny;
  o_var : forall l, l <> [] -> Forall fin l -> fin (fvar l) -> 0 <= val (fvar l);
  o_mean : forall l, l <> [] -> fmean l = fdiv (fsum l) (f_of_Z (Z.of_nat (length l)));
  o_tolerance : fin tolerance /\ Rabs (val tolerance - 1 / 10000) <= 1 / 1000000
}.

Section Spec.
Context {N : FOps} (fin : F -> Prop) (value : F -> R).
(** The logarithm is off by at most [e] on the numbers between [lo] and [hi]. *)
Definition log_within (e lo hi : R) : Prop :=
  forall x, fin x -> lo <= value x <= hi -> fin (flog x) /\ Rabs (value (flog x) - ln (value x)) <= e.
(** Finite prices between [lo] and [hi]; candles of finite prices not larger than [M]. *)
Definition priced (lo hi : R) (x : F) : Prop := fin x /\ lo <= value x <= hi.
Definition sized (M : R) (c : candle) : Prop :=
  Forall (fun x => fin x /\ Rabs (value x) <= M) [c_open c; c_high c; c_low c; c_close c].
Definition real_candle (c : candle) : rcandle := RC (value (c_open c)) (value (c_high c)) (value (c_low c)) (value (c_close c)).
(** Each price of a candle is finite and within [eps] of the exact one. *)
Definition candle_within (eps : R) (c : candle) (r : rcandle) : Prop :=
  (fin (c_open c) /\ Rabs (value (c_open c) - r_open r) <= eps) /\
  (fin (c_high c) /\ Rabs (value (c_high c) - r_high r) <= eps) /\
  (fin (c_low c) /\ Rabs (value (c_low c) - r_low r) <= eps) /\
  (fin (c_close c) /\ Rabs (value (c_close c) - r_close r) <= eps).
(** An operator on scalar streams: for each series of elements in [good], its outputs are finite and within [eps] of the outputs of
    the operator [exact] on the same series ([real] reads an element) in exact arithmetic. *)
Definition scalars_within {X Y} (eps : R) (op : operator) (exact : @operator ER) (inp : list X -> val) (inpe : list Y -> @val ER)
    (real : X -> Y) (good : X -> Prop) : Prop :=
  forall xs, xs <> [] -> short (rev xs) -> Forall good xs ->
  exists o oe sf s0 sf' s0',
    call op (inp xs) None true = Ok (scalars o, sf, s0) /\
    @call ER exact (inpe (map real xs)) None true = Ok (@scalars ER (map Fin oe), sf', s0') /\
    length o = length xs /\ length oe = length xs /\
    forall n, (n < length xs)%nat -> fin (nth n o f0) /\ Rabs (value (nth n o f0) - nth n oe 0) <= eps.
End Spec.
