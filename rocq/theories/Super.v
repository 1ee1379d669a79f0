(** * Super: vocabulary of property C66 (Supertrend as a trend follower).  Nothing here models code of /repo. *)
From Coq Require Import List ZArith Bool Reals.
From Verif Require Import Num Py Tensor Streamable Finance Series Formulas Positions ImplMarket RealMarket.
Import ListNotations.

Section Super.
Context {N : FOps}.
(** The trend (1 up, -1 down, 0 none) in a state returned by Supertrend: its last component. *)
Definition direction (state : val) : option Z :=
  match state with
  | Tup [_; _; _; _; Leaf t] => match dat t with DI [z] => Some z | _ => None end
  | _ => None
  end.
(** The trend after the rows 0 to [n]. *)
Definition direction_after (p : nat) (factor : pynum) (xs : list candle) (n : nat) (d : Z) : Prop :=
  exists out sf s0, call (Supertrend (Z.of_nat p) factor) (bars (firstn (S n) xs)) None true = Ok (out, sf, s0) /\ direction sf = Some d.
(** The middle of a bar. *)
Definition middle (c : candle) : F := fdiv (fadd (c_high c) (c_low c)) (f_of_Z 2).
End Super.

(** What is asked of comparisons, tf.maximum and tf.minimum (whichever of its arguments they return when one is NaN). *)
Record picking (N : FOps) (usable : F -> Prop) : Prop := {
  p_irrefl : forall x, flt x x = false;
  p_trans : forall x y z, flt x y = true -> flt y z = true -> flt x z = true;
  p_split : forall x y z, usable y -> flt x z = true -> flt x y = true \/ flt y z = true;
  p_max : forall x y, (fmax x y = x \/ fmax x y = y) /\ flt (fmax x y) x = false /\ flt (fmax x y) y = false;
  p_min : forall x y, (fmin x y = x \/ fmin x y = y) /\ flt x (fmin x y) = false /\ flt y (fmin x y) = false
}.
(** A bar with positive prices whose open and close are between its low and its high. *)
Definition sound (c : rcandle) : Prop := (0 < r_low c /\ r_low c <= r_open c <= r_high c /\ r_low c <= r_close c <= r_high c)%R.
