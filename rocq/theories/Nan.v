(** * Nan: vocabulary of property C65 (missing numbers, NaN).  Nothing here models code of /repo. *)
From Coq Require Import List ZArith Bool.
From Verif Require Import Num Py Tensor Streamable Series Formulas Positions.
Import ListNotations.

Section Nan.
Context {N : FOps}.
(** Not a number, as tf.is_nan tells. *)
Definition nan (x : F) : Prop := fisnan x = true.
(** 0 in the place of NaN. *)
Definition zeroed (x : F) : F := if fisnan x then f0 else x.
End Nan.

(** What the theorems need of the arithmetic: a computation with NaN gives NaN, a comparison with NaN is false, tf.sign of NaN is not
    negative.  All of it holds of IEEE single precision and of exact arithmetic (C65_float32, C65_exact).  What tf.maximum, tf.minimum,
    tf.reduce_min and tf.reduce_max make of NaN depends on the build of TensorFlow: nothing is asked or claimed about them. *)
Record absorbing (N : FOps) : Prop := {
  n_add : forall x y, nan x \/ nan y -> nan (fadd x y);
  n_sub : forall x y, nan x \/ nan y -> nan (fsub x y);
  n_mul : forall x y, nan x \/ nan y -> nan (fmul x y);
  n_div : forall x y, nan x \/ nan y -> nan (fdiv x y);
  n_abs : forall x, nan x -> nan (fabs x);
  n_sqrt : forall x, nan x -> nan (fsqrt x);
  n_pow : forall x k, nan x -> nan (fpow x k);
  n_sum : forall l, Exists nan l -> nan (fsum l);
  n_mean : forall l, Exists nan l -> nan (fmean l);
  n_lt : forall x y, nan x \/ nan y -> flt x y = false;
  n_eq : forall x y, nan x \/ nan y -> feq x y = false;
  n_sign : forall x, nan x -> fge (fsign x) f0 = true;
  n_one : flt (f_of_Z 1) f0 = false;
  n_zero : feq f0 f0 = true;
  n_sign0 : fge (fsign f0) f0 = true;
  n_cast : f_to_Z f0 = 0%Z
}.
