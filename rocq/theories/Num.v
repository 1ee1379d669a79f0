(** * Num: the numbers the operators compute with.

    TensorFlow float32 arithmetic is a parameter of the whole model: the record
    [FOps] collects the operations used by the repository (cited below).  The
    model and every structural theorem are stated for EVERY [FOps], hence for
    bit-exact IEEE binary32 (instance [B32] in B32.v) as well as for real
    arithmetic extended with infinities and NaN (instance [ER] in ER.v).
    int32 arithmetic is modelled with its wrap-around. *)
From Coq Require Import List ZArith Bool.
Import ListNotations.

(** [F]: float32 tensor elements.  [D]: Python floats (binary64), which occur as
    constructor parameters and constants computed in Python before being
    converted to tensors, e.g. moving_average.py:28 [self.k = 2.0 / (period + 1.0)]. *)
Class FOps := {
  F : Type;
  D : Type;
  fadd : F -> F -> F;                 (* + *)
  fsub : F -> F -> F;                 (* - *)
  fmul : F -> F -> F;                 (* * *)
  fdiv : F -> F -> F;                 (* / and tf.divide *)
  fneg : F -> F;                      (* unary -, tf.negative *)
  fabs : F -> F;                      (* tf.abs *)
  fsqrt : F -> F;                     (* tf.sqrt *)
  flog : F -> F;                      (* tf.log *)
  fsign : F -> F;                     (* tf.sign *)
  fpow : F -> Z -> F;                 (* tf.pow(x, 2), tf.pow(x, 3): skewness.py:22,24 *)
  fmax : F -> F -> F;                 (* tf.maximum *)
  fmin : F -> F -> F;                 (* tf.minimum *)
  flt : F -> F -> bool;               (* tf.less; tf.greater with swapped arguments *)
  fle : F -> F -> bool;               (* tf.less_equal; tf.greater_equal swapped *)
  feq : F -> F -> bool;               (* tf.equal *)
  fisnan : F -> bool;                 (* tf.is_nan *)
  (* reductions over an axis: TensorFlow leaves the order of float additions
     unspecified, so a reduction is one abstract operation on the list *)
  fsum : list F -> F;                 (* tf.reduce_sum *)
  fmean : list F -> F;                (* tf.reduce_mean *)
  frmax : list F -> F;                (* tf.reduce_max *)
  frmin : list F -> F;                (* tf.reduce_min *)
  f_of_Z : Z -> F;                    (* Python int literal converted to float32, tf.to_float *)
  f_to_Z : F -> Z;                    (* tf.cast(x, tf.int32) *)
  f_of_D : D -> F;                    (* Python float converted to float32 *)
  d_of_Z : Z -> D;                    (* Python float literal with integral value *)
  dadd : D -> D -> D;
  dsub : D -> D -> D;
  ddiv : D -> D -> D
}.

Section Consts.
Context {N : FOps}.
Definition f0 : F := f_of_Z 0.
Definition f1 : F := f_of_Z 1.
(** Comparison in the direction the sources write it. *)
Definition fgt (a b : F) : bool := flt b a.
Definition fge (a b : F) : bool := fle b a.
(** drawdown.py:6 [ERROR = 0.0001]: 1/10000 correctly rounded in binary64, then
    converted to float32 where it meets a tensor. *)
Definition d_error : D := ddiv (d_of_Z 1) (d_of_Z 10000).
(** Population variance of a column as computed by [tf.nn.moments] (TensorFlow
    1.13.1: mean of squared_difference(x, mean)); used by
    moving_standard_deviation.py:20, correlation.py:24, sharpe_ratio.py:20,
    skewness.py:20. *)
Definition fvar (l : list F) : F :=
  let m := fmean l in fmean (map (fun x => fmul (fsub x m) (fsub x m)) l).
End Consts.

(** int32 wrap-around (two's complement). *)
Local Open Scope Z_scope.
Definition wrap32 (z : Z) : Z := (z + 2147483648) mod 4294967296 - 2147483648.
Definition iadd (a b : Z) : Z := wrap32 (a + b).
Definition isub (a b : Z) : Z := wrap32 (a - b).
Definition imul (a b : Z) : Z := wrap32 (a * b).
