(** * B32: bit-exact float32 (and Python binary64) instance of [FOps], built on
    the standard library's [SpecFloat] (round to nearest even, signed zeros,
    infinities, NaN, subnormals). *)
From Coq Require Import List ZArith Bool.
From Coq Require Import Floats.SpecFloat.
From Verif Require Import Num.
Import ListNotations.
Local Open Scope Z_scope.

Definition prec32 : Z := 24.
Definition emax32 : Z := 128.
Definition prec64 : Z := 53.
Definition emax64 : Z := 1024.

(** Rounding an integer: Python int literal, tf.to_float. *)
Definition b32_of_Z (z : Z) : spec_float := binary_normalize prec32 emax32 z 0 false.
Definition b64_of_Z (z : Z) : spec_float := binary_normalize prec64 emax64 z 0 false.
(** Conversion of a Python float to float32: rounds to nearest even. *)
Definition b32_of_b64 (x : spec_float) : spec_float :=
  match x with
  | S754_finite s m e => binary_normalize prec32 emax32 (cond_Zopp s (Zpos m)) e s
  | _ => x
  end.
(** tf.cast(x, tf.int32): truncation toward zero.  The result for NaN, infinities
    and out-of-range values is platform dependent; 0 here. *)
Definition b32_to_Z (x : spec_float) : Z :=
  match x with
  | S754_finite s m e =>
      let a := if 0 <=? e then Zpos m * 2 ^ e else Zpos m / 2 ^ (- e) in
      cond_Zopp s a
  | _ => 0
  end.
(** tf.sign: (x > 0) - (x < 0), so 0 on NaN. *)
Definition b32_sign (x : spec_float) : spec_float :=
  match x with
  | S754_finite s _ _ | S754_infinity s => b32_of_Z (cond_Zopp s 1)
  | S754_zero _ | S754_nan => S754_zero false
  end.
(** tf.pow(x, k) for k = 2, 3: correctly rounded. *)
Definition b32_pow (x : spec_float) (k : Z) : spec_float :=
  match x with
  | S754_finite s m e =>
      binary_normalize prec32 emax32 ((cond_Zopp s (Zpos m)) ^ k) (e * k) false
  | S754_zero s => S754_zero (s && Z.odd k)
  | S754_infinity s => S754_infinity (s && Z.odd k)
  | S754_nan => S754_nan
  end.
(** tf.maximum / tf.minimum (Eigen: a < b ? b : a). *)
Definition b32_max (a b : spec_float) : spec_float := if SFltb a b then b else a.
Definition b32_min (a b : spec_float) : spec_float := if SFltb b a then b else a.
(** Reductions from left to right. *)
Definition b32_sum (l : list spec_float) : spec_float :=
  fold_left (SFadd prec32 emax32) l (S754_zero false).
Definition b32_mean (l : list spec_float) : spec_float :=
  SFdiv prec32 emax32 (b32_sum l) (b32_of_Z (Z.of_nat (length l))).
Definition b32_rmax (l : list spec_float) : spec_float :=
  fold_left b32_max l (S754_infinity true).
Definition b32_rmin (l : list spec_float) : spec_float :=
  fold_left b32_min l (S754_infinity false).
Definition b32_isnan (x : spec_float) : bool :=
  match x with S754_nan => true | _ => false end.

(** [log32] stands for tf.log on float32. *)
#[global] Instance B32 (log32 : spec_float -> spec_float) : FOps := {|
  F := spec_float;
  D := spec_float;
  fadd := SFadd prec32 emax32;
  fsub := SFsub prec32 emax32;
  fmul := SFmul prec32 emax32;
  fdiv := SFdiv prec32 emax32;
  fneg := SFopp;
  fabs := SFabs;
  fsqrt := SFsqrt prec32 emax32;
  flog := log32;
  fsign := b32_sign;
  fpow := b32_pow;
  fmax := b32_max;
  fmin := b32_min;
  flt := SFltb;
  fle := SFleb;
  feq := SFeqb;
  fisnan := b32_isnan;
  fsum := b32_sum;
  fmean := b32_mean;
  frmax := b32_rmax;
  frmin := b32_rmin;
  f_of_Z := b32_of_Z;
  f_to_Z := b32_to_Z;
  f_of_D := b32_of_b64;
  d_of_Z := b64_of_Z;
  dadd := SFadd prec64 emax64;
  dsub := SFsub prec64 emax64;
  ddiv := SFdiv prec64 emax64
|}.
