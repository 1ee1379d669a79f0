(** * Lost: vocabulary of property C75 (infinities and overflow).  Nothing here models code of /repo. *)
From Coq Require Import Reals List ZArith Bool.
From Coq Require Import Floats.SpecFloat.
From Verif Require Import Num B32 ER.
Import ListNotations.

(** What is neither a number of the format nor a real number: an infinity or NaN. *)
Definition beyond32 (x : spec_float) : Prop := match x with S754_infinity _ | S754_nan => True | _ => False end.
Definition beyond_reals (x : ext) : Prop := match x with Fin _ => False | _ => True end.

(** What the theorems need of the arithmetic and of what counts as [lost] in it: a sum, a difference or a product with a lost operand is
    lost, so is a quotient whose dividend is lost (a number over an infinity is 0), and nothing lost equals 0.  All of it holds of IEEE
    single precision with [beyond32] and of exact arithmetic with [beyond_reals] (C75_float32, C75_exact).  Maxima and minima are not
    asked for: they may well forget an infinity. *)
Record spreading (N : FOps) (lost : F -> Prop) : Prop := {
  l_add : forall x y, lost x \/ lost y -> lost (fadd x y);
  l_sub : forall x y, lost x \/ lost y -> lost (fsub x y);
  l_mul : forall x y, lost x \/ lost y -> lost (fmul x y);
  l_div : forall x y, lost x -> lost (fdiv x y);
  l_sqrt : forall x, lost x -> lost (fsqrt x);
  l_cube : forall x, lost x -> lost (fpow x 3);
  l_sum : forall l, Exists lost l -> lost (fsum l);
  l_mean : forall l, Exists lost l -> lost (fmean l);
  l_nonzero : forall x, lost x -> feq x f0 = false;
  l_zero : feq f0 f0 = true
}.
