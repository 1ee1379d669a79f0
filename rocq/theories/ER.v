(** * ER: exact arithmetic with special values, as an instance of [FOps]: real numbers, two
    infinities and NaN.

    It differs from IEEE arithmetic in two ways only: results are not rounded, and there is a
    single zero (x / 0 is the infinity of the sign of x, NaN for x = 0).  Python floats ([D])
    are real numbers. *)
From Coq Require Import Reals List ZArith Bool.
From Verif Require Import Num.
Import ListNotations.
Local Open Scope R_scope.

Inductive ext := Fin (r : R) | PInf | NInf | NaN.

Definition Rltb (x y : R) : bool := if Rlt_dec x y then true else false.
Definition Rleb (x y : R) : bool := if Rle_dec x y then true else false.
Definition Reqb (x y : R) : bool := if Req_EM_T x y then true else false.

Definition e_neg (a : ext) : ext :=
  match a with Fin r => Fin (- r) | PInf => NInf | NInf => PInf | NaN => NaN end.
Definition e_abs (a : ext) : ext :=
  match a with Fin r => Fin (Rabs r) | PInf | NInf => PInf | NaN => NaN end.
Definition e_add (a b : ext) : ext :=
  match a, b with
  | Fin x, Fin y => Fin (x + y)
  | NaN, _ | _, NaN | PInf, NInf | NInf, PInf => NaN
  | PInf, _ | _, PInf => PInf
  | NInf, _ | _, NInf => NInf
  end.
Definition e_sub (a b : ext) : ext := e_add a (e_neg b).
(** The infinity of the sign of [r] (NaN for 0). *)
Definition inf_of (r : R) : ext := if Rlt_dec 0 r then PInf else if Rlt_dec r 0 then NInf else NaN.
Definition e_mul (a b : ext) : ext :=
  match a, b with
  | Fin x, Fin y => Fin (x * y)
  | NaN, _ | _, NaN => NaN
  | Fin x, PInf | PInf, Fin x => inf_of x
  | Fin x, NInf | NInf, Fin x => inf_of (- x)
  | PInf, PInf | NInf, NInf => PInf
  | PInf, NInf | NInf, PInf => NInf
  end.
Definition e_div (a b : ext) : ext :=
  match a, b with
  | Fin x, Fin y => if Req_EM_T y 0 then inf_of x else Fin (x / y)
  | NaN, _ | _, NaN => NaN
  | Fin _, _ => Fin 0
  | PInf, Fin y => if Rlt_dec y 0 then NInf else PInf
  | NInf, Fin y => if Rlt_dec y 0 then PInf else NInf
  | _, _ => NaN
  end.
Definition e_sqrt (a : ext) : ext :=
  match a with
  | Fin x => if Rlt_dec x 0 then NaN else Fin (sqrt x)
  | PInf => PInf
  | _ => NaN
  end.
Definition e_log (a : ext) : ext :=
  match a with
  | Fin x => if Rlt_dec 0 x then Fin (ln x) else if Req_EM_T x 0 then NInf else NaN
  | PInf => PInf
  | _ => NaN
  end.
Definition e_sign (a : ext) : ext :=
  match a with
  | Fin x => Fin (if Rlt_dec 0 x then 1 else if Rlt_dec x 0 then -1 else 0)
  | PInf => Fin 1
  | NInf => Fin (-1)
  | NaN => Fin 0
  end.
Definition e_pow (a : ext) (k : Z) : ext :=
  match a with
  | Fin x => Fin (x ^ Z.to_nat k)
  | PInf => PInf
  | NInf => if Z.odd k then NInf else PInf
  | NaN => NaN
  end.
Definition e_lt (a b : ext) : bool :=
  match a, b with
  | Fin x, Fin y => Rltb x y
  | NaN, _ | _, NaN => false
  | NInf, NInf | PInf, PInf => false
  | NInf, _ | _, PInf => true
  | _, _ => false
  end.
Definition e_eq (a b : ext) : bool :=
  match a, b with
  | Fin x, Fin y => Reqb x y
  | PInf, PInf | NInf, NInf => true
  | _, _ => false
  end.
Definition e_le (a b : ext) : bool := e_lt a b || e_eq a b.
(** As in B32.v: a < b ? b : a. *)
Definition e_max (a b : ext) : ext := if e_lt a b then b else a.
Definition e_min (a b : ext) : ext := if e_lt b a then b else a.
Definition e_isnan (a : ext) : bool := match a with NaN => true | _ => false end.
Definition e_sum (l : list ext) : ext := fold_left e_add l (Fin 0).
Definition e_mean (l : list ext) : ext := e_div (e_sum l) (Fin (INR (length l))).
Definition e_rmax (l : list ext) : ext := fold_left e_max l NInf.
Definition e_rmin (l : list ext) : ext := fold_left e_min l PInf.
(** Truncation toward zero (0 for infinities and NaN). *)
Definition e_to_Z (a : ext) : Z :=
  match a with
  | Fin x => if Rlt_dec x 0 then (- Int_part (- x))%Z else Int_part x
  | _ => 0%Z
  end.

#[global] Instance ER : FOps := {|
  F := ext;
  D := R;
  fadd := e_add;
  fsub := e_sub;
  fmul := e_mul;
  fdiv := e_div;
  fneg := e_neg;
  fabs := e_abs;
  fsqrt := e_sqrt;
  flog := e_log;
  fsign := e_sign;
  fpow := e_pow;
  fmax := e_max;
  fmin := e_min;
  flt := e_lt;
  fle := e_le;
  feq := e_eq;
  fisnan := e_isnan;
  fsum := e_sum;
  fmean := e_mean;
  frmax := e_rmax;
  frmin := e_rmin;
  f_of_Z := fun z => Fin (IZR z);
  f_to_Z := e_to_Z;
  f_of_D := Fin;
  d_of_Z := IZR;
  dadd := Rplus;
  dsub := Rminus;
  ddiv := Rdiv
|}.
