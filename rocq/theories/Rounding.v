(** * Rounding: vocabulary of property C55.  Nothing here models code of /repo.

    Half a unit in the last place of float32 is 2^-24 of the number; below the smallest
    normal number the spacing is 2^-149; numbers up to 2^127 never overflow. *)
From Coq Require Import Reals List ZArith Bool.
From Coq Require Import Floats.SpecFloat.
From Flocq Require Import Core BinarySingleNaN.
From Verif Require Import Num Py Tensor Streamable Series Formulas Positions B32 ER MovingFacts.
Import ListNotations.
Local Open Scope R_scope.

Definition half_ulp : R := / 2 ^ 24.
Definition tiny : R := / 2 ^ 150.
Definition big : R := 2 ^ 127.

(** What an arithmetic must provide: some of its values ([fin]) stand for real numbers ([val]),
    and each operation is off by half a unit in the last place at most.
    The sum of a list may be taken in any order. *)
Record accurate (N : FOps) (fin : F -> Prop) (val : F -> R) : Prop := {
  a_of_Z : forall z, (Z.abs z <= 2 ^ 24)%Z -> fin (f_of_Z z) /\ val (f_of_Z z) = IZR z;
  a_add : forall x y, fin x -> fin y -> Rabs (val x + val y) <= big ->
    fin (fadd x y) /\ Rabs (val (fadd x y) - (val x + val y)) <= half_ulp * Rabs (val x + val y);
  a_sub : forall x y, fin x -> fin y -> Rabs (val x - val y) <= big ->
    fin (fsub x y) /\ Rabs (val (fsub x y) - (val x - val y)) <= half_ulp * Rabs (val x - val y);
  a_mul : forall x y, fin x -> fin y -> Rabs (val x * val y) <= big ->
    fin (fmul x y) /\ Rabs (val (fmul x y) - val x * val y) <= half_ulp * Rabs (val x * val y) + tiny;
  a_div : forall x y, fin x -> fin y -> val y <> 0 -> Rabs (val x / val y) <= big ->
    fin (fdiv x y) /\ Rabs (val (fdiv x y) - val x / val y) <= half_ulp * Rabs (val x / val y) + tiny;
  a_sum : forall l, Forall fin l ->
    let total := fold_right Rplus 0 (map (fun x => Rabs (val x)) l) in
    (1 + half_ulp) ^ length l * total <= big ->
    fin (fsum l) /\
    Rabs (val (fsum l) - fold_right Rplus 0 (map val l)) <= ((1 + half_ulp) ^ length l - 1) * total;
  (* the coefficients of the exponential average, computed in Python floats *)
  a_factor : forall p, (1 <= p)%nat -> (Z.of_nat p <= 2 ^ 20)%Z -> let k := 2 / (INR p + 1) in
    fin (f_of_D (ema_factor p)) /\ Rabs (val (f_of_D (ema_factor p)) - k) <= 2 * half_ulp * k;
  a_cofactor : forall p, (1 <= p)%nat -> (Z.of_nat p <= 2 ^ 20)%Z -> let c := 1 - 2 / (INR p + 1) in
    fin (f_of_D (dsub (d_of_Z 1) (ema_factor p))) /\
    Rabs (val (f_of_D (dsub (d_of_Z 1) (ema_factor p))) - c) <= 2 * half_ulp * c
}.
(** float32: a finite number of the format (its mantissa and exponent are in range) and its value,
    (-1)^sign * mantissa * 2^exponent ([SF2R] of Flocq). *)
Definition b32_finite (x : spec_float) : Prop := valid_binary prec32 emax32 x = true /\ is_finite_SF x = true.
Definition b32_value (x : spec_float) : R := SF2R radix2 x.
(** Exact arithmetic: the real numbers. *)
Definition er_finite (x : ext) : Prop := match x with Fin _ => True | _ => False end.
Definition er_value (x : ext) : R := match x with Fin r => r | _ => 0 end.

Section Spec.
Context {N : FOps} (fin : F -> Prop) (val : F -> R).
(** A series of finite numbers not larger than [M]. *)
Definition moderate (M : R) (xs : list (list F)) : Prop := Forall (Forall (fun x => fin x /\ Rabs (val x) <= M)) xs.
(** The same series in exact arithmetic. *)
Definition exactly (xs : list (list F)) : list (list ext) := fins (map (map val) xs).
(** However long the series, the outputs are finite and within [eps] of those computed in exact arithmetic. *)
Definition within (eps : R) (op : operator) (exact : @operator ER) (s : list nat) (M : R) : Prop :=
  forall xs, xs <> [] -> ok_rows s (rev xs) -> moderate M xs ->
  exists o oe sf s0 sf' s0',
    call op (tensors s xs) None true = Ok (tensors s o, sf, s0) /\
    @call ER exact (@tensors ER s (exactly xs)) None true = Ok (@tensors ER s (fins oe), sf', s0') /\
    length o = length xs /\ length oe = length xs /\
    forall n j, (n < length xs)%nat -> (j < prod s)%nat ->
      fin (number o j n) /\ Rabs (val (number o j n) - rnumber oe j n) <= eps.
(** The same for an operator with several outputs, each with its own tolerance. *)
Definition within_all (epss : list R) (op : operator) (exact : @operator ER) (s : list nat) (M : R) : Prop :=
  forall xs, xs <> [] -> ok_rows s (rev xs) -> moderate M xs ->
  exists os oes sf s0 sf' s0',
    call op (tensors s xs) None true = Ok (Tup (map (tensors s) os), sf, s0) /\
    @call ER exact (@tensors ER s (exactly xs)) None true = Ok (Tup (map (fun o => @tensors ER s (fins o)) oes), sf', s0') /\
    length os = length epss /\ length oes = length epss /\
    forall i n j, (i < length epss)%nat -> (n < length xs)%nat -> (j < prod s)%nat ->
      fin (number (nth i os []) j n) /\
      Rabs (val (number (nth i os []) j n) - rnumber (nth i oes []) j n) <= nth i epss 0.
End Spec.
