(** * PropsRounding: property C55: float32 rounding errors do not build up along a stream.
    Vocabulary: Rounding.v ([half_ulp] = 2^-24, [tiny] = 2^-150). *)
From Coq Require Import Reals Lra Lia List ZArith Bool.
From Coq Require Import Floats.SpecFloat.
From Verif Require Import Num Py Tensor Streamable Meta Common Finance Series Formulas Positions
  B32 ER MovingFacts Rounding RoundIeee RoundMain.
Import ListNotations.
Local Open Scope R_scope.

(** The float32 of the model (IEEE 754, round to nearest even; Python floats are binary64) is accurate, whatever its logarithm,
    and so is exact arithmetic. *)
Theorem C55_float32 log32 : accurate (B32 log32) b32_finite b32_value.
Proof. exact (b32_accurate log32). Qed.
Print Assumptions C55_float32.
Theorem C55_exact : accurate ER er_finite er_value.
Proof. exact er_accurate. Qed.
Print Assumptions C55_exact.

Section Accurate.
Context {N : FOps} {fin : F -> Prop} {val : F -> R} (A : accurate N fin val).
(** Numbers of absolute value at most [M]; periods up to 2^20.  The bounds do not mention the length of the series. *)
Theorem C55_simple_average s p M : 0 <= M <= 2 ^ 90 -> (1 <= p)%nat -> (Z.of_nat p <= 2 ^ 20)%Z ->
  within fin val (2 * (INR p + 1) * (half_ulp * M + tiny))
    (SimpleMovingAverage (Z.of_nat p)) (@SimpleMovingAverage ER (Z.of_nat p)) s M.
Proof. intros HM. exact (sma_within A M HM s p). Qed.
Theorem C55_exponential_average s p M : 0 <= M <= 2 ^ 90 -> (1 <= p)%nat -> (Z.of_nat p <= 2 ^ 20)%Z ->
  within fin val (6 * (INR p + 1) * (half_ulp * M + tiny))
    (ExponentialMovingAverage (Z.of_nat p)) (@ExponentialMovingAverage ER (Z.of_nat p)) s M.
Proof. intros HM. exact (ema_within A M HM s p). Qed.
Theorem C55_rolling_average s p M : 0 <= M <= 2 ^ 90 -> (1 <= p)%nat -> (Z.of_nat p <= 2 ^ 20)%Z ->
  within fin val (8 * (INR p + 1) * (half_ulp * M + tiny))
    (RollingMovingAverage (Z.of_nat p)) (@RollingMovingAverage ER (Z.of_nat p)) s M.
Proof. intros HM. exact (rma_within A M HM s p). Qed.
Theorem C55_momentum s p M : 0 <= M <= 2 ^ 90 -> (1 <= p)%nat ->
  within fin val (2 * (half_ulp * M + tiny)) (Momentum (Z.of_nat p)) (@Momentum ER (Z.of_nat p)) s M.
Proof. intros HM. exact (momentum_within A M HM s p). Qed.
Theorem C55_crossover s slow fast M : 0 <= M <= 2 ^ 90 ->
  (1 <= slow)%nat -> (Z.of_nat slow <= 2 ^ 20)%Z -> (1 <= fast)%nat -> (Z.of_nat fast <= 2 ^ 20)%Z ->
  within fin val (3 * (INR slow + INR fast + 2) * (half_ulp * M + tiny))
    (SimpleMovingAverageCrossover (Z.of_nat slow) (Z.of_nat fast))
    (@SimpleMovingAverageCrossover ER (Z.of_nat slow) (Z.of_nat fast)) s M.
Proof. intros HM. exact (cross_within A M HM s slow fast). Qed.
(** Slow and fast averages, their difference, its average (signal) and the histogram. *)
Theorem C55_macd s slow fast m M : 0 <= M <= 2 ^ 90 ->
  (1 <= slow)%nat -> (Z.of_nat slow <= 2 ^ 20)%Z -> (1 <= fast)%nat -> (Z.of_nat fast <= 2 ^ 20)%Z ->
  (1 <= m)%nat -> (Z.of_nat m <= 2 ^ 20)%Z ->
  let b := half_ulp * M + tiny in let both := INR slow + INR fast + 2 in
  within_all fin val
    [6 * (INR slow + 1) * b; 6 * (INR fast + 1) * b; 7 * both * b;
     18 * (INR m + 1) * b + 7 * both * b; 19 * (INR m + 1) * b + 15 * both * b]
    (MovingAverageConvergenceDivergence (Z.of_nat slow) (Z.of_nat fast) (Z.of_nat m))
    (@MovingAverageConvergenceDivergence ER (Z.of_nat slow) (Z.of_nat fast) (Z.of_nat m)) s M.
Proof. intros HM Hs Hs2 Hf Hf2 Hm Hm2. exact (macd_within A M HM slow fast m Hs Hs2 Hf Hf2 Hm Hm2 s). Qed.
End Accurate.
Print Assumptions C55_simple_average.
Print Assumptions C55_exponential_average.
Print Assumptions C55_rolling_average.
Print Assumptions C55_momentum.
Print Assumptions C55_crossover.
Print Assumptions C55_macd.

(** Three float32 prices, 0.1, 12.5 and -7: a non-empty series bounded by 100, on which the theorems apply. *)
Definition prices32 : list (list spec_float) :=
  [[S754_finite false 13421773 (-27)]; [S754_finite false 13107200 (-20)]; [S754_finite true 14680064 (-21)]].
Example C55_met log32 : prices32 <> [] /\ @ok_rows (B32 log32) [1%nat] (rev prices32) /\
  @moderate (B32 log32) b32_finite b32_value 100 prices32 /\ 0 <= 100 <= 2 ^ 90 /\ (Z.of_nat 26 <= 2 ^ 20)%Z.
Proof.
  split; [discriminate|]. split; [split; [repeat (constructor; [reflexivity|]); constructor|unfold short; cbn; lia]|].
  split; [|split; [|cbn; lia]].
  - unfold moderate, prices32. repeat match goal with |- Forall _ _ => constructor end;
      (split; [now split|]; unfold b32_value; cbn; unfold Defs.F2R; cbn; apply Rabs_le; lra).
  - split; [lra|]. apply (Rle_trans _ (2 ^ 7)); [lra|]. apply Rle_pow; [lra|lia].
Qed.
