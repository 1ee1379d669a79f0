(** * PropsPeriods: property C71 — periods below one.
    Vocabulary: Vectors.v ([rejects op z]: given anything of shapes and dtypes [z], alone or as a series, [op] fails at the first element);
    Periods.v ([never_streams op z]: every series of at least one element of shapes and dtypes [z] makes the streamed call of [op] fail;
    [feedback g p xs]: every output is [g] of the output before, at first [p], and the input); ER.v (extended real numbers: [Fin r] is the number [r]);
    ImplMarket.v ([bars xs]: closes, lows and highs of candles), MarketFacts.v ([true_range xs n], as in C29). *)
From Coq Require Import List ZArith Bool Reals Lia.
From Verif Require Import Num Py Tensor Streamable Meta Common Finance Spec Series Shapes Vectors ER Periods Formulas ImplMarket MarketFacts PeriodFacts PeriodZero PeriodZeroAtr Witness.
Import ListNotations.

(** Negative periods, operators of one series of any shape and dtype. *)
Theorem C71_negative {N : FOps} s d :
  (forall p, (p < 0)%Z -> rejects (SimpleMovingAverage p) (Leaf (s, d)) /\ rejects (ExponentialMovingAverage p) (Leaf (s, d)) /\ rejects (RollingMovingAverage p) (Leaf (s, d)) /\
     rejects (MovingStandardDeviation p) (Leaf (s, d)) /\ rejects (Skewness p) (Leaf (s, d)) /\ rejects (LocalMinimum p) (Leaf (s, d)) /\ rejects (LocalMaximum p) (Leaf (s, d)) /\
     (forall k, rejects (BollingerBands p k) (Leaf (s, d)))) /\
  (forall a b, (a < 0 \/ b < 0)%Z -> rejects (SimpleMovingAverageCrossover a b) (Leaf (s, d)) /\ rejects (SimpleMovingAverageCrossoverSignal a b) (Leaf (s, d)) /\
     rejects (Volatility a b) (Leaf (s, d)) /\ rejects (AutoCorrelation a b) (Leaf (s, d))) /\
  (forall a b c, (a < 0 \/ b < 0 \/ c < 0)%Z -> rejects (MovingAverageConvergenceDivergence a b c) (Leaf (s, d)) /\ rejects (MovingAverageConvergenceDivergenceSignal a b c) (Leaf (s, d))).
Proof. exact (negative_periods s d). Qed.
Print Assumptions C71_negative.
(** Negative periods, operators of several series. *)
Theorem C71_negative_several {N : FOps} p q k k1 k2 m z1 z2 z3 z4 : (p < 0)%Z ->
  rejects (Correlation p) (Tup [Leaf z1; Leaf z2]) /\ rejects (SharpeRatio p) (Tup [Leaf z1; Leaf z2]) /\
  rejects (CrossCorrelation p q) (Tup [Leaf z1; Leaf z2]) /\ rejects (AverageTrueRange p) (Tup [Leaf z1; Leaf z2; Leaf z3]) /\
  rejects (Supertrend p k) (Tup [Leaf z1; Leaf z2; Leaf z3]) /\ rejects (RiskRatioEvaluator k1 k2 p m) (Tup [Leaf z1; Leaf z2; Leaf z3; Leaf z4]).
Proof. exact (negative_periods_all p q k k1 k2 m z1 z2 z3 z4). Qed.
Print Assumptions C71_negative_several.
(** Looking back by no element, or by less. *)
Theorem C71_no_lag {N : FOps} s d p : (p <= 0)%Z ->
  rejects (Lag p) (Leaf (s, d)) /\ rejects (Return p) (Leaf (s, d)) /\ rejects (LogarithmicReturn p) (Leaf (s, d)) /\ rejects (Momentum p) (Leaf (s, d)) /\
  rejects (RelativeStrengthIndex p) (Leaf (s, d)) /\ (forall q, rejects (Volatility q p) (Leaf (s, d)) /\ rejects (AutoCorrelation q p) (Leaf (s, d))).
Proof. exact (no_periods s d p). Qed.
Print Assumptions C71_no_lag.
Theorem C71_no_lag_cross {N : FOps} p q z1 z2 : (q <= 0)%Z -> rejects (CrossCorrelation p q) (Tup [Leaf z1; Leaf z2]).
Proof. exact (no_lag_cross p q z1 z2). Qed.
Print Assumptions C71_no_lag_cross.
(** Windows of no element. *)
Theorem C71_no_window {N : FOps} s d :
  never_streams (SimpleMovingAverage 0) (Leaf (s, d)) /\ never_streams (MovingStandardDeviation 0) (Leaf (s, d)) /\ never_streams (Skewness 0) (Leaf (s, d)) /\
  never_streams (LocalMinimum 0) (Leaf (s, d)) /\ never_streams (LocalMaximum 0) (Leaf (s, d)) /\ (forall k, never_streams (BollingerBands 0 k) (Leaf (s, d))) /\
  (forall p, never_streams (Volatility 0 p) (Leaf (s, d))) /\
  (forall a b, (a = 0 \/ b = 0)%Z -> never_streams (SimpleMovingAverageCrossover a b) (Leaf (s, d)) /\ never_streams (SimpleMovingAverageCrossoverSignal a b) (Leaf (s, d))).
Proof. exact (zero_windows s d). Qed.
Print Assumptions C71_no_window.
Theorem C71_no_window_several {N : FOps} k1 k2 m z1 z2 z3 z4 :
  never_streams (Correlation 0) (Tup [Leaf z1; Leaf z2]) /\ never_streams (SharpeRatio 0) (Tup [Leaf z1; Leaf z2]) /\
  never_streams (RiskRatioEvaluator k1 k2 0 m) (Tup [Leaf z1; Leaf z2; Leaf z3; Leaf z4]).
Proof. exact (zero_windows_all k1 k2 m z1 z2 z3 z4). Qed.
Print Assumptions C71_no_window_several.
(** Averages over no element are not rejected by the two recursive averages: what ExponentialMovingAverage(0) computes, in every arithmetic … *)
Theorem C71_ema_zero {N : FOps} xs : xs <> [] -> short xs ->
  let k := ddiv (d_of_Z 2) (dadd (d_of_Z 0) (d_of_Z 1)) in
  exists sf s0, call (ExponentialMovingAverage 0) (scalars xs) None true =
    Ok (scalars (feedback (fun last x => fadd (fmul x (f_of_D k)) (fmul last (f_of_D (dsub (d_of_Z 1) k)))) f0 xs), sf, s0).
Proof. intros NE S. refine (ema_zero xs NE _). unfold short in *. now rewrite rev_length. Qed.
Print Assumptions C71_ema_zero.
(** … over the real numbers twice the value and 0 in turn, on a series that never changes; … *)
Theorem C71_ema_zero_refuted c n : (0 < n)%nat -> (Z.of_nat n <= 2147483648)%Z ->
  exists out sf s0, @call ER (@ExponentialMovingAverage ER 0) (@scalars ER (repeat (Fin c) n)) None true = Ok (@scalars ER out, sf, s0) /\
    forall k, (k < n)%nat -> nth k out (Fin 0) = Fin (if Nat.even k then 2 * c else 0)%R.
Proof. exact (ema_zero_constant c n). Qed.
Print Assumptions C71_ema_zero_refuted.
(** … and what RollingMovingAverage(0) computes: a division by 0 at every element, of which no output is a number. *)
Theorem C71_rma_zero {N : FOps} xs : xs <> [] -> short xs ->
  exists sf s0, call (RollingMovingAverage 0) (scalars xs) None true =
    Ok (scalars (feedback (fun last x => fdiv (fadd (fmul last (f_of_Z (-1))) x) (f_of_Z 0)) f0 xs), sf, s0).
Proof. intros NE S. refine (rma_zero xs NE _). unfold short in *. now rewrite rev_length. Qed.
Print Assumptions C71_rma_zero.
Theorem C71_rma_zero_refuted xs : xs <> [] -> (Z.of_nat (length xs) <= 2147483648)%Z ->
  exists out sf s0, @call ER (@RollingMovingAverage ER 0) (@scalars ER (map Fin xs)) None true = Ok (@scalars ER out, sf, s0) /\
    forall k r, (k < length xs)%nat -> nth k out (Fin 0) <> Fin r.
Proof. exact (rma_zero_never_finite xs). Qed.
Print Assumptions C71_rma_zero_refuted.
(** AverageTrueRange(0) does that to the true ranges, and so no output is a number either, whatever the candles. *)
Theorem C71_atr_zero {N : FOps} xs : xs <> [] -> short xs ->
  exists sf s0, call (AverageTrueRange 0) (bars xs) None true =
    Ok (scalars (feedback (fun last x => fdiv (fadd (fmul last (f_of_Z (-1))) x) (f_of_Z 0)) f0 (map (true_range xs) (seq 0 (length xs)))), sf, s0).
Proof. intros NE S. refine (atr_zero xs NE _). unfold short in *. now rewrite rev_length. Qed.
Print Assumptions C71_atr_zero.
Theorem C71_atr_zero_refuted xs : xs <> [] -> (Z.of_nat (length xs) <= 2147483648)%Z ->
  exists out sf s0, @call ER (@AverageTrueRange ER 0) (@bars ER xs) None true = Ok (@scalars ER out, sf, s0) /\ length out = length xs /\
    forall k r, (k < length xs)%nat -> nth k out (Fin 0) <> Fin r.
Proof. exact (atr_zero_never_finite xs). Qed.
Print Assumptions C71_atr_zero_refuted.

(** The errors themselves, on a series the same operators take with period 2. *)
Definition some_prices : list (@F W) := map (@f_of_Z W) [5; 3; 8; 4]%Z.
Example C71_met : some_prices <> [] /\ short some_prices /\ genuine (scalars some_prices) /\ sig (scalars some_prices) = wide 4 (Leaf ([], F32)) /\
  (exists y, call (SimpleMovingAverage 2) (scalars some_prices) None true = Ok y) /\ (exists e, call (SimpleMovingAverage (-1)) (scalars some_prices) None true = Err e) /\
  (exists e, call (SimpleMovingAverage 0) (scalars some_prices) None true = Err e) /\
  (exists y, call (Lag 1) (scalars some_prices) None true = Ok y) /\ (exists e, call (Lag 0) (scalars some_prices) None true = Err e) /\
  (exists y, call (ExponentialMovingAverage 0) (scalars some_prices) None true = Ok y) /\
  (exists e, call (ExponentialMovingAverage (-1)) (scalars some_prices) None true = Err e).
Proof.
  split; [discriminate|]. split; [unfold short; cbn; lia|]. split; [split; [|repeat constructor]; reflexivity || (cbn; auto) |].
  split; [reflexivity|]. repeat (split; [eexists; reflexivity|]). eexists; reflexivity.
Qed.
