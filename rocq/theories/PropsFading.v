(** * PropsFading: property C83 — which operators forget a bounded past in bounded time, and which never do (exact arithmetic).
    Vocabulary: Fading.v ([settles op]: for all [M] and [eps > 0] there is a [K] such that after any two pasts [xs], [ys] with numbers within [M], from the number [K] of a common
    continuation [zs] on the outputs differ by [eps] at most; [agree_from K eps a b k o o']: that relation between two output series; [bounded], [bounded_bars]: within [M]),
    Agree.v ([outputs op xs out]: streaming [op] over the numbers [xs] gives the numbers [out]; [countable]; [at_pos]: the number at a position). *)
From Coq Require Import Reals Lra List ZArith Bool Lia.
From Verif Require Import Num Py Tensor Streamable Common Finance Series Formulas ER RealFacts Linear RealMarket MarketReal Steady RealLinear Agree AgreeFacts Fading FadingFacts FadingRate ForgetFacts ForgetTrend.
Import ListNotations.
Local Open Scope R_scope.

(** The averages with memory settle, in a time that does not depend on the past. *)
Theorem C83_averages p : (1 <= p)%nat -> settles (ExponentialMovingAverage (Z.of_nat p)) /\ settles (RollingMovingAverage (Z.of_nat p)).
Proof. exact (averages_settle p). Qed.
Print Assumptions C83_averages.
(** How fast: [n + 1] common numbers after the fork, the averages differ by at most [2 M] times exp (-2 (n + 1 - p) / (p + 1)), resp. exp (-(n + 1 - p) / p). *)
Theorem C83_rate p M xs ys zs : (1 <= p)%nat -> bounded M (xs ++ zs) -> bounded M (ys ++ zs) -> countable (xs ++ zs) -> countable (ys ++ zs) ->
  exists ema ema' rma rma', outputs (ExponentialMovingAverage (Z.of_nat p)) (xs ++ zs) ema /\ outputs (ExponentialMovingAverage (Z.of_nat p)) (ys ++ zs) ema' /\
    outputs (RollingMovingAverage (Z.of_nat p)) (xs ++ zs) rma /\ outputs (RollingMovingAverage (Z.of_nat p)) (ys ++ zs) rma' /\
    forall n, (p <= n + 1)%nat -> (n < length zs)%nat ->
      Rabs (at_pos ema (length xs + n) - at_pos ema' (length ys + n)) <= 2 * M * exp (- (2 * INR (n + 1 - p) / (INR p + 1))) /\
      Rabs (at_pos rma (length xs + n) - at_pos rma' (length ys + n)) <= 2 * M * exp (- (INR (n + 1 - p) / INR p)).
Proof. exact (averages_rate p M xs ys zs). Qed.
Print Assumptions C83_rate.
(** So do all five outputs of the MACD, for any three periods. *)
Theorem C83_macd slow fast q M eps : (1 <= slow)%nat -> (1 <= fast)%nat -> (1 <= q)%nat -> 0 < eps -> exists K, forall xs ys zs,
  bounded M (xs ++ zs) -> bounded M (ys ++ zs) -> countable (xs ++ zs) -> countable (ys ++ zs) ->
  exists o1 o2 o3 o4 o5 o1' o2' o3' o4' o5' sf s0 sf' s0',
    call (MovingAverageConvergenceDivergence (Z.of_nat slow) (Z.of_nat fast) (Z.of_nat q)) (reals (xs ++ zs)) None true = Ok (Tup [reals o1; reals o2; reals o3; reals o4; reals o5], sf, s0) /\
    call (MovingAverageConvergenceDivergence (Z.of_nat slow) (Z.of_nat fast) (Z.of_nat q)) (reals (ys ++ zs)) None true = Ok (Tup [reals o1'; reals o2'; reals o3'; reals o4'; reals o5'], sf', s0') /\
    Forall2 (fun o o' => length o = length (xs ++ zs) /\ length o' = length (ys ++ zs) /\ agree_from K eps (length xs) (length ys) (length zs) o o') [o1; o2; o3; o4; o5] [o1'; o2'; o3'; o4'; o5'].
Proof. exact (macd_settles slow fast q M eps). Qed.
Print Assumptions C83_macd.
(** So does the average true range of bars. *)
Theorem C83_ranges p M eps : (1 <= p)%nat -> 0 < eps -> exists K, forall xs ys zs, bounded_bars M (xs ++ zs) -> bounded_bars M (ys ++ zs) -> zs <> [] ->
  (Z.of_nat (length (xs ++ zs)) < 2147483648)%Z -> (Z.of_nat (length (ys ++ zs)) < 2147483648)%Z ->
  exists o o' sf s0 sf' s0', call (AverageTrueRange (Z.of_nat p)) (bars_of (xs ++ zs)) None true = Ok (reals o, sf, s0) /\
    call (AverageTrueRange (Z.of_nat p)) (bars_of (ys ++ zs)) None true = Ok (reals o', sf', s0') /\
    length o = length (xs ++ zs) /\ length o' = length (ys ++ zs) /\ agree_from K eps (length xs) (length ys) (length zs) o o'.
Proof. exact (ranges_fade p M eps). Qed.
Print Assumptions C83_ranges.
(** The relative strength index does not: however long two series with numbers within 2 have been the same, one may read 100 and the other 0. *)
Theorem C83_strength_refuted p K : (2 <= p)%nat -> (Z.of_nat (p + S K) < 2147483648)%Z ->
  exists xs ys zs (index index' : list ext) sf s0 sf' s0', bounded 2 (xs ++ zs) /\ bounded 2 (ys ++ zs) /\ length zs = S K /\
    call (RelativeStrengthIndex (Z.of_nat p)) (reals (xs ++ zs)) None true = Ok (@scalars ER index, sf, s0) /\
    call (RelativeStrengthIndex (Z.of_nat p)) (reals (ys ++ zs)) None true = Ok (@scalars ER index', sf', s0') /\
    nth (length xs + K) index NaN = Fin 100 /\ nth (length ys + K) index' NaN = Fin 0.
Proof. exact (strength_remembers p K). Qed.
Print Assumptions C83_strength_refuted.
(** Nor does Supertrend, even where it cannot abort (period 2, factor 2): however long two series of bars within 12 have been the same, the line may be at 0 or below for one, at 8 or above for the other. *)
Theorem C83_supertrend_refuted K : (Z.of_nat (2 + S K) < 2147483648)%Z ->
  exists xs ys zs (line line' : list ext) sf s0 sf' s0' below above, bounded_bars 12 (xs ++ zs) /\ bounded_bars 12 (ys ++ zs) /\ length zs = S K /\
    call (@Supertrend ER 2 (PyInt 2)) (bars_of (xs ++ zs)) None true = Ok (@scalars ER line, sf, s0) /\
    call (@Supertrend ER 2 (PyInt 2)) (bars_of (ys ++ zs)) None true = Ok (@scalars ER line', sf', s0') /\
    nth (length xs + K) line NaN = Fin below /\ below <= 0 /\ nth (length ys + K) line' NaN = Fin above /\ 8 <= above.
Proof. exact (trend_remembers K). Qed.
Print Assumptions C83_supertrend_refuted.
(** Nor do the drawdown and the extrema since the start (by design: a peak is a peak until it is passed). *)
Theorem C83_drawdown_refuted K : (Z.of_nat (1 + S K) < 2147483648)%Z ->
  exists xs ys zs depths depths' sf s0 sf' s0', bounded 2 (xs ++ zs) /\ bounded 2 (ys ++ zs) /\ length zs = S K /\
    call Drawdown (reals (xs ++ zs)) None true = Ok (drawdown_reals depths, sf, s0) /\
    call Drawdown (reals (ys ++ zs)) None true = Ok (drawdown_reals depths', sf', s0') /\
    fst (nth (length xs + K) depths (0, 0%Z)) = - (1 / 2) /\ fst (nth (length ys + K) depths' (0, 0%Z)) = 0.
Proof. exact (drawdown_remembers K). Qed.
Print Assumptions C83_drawdown_refuted.
Theorem C83_extrema_refuted K : (Z.of_nat (1 + S K) < 2147483648)%Z ->
  exists xs ys zs low low' high high', bounded 2 (xs ++ zs) /\ bounded 2 (ys ++ zs) /\ length zs = S K /\
    outputs GlobalMinimum (xs ++ zs) low /\ outputs GlobalMinimum (ys ++ zs) low' /\ outputs GlobalMaximum (xs ++ zs) high /\ outputs GlobalMaximum (ys ++ zs) high' /\
    at_pos low (length xs + K) = 0 /\ at_pos low' (length ys + K) = 1 /\ at_pos high (length xs + K) = 1 /\ at_pos high' (length ys + K) = 2.
Proof. exact (extrema_remember K). Qed.
Print Assumptions C83_extrema_refuted.

(** The hypotheses are met, by pasts of different lengths and by the empty past. *)
Example C83_met : let xs := [3; -1] in let zs := [2; 2; 5] in
  bounded 5 (xs ++ zs) /\ bounded 5 ([] ++ zs) /\ countable (xs ++ zs) /\ countable ([] ++ zs) /\
  bounded_bars 14 ([RC 10 12 9 11] ++ [RC 11 14 11 12]) /\ bounded_bars 14 ([] ++ [RC 11 14 11 12]).
Proof.
  cbv zeta. cbn [app]. assert (A : forall x M, - M <= x <= M -> Rabs x <= M) by (intros; now apply Rabs_le).
  repeat split; try discriminate; try (cbn; lia);
    repeat (apply Forall_cons; [first [apply A; lra|repeat split; cbn [r_high r_low r_close]; apply A; lra]|]); apply Forall_nil.
Qed.
