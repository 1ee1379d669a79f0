(** * PropsLine: property C74 — the readings on straight lines and on geometric series (exact arithmetic).
    Vocabulary: Line.v ([line a b len]: [len] numbers from [a] in steps of [b]; [ladder c q len]: [len] numbers from [c], each [q] times the one before; [countably len]:
    at least one number and fewer than 2^31) and Agree.v ([outputs op xs out]: streaming [op] over the numbers [xs] gives the numbers [out]; [at_pos]: the number at a position). *)
From Coq Require Import Reals Lra List ZArith Bool Lia.
From Verif Require Import Num Py Tensor Streamable Common Finance Series Formulas ER Linear RealMarket Steady Agree Line LineFacts.
Import ListNotations.
Local Open Scope R_scope.

(** From position p - 1 on, the simple and the exponential average of a line are both the line (p - 1) / 2 steps ago, and the rolling average is the line from
    (p - 1) / 2 steps ago at first to p - 1 steps ago in the end, approached by the factor (p - 1) / p at every step. *)
Theorem C74_averages p a b len : (1 <= p)%nat -> countably len ->
  exists sma ema rma, outputs (SimpleMovingAverage (Z.of_nat p)) (line a b len) sma /\ outputs (ExponentialMovingAverage (Z.of_nat p)) (line a b len) ema /\
    outputs (RollingMovingAverage (Z.of_nat p)) (line a b len) rma /\
    forall n, (p <= n + 1)%nat -> (n < len)%nat ->
      at_pos sma n = a + b * (INR n - (INR p - 1) / 2) /\ at_pos ema n = a + b * (INR n - (INR p - 1) / 2) /\
      at_pos rma n = a + b * (INR n - (INR p - 1) * (1 - ((INR p - 1) / INR p) ^ (n + 1 - p) / 2)).
Proof. exact (averages_on_line p a b len). Qed.
Print Assumptions C74_averages.
(** The deviation of a line is its step times sqrt ((p² - 1) / 12); the Bollinger bands lie [k] deviations on both sides of the line (p - 1) / 2 steps ago. *)
Theorem C74_spread p factor k a b len : (1 <= p)%nat -> @Series.num ER factor = Fin k -> countably len ->
  exists msd lower middle upper sf s0, outputs (MovingStandardDeviation (Z.of_nat p)) (line a b len) msd /\
    call (BollingerBands (Z.of_nat p) factor) (reals (line a b len)) None true = Ok (Tup [reals lower; reals middle; reals upper], sf, s0) /\
    length lower = len /\ length middle = len /\ length upper = len /\
    forall n, (p <= n + 1)%nat -> (n < len)%nat ->
      let deviation := Rabs b * sqrt ((INR p * INR p - 1) / 12) in
      at_pos msd n = deviation /\ at_pos middle n = a + b * (INR n - (INR p - 1) / 2) /\
      at_pos lower n = at_pos middle n - k * deviation /\ at_pos upper n = at_pos middle n + k * deviation.
Proof. exact (spread_on_line p factor k a b len). Qed.
Print Assumptions C74_spread.
(** The momentum of a line is [p] steps. *)
Theorem C74_momentum p a b len : (1 <= p)%nat -> countably len ->
  exists mom, outputs (Momentum (Z.of_nat p)) (line a b len) mom /\ forall n, (p <= n < len)%nat -> at_pos mom n = INR p * b.
Proof. exact (momentum_on_line p a b len). Qed.
Print Assumptions C74_momentum.
(** The MACD of a line is half the difference of the two periods, in steps; the signal is the same and the histogram 0. *)
Theorem C74_macd slow fast m a b len : (1 <= fast)%nat -> (fast <= slow)%nat -> (1 <= m)%nat -> countably len ->
  exists s f macd signal histogram sf s0,
    call (MovingAverageConvergenceDivergence (Z.of_nat slow) (Z.of_nat fast) (Z.of_nat m)) (reals (line a b len)) None true =
      Ok (Tup [reals s; reals f; reals macd; reals signal; reals histogram], sf, s0) /\
    length macd = len /\ length signal = len /\ length histogram = len /\
    forall n, (n < len)%nat ->
      ((slow <= n + 1)%nat -> at_pos macd n = b * ((INR slow - INR fast) / 2)) /\
      ((slow + m <= n + 2)%nat -> at_pos signal n = b * ((INR slow - INR fast) / 2) /\ at_pos histogram n = 0).
Proof. exact (macd_on_line slow fast m a b len). Qed.
Print Assumptions C74_macd.
(** The relative strength index of a rising line is 100, of a falling line 0, and of a flat line NaN. *)
Theorem C74_strength p a b len : (1 <= p)%nat -> countably len ->
  exists (index : list ext) sf s0, call (RelativeStrengthIndex (Z.of_nat p)) (reals (line a b len)) None true = Ok (@scalars ER index, sf, s0) /\ length index = len /\
    forall n, (p <= n < len)%nat ->
      (0 < b -> nth n index NaN = Fin 100) /\ (b < 0 -> nth n index NaN = Fin 0) /\ (b = 0 -> nth n index NaN = NaN).
Proof. exact (strength_on_line p a b len). Qed.
Print Assumptions C74_strength.
(** A line has skewness 0, in the warm-up too. *)
Theorem C74_skewness p a b len : (1 <= p)%nat -> (Z.of_nat p < 2147483648)%Z -> countably len ->
  exists skew, outputs (Skewness (Z.of_nat p)) (line a b len) skew /\ forall n, (n < len)%nat -> at_pos skew n = 0.
Proof. exact (skewness_on_line p a b len). Qed.
Print Assumptions C74_skewness.
(** Two lines that both rise or both fall have correlation 1, two lines that part correlation -1; with a flat line, or over one pair, it is NaN. *)
Theorem C74_correlation p a b c d len : (1 <= p)%nat -> countably len ->
  exists (corr : list ext) sf s0,
    call (Correlation (Z.of_nat p)) (Tup [reals (line a b len); reals (line c d len)]) None true = Ok (@scalars ER corr, sf, s0) /\ length corr = len /\
    forall n, (p <= n < len)%nat ->
      ((2 <= p)%nat -> 0 < b * d -> nth n corr NaN = Fin 1) /\ ((2 <= p)%nat -> b * d < 0 -> nth n corr NaN = Fin (-1)) /\
      (p = 1%nat \/ b * d = 0 -> nth n corr NaN = NaN).
Proof. exact (correlation_on_lines p a b c d len). Qed.
Print Assumptions C74_correlation.
(** Numbers multiplied by [q] at every step have the return q^p - 1 and the logarithmic return p ln q. *)
Theorem C74_changes p c q len : (1 <= p)%nat -> c <> 0 -> 0 < q -> countably len ->
  exists ret log_ret, outputs (Return (Z.of_nat p)) (ladder c q len) ret /\ outputs (LogarithmicReturn (Z.of_nat p)) (ladder c q len) log_ret /\
    forall n, (p <= n < len)%nat -> at_pos ret n = q ^ p - 1 /\ at_pos log_ret n = INR p * ln q.
Proof. exact (changes_on_ladder p c q len). Qed.
Print Assumptions C74_changes.
(** The drawdown of numbers that shrink by the factor [q] at every step is q^n - 1 after [n] steps, which are all counted. *)
Theorem C74_drawdown c q len : 1 / 10000 < c -> 0 <= q <= 1 -> countably len ->
  exists depths sf s0, call Drawdown (reals (ladder c q len)) None true = Ok (drawdown_reals depths, sf, s0) /\ length depths = len /\
    forall n, (n < len)%nat -> nth n depths (0, 0%Z) = (q ^ n - 1, Z.of_nat n).
Proof. exact (drawdown_on_ladder c q len). Qed.
Print Assumptions C74_drawdown.
(** The hypotheses are met: five numbers 1, 3, 5, 7, 9, of which the last three have the averages 3, 5, 7. *)
Example C74_met : line 1 2 5 = [1; 3; 5; 7; 9] /\ countably 5 /\ ladder 100 (1 / 2) 3 = [100; 50; 25] /\
  exists sma, outputs (SimpleMovingAverage 3) (line 1 2 5) sma /\ at_pos sma 2 = 3 /\ at_pos sma 3 = 5 /\ at_pos sma 4 = 7.
Proof.
  assert (C : countably 5) by (split; lia). split; [unfold line; cbn; repeat (f_equal; try ring)|]. split; [exact C|]. split; [unfold ladder; cbn; repeat (f_equal; try field)|].
  destruct (averages_on_line 3 1 2 5 ltac:(lia) C) as (sma & ema & rma & H & _ & _ & Q). exists sma. split; [exact H|].
  destruct (Q 2%nat ltac:(lia) ltac:(lia)) as [Q2 _]. destruct (Q 3%nat ltac:(lia) ltac:(lia)) as [Q3 _]. destruct (Q 4%nat ltac:(lia) ltac:(lia)) as [Q4 _]. rewrite Q2, Q3, Q4. cbn. repeat split; lra.
Qed.
