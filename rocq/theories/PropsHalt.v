(** * PropsHalt: property C78 — what the indicators say once the prices stop moving (exact arithmetic).
    Vocabulary: Halt.v ([halts xs n c]: from position [n] on all numbers are [c]; [bars_halt xs n c]: from bar [n] on high, low and close are [c]), Agree.v ([outputs op xs out]: streaming
    [op] over the numbers [xs] gives the numbers [out]; [at_pos]: the number at a position), Super.v ([direction_after]: the trend, 1 up or -1 down, in the state after a bar),
    StatReal.v ([fin_pair], [fin_rows]: pairs of numbers, resp. of rows of numbers, as floats; [rpairs_ok s], [rshaped s]: all rows fit the shape [s] and the series is countable). *)
From Coq Require Import Reals Lra List ZArith Bool Lia.
From Verif Require Import Num Py Tensor Streamable Common Finance Series Formulas ER RealFacts RealStats Linear RealMarket MarketReal Steady Agree AgreeFacts Super SuperNum RealLinear Halt HaltFacts HaltMarket MovingFacts Positions ImplWindow ImplCorr StatReal HaltStats Agree.
Import ListNotations.
Local Open Scope R_scope.

(** What the averages with memory are away from the price shrinks by (p - 1) / (p + 1), resp. (p - 1) / p, at every step. *)
Theorem C78_averages p xs n c : (1 <= p)%nat -> countable xs -> halts xs n c ->
  exists ema rma, outputs (ExponentialMovingAverage (Z.of_nat p)) xs ema /\ outputs (RollingMovingAverage (Z.of_nat p)) xs rma /\
    forall m, (p <= n + 1)%nat -> (n <= m < length xs)%nat ->
      at_pos ema m - c = ((INR p - 1) / (INR p + 1)) ^ (m - n) * (at_pos ema n - c) /\
      at_pos rma m - c = ((INR p - 1) / INR p) ^ (m - n) * (at_pos rma n - c).
Proof. exact (averages_halt p xs n c). Qed.
Print Assumptions C78_averages.
(** Once the window holds nothing else, the simple average, the local extrema and all three Bollinger bands are the price and the deviation is 0. *)
Theorem C78_windows p factor k xs n c : (1 <= p)%nat -> (Z.of_nat p < 2147483648)%Z -> @Series.num ER factor = Fin k -> countable xs -> halts xs n c ->
  exists sma msd low high lower middle upper sf s0,
    outputs (SimpleMovingAverage (Z.of_nat p)) xs sma /\ outputs (MovingStandardDeviation (Z.of_nat p)) xs msd /\
    outputs (LocalMinimum (Z.of_nat p)) xs low /\ outputs (LocalMaximum (Z.of_nat p)) xs high /\
    call (BollingerBands (Z.of_nat p) factor) (reals xs) None true = Ok (Tup [reals lower; reals middle; reals upper], sf, s0) /\
    length lower = length xs /\ length middle = length xs /\ length upper = length xs /\
    forall m, (n + p <= m + 1)%nat -> (m < length xs)%nat ->
      at_pos sma m = c /\ at_pos msd m = 0 /\ at_pos low m = c /\ at_pos high m = c /\ at_pos lower m = c /\ at_pos middle m = c /\ at_pos upper m = c.
Proof. exact (windows_halt p factor k xs n c). Qed.
Print Assumptions C78_windows.
(** Momentum and returns over [p] steps are 0 after [p] steps, at any price (0 and negative prices too); the volatility of [q] such returns is 0 after [p + q - 1] steps. *)
Theorem C78_changes p q xs n c : (1 <= p)%nat -> (1 <= q)%nat -> countable xs -> halts xs n c ->
  exists mom (ret log_ret vol : list ext) sr ir sl il sv iv, outputs (Momentum (Z.of_nat p)) xs mom /\
    call (Return (Z.of_nat p)) (reals xs) None true = Ok (@scalars ER ret, sr, ir) /\
    call (LogarithmicReturn (Z.of_nat p)) (reals xs) None true = Ok (@scalars ER log_ret, sl, il) /\
    call (Volatility (Z.of_nat q) (Z.of_nat p)) (reals xs) None true = Ok (@scalars ER vol, sv, iv) /\
    length ret = length xs /\ length log_ret = length xs /\ length vol = length xs /\
    forall m, (n + p <= m < length xs)%nat ->
      at_pos mom m = 0 /\ nth m ret NaN = Fin 0 /\ nth m log_ret NaN = Fin 0 /\ ((n + p + q <= m + 1)%nat -> nth m vol NaN = Fin 0).
Proof. exact (changes_halt p q xs n c). Qed.
Print Assumptions C78_changes.
(** The MACD becomes the difference of two fading terms. *)
Theorem C78_macd slow fast q xs n c : (1 <= fast)%nat -> (fast <= slow)%nat -> (1 <= q)%nat -> countable xs -> halts xs n c ->
  exists s f macd signal histogram sf s0,
    call (MovingAverageConvergenceDivergence (Z.of_nat slow) (Z.of_nat fast) (Z.of_nat q)) (reals xs) None true =
      Ok (Tup [reals s; reals f; reals macd; reals signal; reals histogram], sf, s0) /\
    length s = length xs /\ length f = length xs /\ length macd = length xs /\
    forall m, (slow <= n + 1)%nat -> (n <= m < length xs)%nat ->
      at_pos macd m = ((INR fast - 1) / (INR fast + 1)) ^ (m - n) * (at_pos f n - c) - ((INR slow - 1) / (INR slow + 1)) ^ (m - n) * (at_pos s n - c).
Proof. exact (macd_halt slow fast q xs n c). Qed.
Print Assumptions C78_macd.
(** The relative strength index keeps its value (a NaN too); only for the period 1 it is NaN after the first unchanged price. *)
Theorem C78_strength p xs n c : (1 <= p)%nat -> countable xs -> halts xs n c ->
  exists (index : list ext) sf s0, call (RelativeStrengthIndex (Z.of_nat p)) (reals xs) None true = Ok (@scalars ER index, sf, s0) /\ length index = length xs /\
    forall m, (p <= n)%nat -> (n <= m < length xs)%nat -> nth m index NaN = if ((p =? 1)%nat && (n <? m)%nat)%bool then NaN else nth n index NaN.
Proof. exact (strength_halt p xs n c). Qed.
Print Assumptions C78_strength.
(** The drawdown keeps its depth and its duration goes on counting, one more at every step. *)
Theorem C78_drawdown xs n c : countable xs -> halts xs n c ->
  exists depths sf s0, call Drawdown (reals xs) None true = Ok (drawdown_reals depths, sf, s0) /\ length depths = length xs /\
    forall m, (n <= m < length xs)%nat ->
      fst (nth m depths (0, 0%Z)) = fst (nth n depths (0, 0%Z)) /\ snd (nth m depths (0, 0%Z)) = Z.add (snd (nth n depths (0, 0%Z))) (Z.of_nat (m - n)).
Proof. exact (drawdown_halt xs n c). Qed.
Print Assumptions C78_drawdown.
(** The average true range shrinks by (p - 1) / p at every step. *)
Theorem C78_ranges p xs n c : (1 <= p)%nat -> xs <> [] -> (Z.of_nat (length xs) < 2147483648)%Z -> bars_halt xs n c ->
  exists atr sf s0, call (AverageTrueRange (Z.of_nat p)) (bars_of xs) None true = Ok (reals atr, sf, s0) /\ length atr = length xs /\
    forall m, (p <= n + 1)%nat -> (n <= m < length xs)%nat -> at_pos atr m = ((INR p - 1) / INR p) ^ (m - n) * at_pos atr n.
Proof. exact (ranges_settle p xs n c). Qed.
Print Assumptions C78_ranges.
(** Supertrend never turns again, and its line closes in on the price from its side, at most [k] average true ranges away. *)
Theorem C78_supertrend p factor k xs n c res : (2 <= p)%nat -> @Series.num ER factor = Fin k -> 0 <= k -> xs <> [] -> (Z.of_nat (length xs) < 2147483648)%Z -> bars_halt xs n c ->
  call (@Supertrend ER (Z.of_nat p) factor) (bars_of xs) None true = Ok res ->
  exists line atr sf s0 sf' s0', res = (reals line, sf, s0) /\ length line = length xs /\
    call (AverageTrueRange (Z.of_nat p)) (bars_of xs) None true = Ok (reals atr, sf', s0') /\ length atr = length xs /\
    (at_pos atr n <> 0 -> exists d, (d = 1%Z \/ d = (-1)%Z) /\ forall m, (n <= m < length xs)%nat ->
      direction_after p factor (map cfin xs) m d /\
      (d = 1%Z -> c - k * at_pos atr m <= at_pos line m <= c) /\ (d = (-1)%Z -> c <= at_pos line m <= c + k * at_pos atr m)).
Proof. exact (supertrend_halt p factor k xs n c res). Qed.
Print Assumptions C78_supertrend.

(** The statistics: the skewness is 0 once its window holds nothing else, and the Sharpe ratio once the excess returns of its window are all the same (whatever they are). *)
Theorem C78_skewness p xs n c : (1 <= p)%nat -> (Z.of_nat p < 2147483648)%Z -> countable xs -> halts xs n c ->
  exists (out : list ext) sf s0, call (Skewness (Z.of_nat p)) (reals xs) None true = Ok (@scalars ER out, sf, s0) /\ length out = length xs /\
    forall m, (n + p <= m + 1)%nat -> (m < length xs)%nat -> nth m out NaN = Fin 0.
Proof. exact (skewness_halt p xs n c). Qed.
Print Assumptions C78_skewness.
Theorem C78_sharpe_ratio p xs n c : (1 <= p)%nat -> (Z.of_nat p < 2147483648)%Z -> xs <> [] -> (Z.of_nat (length xs) < 2147483648)%Z -> halts (map (fun x => fst x - snd x) xs) n c ->
  exists (out : list ext) sf s0, call (SharpeRatio (Z.of_nat p)) (@pairs ER (map fin_pair xs)) None true = Ok (@scalars ER out, sf, s0) /\ length out = length xs /\
    forall m, (n + p <= m + 1)%nat -> (m < length xs)%nat -> nth m out NaN = Fin 0.
Proof. exact (sharpe_halt p xs n c). Qed.
Print Assumptions C78_sharpe_ratio.
(** The correlations are NaN at an element as soon as one side of the window has stopped there (for the lagged side: [l] positions later). *)
Theorem C78_correlation s p xs : (1 <= p)%nat -> xs <> [] -> rpairs_ok s xs ->
  exists out sf s0, call (Correlation (Z.of_nat p)) (@tensor_pairs ER s (map fin_rows xs)) None true = Ok (@tensors ER s out, sf, s0) /\ length out = length xs /\
    forall j n c, (j < prod s)%nat -> halts (map (fun x => nth j (fst x) 0) xs) n c \/ halts (map (fun x => nth j (snd x) 0) xs) n c ->
    forall m, (n + p <= m + 1)%nat -> (p <= m < length xs)%nat -> @number ER out j m = NaN.
Proof. exact (correlation_halt s p xs). Qed.
Print Assumptions C78_correlation.
Theorem C78_cross_correlation s p l xs : (1 <= p)%nat -> (1 <= l)%nat -> xs <> [] -> rpairs_ok s xs ->
  exists out sf s0, call (CrossCorrelation (Z.of_nat p) (Z.of_nat l)) (@tensor_pairs ER s (map fin_rows xs)) None true = Ok (@tensors ER s out, sf, s0) /\ length out = length xs /\
    forall j n c, (j < prod s)%nat ->
      (halts (map (fun x => nth j (fst x) 0) xs) n c -> forall m, (n + p <= m + 1)%nat -> (l + p <= m < length xs)%nat -> @number ER out j m = NaN) /\
      (halts (map (fun x => nth j (snd x) 0) xs) n c -> forall m, (n + l + p <= m + 1)%nat -> (l + p <= m < length xs)%nat -> @number ER out j m = NaN).
Proof. exact (lagged_halt s p l xs). Qed.
Print Assumptions C78_cross_correlation.
Theorem C78_auto_correlation s p l xs : (1 <= p)%nat -> (1 <= l)%nat -> xs <> [] -> rshaped s xs ->
  exists out sf s0, call (AutoCorrelation (Z.of_nat p) (Z.of_nat l)) (@tensors ER s (fins xs)) None true = Ok (@tensors ER s out, sf, s0) /\ length out = length xs /\
    forall j n c, (j < prod s)%nat -> halts (map (fun r => nth j r 0) xs) n c ->
    forall m, (n + p <= m + 1)%nat -> (l + p <= m < length xs)%nat -> @number ER out j m = NaN.
Proof. exact (auto_halt s p l xs). Qed.
Print Assumptions C78_auto_correlation.
(** The hypotheses are met: pairs of rows of two numbers whose second series stops at 5 at element 1, and pairs of returns whose excess stops at 1. *)
Example C78_statistics_met : let xs := [([1; 2], [3; 4]); ([2; 2], [4; 5]); ([3; 0], [1; 5]); ([0; 1], [2; 5])] in let ys := [(3, 1); (4, 3); (2, 1); (1, 0)] in
  rpairs_ok [2%nat] xs /\ halts (map (fun x => nth 1 (snd x) 0) xs) 1 5 /\ halts (map (fun x => fst x - snd x) ys) 1 1 /\ rshaped [2%nat] (map snd xs) /\ halts (map (fun r => nth 1 r 0) (map snd xs)) 1 5.
Proof.
  cbv zeta. split; [split; [repeat constructor|unfold Series.short; cbn; lia]|]. assert (H : halts (map (fun x : list R * list R => nth 1 (snd x) 0) [([1; 2], [3; 4]); ([2; 2], [4; 5]); ([3; 0], [1; 5]); ([0; 1], [2; 5])]) 1 5).
  { split; [cbn; lia|]. intros [|[|[|[|i]]]] Hi; cbn in Hi; try lia; reflexivity. }
  split; [exact H|]. split. { split; [cbn; lia|]. intros [|[|[|[|i]]]] Hi; cbn in Hi; try lia; unfold at_pos; cbn; ring. }
  split; [split; [repeat constructor|unfold Series.short; cbn; lia]|exact H].
Qed.

(** The hypotheses are met: prices 1, 4, 2, 2, 2 and bars that stop at 12 with the average true range 3/2 (period 2), on which Supertrend of factor 3 succeeds. *)
Example C78_met : let xs := [1; 4; 2; 2; 2] in let bs := [RC 10 12 9 11; RC 11 14 11 12; RC 12 12 12 12; RC 13 12 12 12] in
  countable xs /\ halts xs 2 2 /\ bars_halt bs 2 12 /\ @Series.num ER (PyInt 3) = Fin 3 /\
  (exists res, call (@Supertrend ER (Z.of_nat 2) (PyInt 3)) (bars_of bs) None true = Ok res) /\
  exists atr sf s0, call (@AverageTrueRange ER (Z.of_nat 2)) (bars_of bs) None true = Ok (reals atr, sf, s0) /\ at_pos atr 2 = 3 / 2.
Proof.
  cbv zeta. split; [split; [discriminate|cbn; lia]|]. split.
  { split; [cbn; lia|]. intros [|[|[|[|[|i]]]]] Hi; cbn in Hi; try lia; reflexivity. }
  split. { split; [cbn; lia|]. intros [|[|[|[|[|i]]]]] b Hi Hb; try lia; cbn in Hb; try (injection Hb as <-; now cbn); discriminate Hb. }
  split; [reflexivity|]. split.
  { destruct (super_safe_factor 2 (PyInt 3) 3 [RC 10 12 9 11; RC 11 14 11 12; RC 12 12 12 12; RC 13 12 12 12]) as (out & sf & s0 & E & _);
      [lia|reflexivity|cbn; lra|discriminate|unfold short; cbn; lia|repeat constructor; cbn; lra|]. eexists. exact E. }
  destruct (atr_outputs 2 [RC 10 12 9 11; RC 11 14 11 12; RC 12 12 12 12; RC 13 12 12 12]) as (sf & s0 & E); [lia|discriminate|cbn; lia|]. do 3 eexists. split; [exact E|].
  assert (R0 : rrange 0 (RC 10 12 9 11) = 3) by (unfold rrange; cbn [r_high r_low]; destruct (Req_EM_T 0 0); [|lra]; unfold Rmax; repeat (destruct (Rle_dec _ _); try lra)).
  assert (R1 : rrange 11 (RC 11 14 11 12) = 3).
  { rewrite rrange_known by lra. cbn [r_high r_low]. rewrite !Rabs_right by lra. unfold Rmax. repeat (destruct (Rle_dec _ _); try lra). }
  assert (R2 : rrange 12 (RC 12 12 12 12) = 0) by (apply flat_range; repeat split).
  unfold at_pos. cbn [hists map nth rranges rlast_close r_close]. rewrite R0, R1, R2. cbn. unfold rsma, rmean. cbn. field.
Qed.
