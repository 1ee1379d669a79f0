(** * PropsLinear: properties C51 (fading of the recursive averages), C52 (linearity) and C53 (units) in exact arithmetic.
    Vocabulary: Linear.v and Series.v. *)
From Coq Require Import Reals Lra Lia List ZArith Bool.
From Verif Require Import Num Py Tensor Streamable Meta Common Finance Series Formulas Positions
  ImplBasic ImplScalar ImplComp ImplWindow ImplCorr ImplMarket ER RealFacts RealStats RealMarket MovingFacts StatReal Linear RealLinear RealScale RealScale2.
Import ListNotations.
Local Open Scope R_scope.

(** ** C51: the recursive averages forget geometrically *)
Theorem C51_exponential_fades s p xs ys zs : (1 <= p)%nat -> (p <= length xs)%nat -> (p <= length ys)%nat ->
  rshaped s (xs ++ zs) -> rshaped s (ys ++ zs) ->
  exists o o' sx ix sy iy,
    call (@ExponentialMovingAverage ER (Z.of_nat p)) (tensors s (fins (xs ++ zs))) None true = Ok (tensors s (fins o), sx, ix) /\
    call (@ExponentialMovingAverage ER (Z.of_nat p)) (tensors s (fins (ys ++ zs))) None true = Ok (tensors s (fins o'), sy, iy) /\
    length o = length (xs ++ zs) /\ length o' = length (ys ++ zs) /\
    forall n j, (n < length zs)%nat -> (j < prod s)%nat ->
      rnumber o j (length xs + n) - rnumber o' j (length ys + n) =
      ((INR p - 1) / (INR p + 1)) ^ (n + 1) * (rnumber o j (length xs - 1) - rnumber o' j (length ys - 1)).
Proof. exact (ema_fades s p xs ys zs). Qed.
Print Assumptions C51_exponential_fades.
Theorem C51_rolling_fades s p xs ys zs : (1 <= p)%nat -> (p <= length xs)%nat -> (p <= length ys)%nat ->
  rshaped s (xs ++ zs) -> rshaped s (ys ++ zs) ->
  exists o o' sx ix sy iy,
    call (@RollingMovingAverage ER (Z.of_nat p)) (tensors s (fins (xs ++ zs))) None true = Ok (tensors s (fins o), sx, ix) /\
    call (@RollingMovingAverage ER (Z.of_nat p)) (tensors s (fins (ys ++ zs))) None true = Ok (tensors s (fins o'), sy, iy) /\
    length o = length (xs ++ zs) /\ length o' = length (ys ++ zs) /\
    forall n j, (n < length zs)%nat -> (j < prod s)%nat ->
      rnumber o j (length xs + n) - rnumber o' j (length ys + n) =
      ((INR p - 1) / INR p) ^ (n + 1) * (rnumber o j (length xs - 1) - rnumber o' j (length ys - 1)).
Proof. exact (rma_fades s p xs ys zs). Qed.
Print Assumptions C51_rolling_fades.
(** Two columns, period 2, three different first rows, one common last row. *)
Definition l_xs : list (list R) := [[1; 2]; [3; 5]].
Definition l_ys : list (list R) := [[4; 0]; [1; 1]; [2; 2]].
Definition l_zs : list (list R) := [[7; -1]].
Ltac rows_ok := split; [repeat (constructor; try reflexivity)|unfold short; cbn; lia].
Example C51_fades_met : (1 <= 2)%nat /\ (2 <= length l_xs)%nat /\ (2 <= length l_ys)%nat /\ rshaped [2%nat] (l_xs ++ l_zs) /\ rshaped [2%nat] (l_ys ++ l_zs).
Proof. split; [lia|]. split; [cbn; lia|]. split; [cbn; lia|]. split; rows_ok. Qed.

(** ** C52: linearity *)
(** The averages, the delay, the momentum and the crossover difference are linear in the series, for every shape and at every position. *)
Theorem C52_linear s p slow fast : (1 <= p)%nat -> (1 <= slow)%nat -> (1 <= fast)%nat ->
  linear (SimpleMovingAverage (Z.of_nat p)) s /\ linear (ExponentialMovingAverage (Z.of_nat p)) s /\
  linear (RollingMovingAverage (Z.of_nat p)) s /\ linear (Lag (Z.of_nat p)) s /\ linear (Momentum (Z.of_nat p)) s /\
  linear (SimpleMovingAverageCrossover (Z.of_nat slow) (Z.of_nat fast)) s.
Proof.
  exact (fun Hp Hs Hf => conj (sma_linear s p Hp) (conj (ema_linear s p Hp) (conj (rma_linear s p Hp) (conj (lag_linear s p Hp)
    (conj (momentum_linear s p Hp) (crossover_linear s slow fast Hs Hf)))))).
Qed.
Print Assumptions C52_linear.
(** So are the five outputs of the moving average convergence divergence. *)
Theorem C52_macd s slow fast m : (1 <= slow)%nat -> (1 <= fast)%nat -> (1 <= m)%nat ->
  linear_all (MovingAverageConvergenceDivergence (Z.of_nat slow) (Z.of_nat fast) (Z.of_nat m)) s.
Proof. exact (macd_linear s slow fast m). Qed.
Print Assumptions C52_macd.
(** The averages of a shifted series are the shifted averages, from the first full window on. *)
Theorem C52_shift s p : (1 <= p)%nat ->
  shifts_along (SimpleMovingAverage (Z.of_nat p)) s p /\ shifts_along (ExponentialMovingAverage (Z.of_nat p)) s p /\
  shifts_along (RollingMovingAverage (Z.of_nat p)) s p.
Proof. exact (averages_shift s p). Qed.
Print Assumptions C52_shift.
Example C52_met : l_xs ++ l_zs <> [] /\ length (l_xs ++ l_zs) = length l_ys /\ rshaped [2%nat] (l_xs ++ l_zs) /\ rshaped [2%nat] l_ys /\
  blends 2 (-1) (l_xs ++ l_zs) l_ys = [[2 * 1 + -1 * 4; 2 * 2 + -1 * 0]; [2 * 3 + -1 * 1; 2 * 5 + -1 * 1]; [2 * 7 + -1 * 2; 2 * -1 + -1 * 2]].
Proof. split; [discriminate|]. split; [reflexivity|]. split; [rows_ok|]. split; [rows_ok|]. reflexivity. Qed.

(** ** C53: units *)
(** Multiplying all prices by the same number changes no return and no volatility. *)
Theorem C53_returns p m a : (1 <= p)%nat -> (1 <= m)%nat -> a <> 0 ->
  unaffected (Return (Z.of_nat p)) short reals (fun x => a * x) /\
  unaffected (LogarithmicReturn (Z.of_nat p)) short reals (fun x => a * x) /\
  unaffected (Volatility (Z.of_nat m) (Z.of_nat p)) short reals (fun x => a * x).
Proof. exact (fun Hp Hm A => conj (ret_scale p a Hp A) (conj (log_ret_scale p a Hp A) (volatility_scale m p a Hm Hp A))). Qed.
Print Assumptions C53_returns.
(** A positive change of scale together with a change of origin ([affine a c x] = a x + c) changes neither the relative strength index,
    nor the skewness, nor the Sharpe ratio (of returns and rates changed alike). *)
Theorem C53_affine p a c : (1 <= p)%nat -> (Z.of_nat p < 2147483648)%Z -> 0 < a ->
  unaffected (RelativeStrengthIndex (Z.of_nat p)) short reals (affine a c) /\
  unaffected (Skewness (Z.of_nat p)) short reals (affine a c) /\
  unaffected (SharpeRatio (Z.of_nat p)) short (fun xs => pairs (map fin_pair xs)) (fun x => (affine a c (fst x), affine a c (snd x))).
Proof. exact (fun Hp Hb A => conj (rsi_affine p a c Hp A) (conj (skewness_affine p a c Hp Hb A) (sharpe_affine p a c Hp Hb A))). Qed.
Print Assumptions C53_affine.
(** Correlations do not change when the two series are given other origins and other scales of the same sign. *)
Theorem C53_correlations s p l a c b d : (1 <= p)%nat -> (1 <= l)%nat -> 0 < a * b ->
  unaffected (Correlation (Z.of_nat p)) (rpairs_ok s) (fun xs => @tensor_pairs ER s (map fin_rows xs)) (row_affine a c b d) /\
  unaffected (CrossCorrelation (Z.of_nat p) (Z.of_nat l)) (rpairs_ok s) (fun xs => @tensor_pairs ER s (map fin_rows xs)) (row_affine a c b d).
Proof. exact (correlations_affine s p l a c b d). Qed.
Print Assumptions C53_correlations.
Theorem C53_autocorrelation s p l a c : (1 <= p)%nat -> (1 <= l)%nat -> a <> 0 ->
  unaffected (AutoCorrelation (Z.of_nat p) (Z.of_nat l)) (rshaped s) (fun xs => @tensors ER s (fins xs)) (map (affine a c)).
Proof. exact (auto_affine s p l a c). Qed.
Print Assumptions C53_autocorrelation.
(** Extrema and the average true range follow an increasing change of units. *)
Theorem C53_extrema p a c : (1 <= p)%nat -> (Z.of_nat p < 2147483648)%Z -> 0 < a ->
  follows GlobalMinimum (fun _ => True) reals (affine a c) (e_affine a c) /\
  follows GlobalMaximum (fun _ => True) reals (affine a c) (e_affine a c) /\
  follows (LocalMinimum (Z.of_nat p)) short reals (affine a c) (e_affine a c) /\
  follows (LocalMaximum (Z.of_nat p)) short reals (affine a c) (e_affine a c).
Proof. exact (extrema_affine p a c). Qed.
Print Assumptions C53_extrema.
Theorem C53_average_true_range p a : (1 <= p)%nat -> 0 < a ->
  follows (AverageTrueRange (Z.of_nat p)) short (fun xs => bars (map cfin xs)) (rscale a) (e_mul (Fin a)).
Proof. exact (atr_scale p a). Qed.
Print Assumptions C53_average_true_range.
(** The deviation follows the scale and ignores the origin; the bands and the candles follow a positive scale. *)
Theorem C53_deviation s p a c xs : (1 <= p)%nat -> xs <> [] -> rshaped s xs ->
  exists o sx ix sy iy,
    call (MovingStandardDeviation (Z.of_nat p)) (tensors s (fins xs)) None true = Ok (tensors s (fins o), sx, ix) /\
    call (MovingStandardDeviation (Z.of_nat p)) (tensors s (fins (map (map (affine a c)) xs))) None true =
      Ok (tensors s (fins (map (map (fun x => Rabs a * x)) o)), sy, iy).
Proof. exact (msd_affine s p a c xs). Qed.
Print Assumptions C53_deviation.
Theorem C53_bands s p k a xs : (1 <= p)%nat -> 0 <= a -> xs <> [] -> rshaped s xs ->
  exists os sx ix sy iy,
    call (BollingerBands (Z.of_nat p) k) (tensors s (fins xs)) None true = Ok (series_list s os, sx, ix) /\
    call (BollingerBands (Z.of_nat p) k) (tensors s (fins (times a xs))) None true = Ok (series_list s (map (times a) os), sy, iy).
Proof. exact (bollinger_scale s p k a xs). Qed.
Print Assumptions C53_bands.
Theorem C53_candles a xs : 0 < a -> xs <> [] ->
  exists o sx ix sy iy,
    call HeikinAshi (candles (map cfin xs)) None true = Ok (candles (map cfin o), sx, ix) /\
    call HeikinAshi (candles (map cfin (map (rscale a) xs))) None true = Ok (candles (map cfin (map (rscale a) o)), sy, iy).
Proof. exact (ha_scale a xs). Qed.
Print Assumptions C53_candles.
(** Prices in cents instead of euros. *)
Example C53_met : [12; 15; 9; 30] <> [] /\ short [12; 15; 9; 30] /\ (0 < 100) /\ map (affine 100 0) [12; 15; 9; 30] <> [12; 15; 9; 30] /\
  rpairs_ok [1%nat] [([12], [1]); ([15], [4]); ([9], [2])] /\ 0 < 100 * 2.
Proof.
  split; [discriminate|]. split; [unfold short; cbn; lia|]. split; [lra|]. split; [|split; [|lra]].
  - intros E. cbn in E. unfold affine in E. injection E as E _. lra.
  - split; [repeat (constructor; try (split; reflexivity))|unfold short; cbn; lia].
Qed.
