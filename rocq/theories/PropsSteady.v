(** * PropsSteady: property C67 — small errors stay small (exact arithmetic).
    Vocabulary: Steady.v ([steady K op s]: two series of tensors of shape [s] whose numbers are at most [e] apart give outputs at most [K e]
    apart, for every [e] and every length; [steady_all]: one factor for each output; [steady_on op ok near inp close out]: the same for
    elements of another kind, all of them in [ok]). *)
From Coq Require Import Reals Lra List ZArith Bool Lia.
From Verif Require Import Num Py Tensor Streamable Common Finance Series Formulas Positions ER MovingFacts Linear RealMarket Shapes ShapeFacts Algebra AlgebraFacts VectorFacts ShapeMain Meta Index
  Steady SteadyFacts SteadyTurn SteadyMarket SteadyIndex.
Import ListNotations.
Local Open Scope R_scope.

(** The averages and the moving deviation do not amplify an error at all; a momentum and a crossover at most double it. *)
Theorem C67_averages s p slow fast : (1 <= p)%nat -> (1 <= slow)%nat -> (1 <= fast)%nat ->
  steady 1 (SimpleMovingAverage (Z.of_nat p)) s /\ steady 1 (ExponentialMovingAverage (Z.of_nat p)) s /\ steady 1 (RollingMovingAverage (Z.of_nat p)) s /\
  steady 1 (MovingStandardDeviation (Z.of_nat p)) s /\ steady 2 (Momentum (Z.of_nat p)) s /\ steady 2 (SimpleMovingAverageCrossover (Z.of_nat slow) (Z.of_nat fast)) s.
Proof. exact (averages_steady s p slow fast). Qed.
Print Assumptions C67_averages.
(** The five outputs of the MACD: slow average, fast average, macd, signal, histogram. *)
Theorem C67_macd s slow fast m : (1 <= slow)%nat -> (1 <= fast)%nat -> (1 <= m)%nat ->
  steady_all [1; 1; 2; 2; 4] (MovingAverageConvergenceDivergence (Z.of_nat slow) (Z.of_nat fast) (Z.of_nat m)) s.
Proof. exact (macd_steady s slow fast m). Qed.
Print Assumptions C67_macd.
(** The three outputs of the Bollinger bands. *)
Theorem C67_bands s p factor k : (1 <= p)%nat -> @Series.num ER factor = Fin k ->
  steady_all [1 + Rabs k; 1; 1 + Rabs k] (BollingerBands (Z.of_nat p) factor) s.
Proof. exact (bands_steady s p factor k). Qed.
Print Assumptions C67_bands.
(** A pipeline multiplies the factors of its operators. *)
Theorem C67_pipelines s (ops : list (@operator ER)) Ks : ops <> [] ->
  Forall2 (fun op K => 0 <= K /\ steady K op s /\ @fits ER op (tf s) (tf s)) ops Ks ->
  steady (fold_right Rmult 1 Ks) (Compose (rev ops)) s.
Proof. exact (steady_compose s ops Ks). Qed.
Print Assumptions C67_pipelines.
(** Extrema do not amplify an error. *)
Theorem C67_extrema p : (1 <= p)%nat -> (Z.of_nat p < 2147483648)%Z ->
  Forall (fun op => steady_on op (fun _ => True) by_at_most reals (fun e => by_at_most (1 * e)) reals)
    [@GlobalMinimum ER; @GlobalMaximum ER; @LocalMinimum ER (Z.of_nat p); @LocalMaximum ER (Z.of_nat p)].
Proof. exact (extrema_steady p). Qed.
Print Assumptions C67_extrema.
(** Prices at least [lo]: the factors of returns, of the volatility and of the depth of a drawdown. *)
Theorem C67_return p lo hi : (1 <= p)%nat -> 0 < lo ->
  steady_on (@Return ER (Z.of_nat p)) (fun x => lo <= x <= hi) by_at_most reals (fun e => by_at_most ((1 + hi / lo) / lo * e)) reals.
Proof. exact (return_steady p lo hi). Qed.
Print Assumptions C67_return.
Theorem C67_log_return p lo : (1 <= p)%nat -> 0 < lo ->
  steady_on (@LogarithmicReturn ER (Z.of_nat p)) (fun x => lo <= x) by_at_most reals (fun e => by_at_most (2 / lo * e)) reals.
Proof. exact (log_return_steady p lo). Qed.
Print Assumptions C67_log_return.
Theorem C67_volatility m r lo : (1 <= m)%nat -> (1 <= r)%nat -> 0 < lo ->
  steady_on (@Volatility ER (Z.of_nat m) (Z.of_nat r)) (fun x => lo <= x) by_at_most reals (fun e => by_at_most (2 / lo * e)) reals.
Proof. exact (volatility_steady m r lo). Qed.
Print Assumptions C67_volatility.
Theorem C67_drawdown lo : 1 / 10000 <= lo ->
  steady_on (@Drawdown ER) (fun x => lo <= x) by_at_most reals (depths_apart (2 / lo)) drawdown_reals.
Proof. exact (drawdown_steady lo). Qed.
Print Assumptions C67_drawdown.
(** Candles: the average true range, where no close is 0; Heikin-Ashi, where no open is 0. *)
Theorem C67_average_true_range p : (1 <= p)%nat ->
  steady_on (@AverageTrueRange ER (Z.of_nat p)) (fun c => r_close c <> 0) candles_apart bars_of (fun e => by_at_most (2 * e)) reals.
Proof. exact (atr_steady p). Qed.
Print Assumptions C67_average_true_range.
Theorem C67_heikin_ashi : steady_on (@HeikinAshi ER) (fun c => r_open c <> 0) candles_apart candles_of candles_apart candles_of.
Proof. exact heikin_steady. Qed.
Print Assumptions C67_heikin_ashi.
(** The relative strength index, at an element where the average absolute step is at least 8 [e]. *)
Theorem C67_relative_strength p e xs ys : (1 <= p)%nat -> 0 <= e -> xs <> [] -> short xs -> Forall2 (by_at_most e) xs ys ->
  exists (ox oy : list ext) sx ix sy iy,
    call (@RelativeStrengthIndex ER (Z.of_nat p)) (reals xs) None true = Ok (@scalars ER ox, sx, ix) /\
    call (@RelativeStrengthIndex ER (Z.of_nat p)) (reals ys) None true = Ok (@scalars ER oy, sy, iy) /\
    length ox = length xs /\ length oy = length xs /\
    forall n, (p <= n < length xs)%nat -> 0 < average_move p (upto n xs) -> 8 * e <= average_move p (upto n xs) ->
      exists a b, nth n ox (Fin 0) = Fin a /\ nth n oy (Fin 0) = Fin b /\ Rabs (a - b) <= 400 * e / average_move p (upto n xs).
Proof. exact (rsi_steady p e xs ys). Qed.
Print Assumptions C67_relative_strength.
(** Positive prices are not enough for a return: no factor works. *)
Theorem C67_return_refuted K : ~ steady_on (@Return ER 1) (fun x => 0 < x) by_at_most reals (fun e => by_at_most (K * e)) reals.
Proof. exact (return_not_steady K). Qed.
Print Assumptions C67_return_refuted.

(** Rows of two numbers, a tenth apart. *)
Example C67_met : let xs := [[100; 7]; [101; 6]; [99; 8]] in let ys := [[100.1; 7]; [100.9; 6.1]; [99; 7.9]] in
  0 <= 1 / 10 /\ xs <> [] /\ rshaped [2%nat] xs /\ rshaped [2%nat] ys /\ apart (1 / 10) xs ys.
Proof.
  cbv zeta. split; [lra|]. split; [discriminate|]. split; [split; [repeat constructor|unfold short; cbn; lia]|]. split; [split; [repeat constructor|unfold short; cbn; lia]|].
  split; [reflexivity|]. unfold rnumber. intros n j. destruct n as [|[|[|n]]]; [| | |destruct n]; destruct j as [|[|j]]; cbn; try (destruct j; cbn); unfold Rabs; destruct (Rcase_abs _); lra.
Qed.
(** A pipeline: the momentum of a smoothed series. *)
Example C67_pipeline_met s : let ops := [@SimpleMovingAverage ER 3; @Momentum ER 1] in
  ops <> [] /\ Forall2 (fun op K => 0 <= K /\ steady K op s /\ @fits ER op (tf s) (tf s)) ops [1; 2].
Proof.
  cbv zeta. split; [discriminate|]. destruct (averages_steady s 3 1 1) as (A & _); [lia..|]. destruct (averages_steady s 1 1 1) as (_ & _ & _ & _ & B & _); [lia..|].
  destruct (@shaped_compositions ER 1 1 1 s) as (M & _); [lia..|].
  constructor; [split; [lra|]; split; [exact A|eapply fits_takes; [apply tk_sma; lia|discriminate|reflexivity]]|].
  constructor; [split; [lra|]; split; [exact B|split; [discriminate|eexists; exact M]]|]. constructor.
Qed.
(** Prices and candles, one unit apart; the bound for the return of prices between 50 and 200 is then 1/10. *)
Example C67_prices_met : Forall (fun x => 50 <= x <= 200) [100; 120; 80] /\ Forall2 (by_at_most 1) [100; 120; 80] [101; 119.5; 80] /\ (1 + 200 / 50) / 50 * 1 = 1 / 10 /\
  Forall (fun c => r_open c <> 0 /\ r_close c <> 0) [RC 100 110 90 105; RC 105 108 101 102] /\ Forall2 (candles_apart 1) [RC 100 110 90 105; RC 105 108 101 102] [RC 101 110 91 105; RC 105 107 101 101.5].
Proof.
  split; [repeat constructor; lra|]. split; [repeat constructor; unfold by_at_most, Rabs; destruct (Rcase_abs _); lra|]. split; [lra|].
  split; [repeat constructor; cbn; lra|]. repeat constructor; unfold by_at_most; cbn; unfold Rabs; destruct (Rcase_abs _); lra.
Qed.
(** An index of period 2 with an average step of 10 or more: errors of 1/4 move it by at most 10. *)
Example C67_index_met : let xs := [100; 110; 90; 120] in average_move 2 (upto 3 xs) = 45 / 2 /\ 8 * (1 / 4) <= 45 / 2.
Proof. cbv zeta. split; [|lra]. unfold average_move. cbn. unfold RealLinear.rsma. cbn. unfold RealFacts.rmean, RealFacts.rsum. cbn. unfold Rabs. repeat destruct (Rcase_abs _); lra. Qed.
