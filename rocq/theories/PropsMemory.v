(** * PropsMemory: property C51 — windowed operators forget.  Vocabulary: Memory.v and Series.v.

    [forgets op ok inp k]: the outputs from element [k] of a series on do not depend on what came before the series.
    All theorems hold for every arithmetic [N] (for the returns: with 0 = 0). *)
From Coq Require Import List ZArith Bool Lia.
From Verif Require Import Num Py Tensor Streamable Meta Common Finance Spec Series Formulas Positions ImplBasic ImplScalar ImplComp ImplWindow ImplCorr ImplMarket
  Memory MemoryFacts Witness.
Import ListNotations.

(** The value [p] steps ago, for every shape and dtype. *)
Theorem C51_lag {N : FOps} d s p : p >= 1 -> forgets (Lag (Z.of_nat p)) (shaped s) (series_of d s) (p + 1).
Proof. exact (lag_forgets d s p). Qed.
Print Assumptions C51_lag.
Theorem C51_averages {N : FOps} s p k slow fast : p >= 1 -> slow >= 1 -> fast >= 1 ->
  forgets (SimpleMovingAverage (Z.of_nat p)) (ok_rows s) (tensors s) p /\
  forgets (MovingStandardDeviation (Z.of_nat p)) (ok_rows s) (tensors s) p /\
  forgets (BollingerBands (Z.of_nat p) k) (ok_rows s) (tensors s) p /\
  forgets (Momentum (Z.of_nat p)) (ok_rows s) (tensors s) (p + 1) /\
  forgets (SimpleMovingAverageCrossover (Z.of_nat slow) (Z.of_nat fast)) (ok_rows s) (tensors s) (Nat.max slow fast).
Proof.
  exact (fun Hp Hs Hf => conj (sma_forgets s p Hp) (conj (msd_forgets s p Hp) (conj (bollinger_forgets s p k Hp)
    (conj (momentum_forgets s p Hp) (crossover_forgets s slow fast Hs Hf))))).
Qed.
Print Assumptions C51_averages.
Theorem C51_returns {N : FOps} p m : p >= 1 -> m >= 1 -> feq f0 f0 = true ->
  forgets (Return (Z.of_nat p)) short scalars (p + 1) /\
  forgets (LogarithmicReturn (Z.of_nat p)) short scalars (p + 1) /\
  forgets (Volatility (Z.of_nat m) (Z.of_nat p)) short scalars (m + p).
Proof. exact (fun Hp Hm Z => conj (ret_forgets p Hp Z) (conj (log_ret_forgets p Hp Z) (volatility_forgets m p Hm Hp Z))). Qed.
Print Assumptions C51_returns.
Theorem C51_windows {N : FOps} p : p >= 1 -> (Z.of_nat p < 2147483648)%Z ->
  forgets (LocalMinimum (Z.of_nat p)) short scalars p /\ forgets (LocalMaximum (Z.of_nat p)) short scalars p /\
  forgets (SharpeRatio (Z.of_nat p)) short pairs p /\ forgets (Skewness (Z.of_nat p)) short scalars p.
Proof.
  exact (fun Hp Hb => conj (proj1 (local_forgets p Hp Hb)) (conj (proj2 (local_forgets p Hp Hb)) (conj (sharpe_forgets p Hp Hb) (skewness_forgets p Hp Hb)))).
Qed.
Print Assumptions C51_windows.
Theorem C51_correlations {N : FOps} s p l : p >= 1 -> l >= 1 ->
  forgets (Correlation (Z.of_nat p)) (two_rows s) (tensor_pairs s) (p + 1) /\
  forgets (CrossCorrelation (Z.of_nat p) (Z.of_nat l)) (two_rows s) (tensor_pairs s) (l + p + 1) /\
  forgets (AutoCorrelation (Z.of_nat p) (Z.of_nat l)) (ok_rows s) (tensors s) (l + p + 1).
Proof. exact (fun Hp Hl => conj (corr_forgets s p Hp) (conj (cross_forgets s p l Hp Hl) (auto_forgets s p l Hp Hl))). Qed.
Print Assumptions C51_correlations.
(** A candle only depends on the bar and the one before it. *)
Theorem C51_heikin_ashi {N : FOps} : forgets HeikinAshi (fun _ => True) candles 2.
Proof. exact heikin_forgets. Qed.
Print Assumptions C51_heikin_ashi.

Ltac rows_ok := split; [cbn; repeat (apply Forall_cons; [reflexivity|]); apply Forall_nil|unfold short; cbn; lia].
(** The moving average of three two-column rows, once from the start and once after two other rows. *)
Example C51_met {N : FOps} :
  let zs := [[f1; f0]; [f0; f1]; [f1; f1]] in let before := [[f0; f0]; [f1; f0]] in
  exists o s i o' s' i',
    call (SimpleMovingAverage 3) (tensors [2] zs) None true = Ok (o, s, i) /\
    call (SimpleMovingAverage 3) (tensors [2] (before ++ zs)) None true = Ok (o', s', i') /\ row 2 o = row 4 o'.
Proof.
  intros zs before.
  destruct (proj1 (C51_averages [2] 3 (PyInt 2) 1 1 ltac:(lia) ltac:(lia) ltac:(lia)) [] before zs) as (o & s & i & o' & s' & i' & E1 & E2 & E3);
    [discriminate|rows_ok|rows_ok|].
  exists o, s, i, o', s', i'. split; [exact E1|]. split; [exact E2|]. apply (E3 2); cbn; lia.
Qed.
