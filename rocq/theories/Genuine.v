(** * Genuine: the operators of the library compute genuine values. *)
From Coq Require Import String List ZArith Bool Lia.
From Verif Require Import Num Py PyFacts Tensor Streamable Spec StreamFacts TensorFacts StreamProofs
  WfFacts Meta Common Finance GenuineBase.
Import ListNotations.

Section Genuine.
Context {N : FOps}.
Lemma genuine_lag p : genuine_op (Lag p).
Proof. unfold Lag, lag_step. plain_genuine. Qed.
Lemma genuine_sma p : genuine_op (SimpleMovingAverage p).
Proof. unfold SimpleMovingAverage, sma_step. plain_genuine. Qed.
Lemma genuine_ema p : genuine_op (ExponentialMovingAverage p).
Proof. pose proof (genuine_sma p). unfold ExponentialMovingAverage, ema_step. plain_genuine. Qed.
Lemma genuine_rma p : genuine_op (RollingMovingAverage p).
Proof. pose proof (genuine_sma p). unfold RollingMovingAverage, rma_step. plain_genuine. Qed.
Lemma genuine_msd p : genuine_op (MovingStandardDeviation p).
Proof. unfold MovingStandardDeviation, msd_step. plain_genuine. Qed.
Lemma genuine_bollinger n k : genuine_op (BollingerBands n k).
Proof.
  pose proof (genuine_sma n). pose proof (genuine_msd n). unfold BollingerBands, bollinger_step. plain_genuine.
Qed.

Lemma genuine_return f p : (forall t r, wf t -> f t = Ok r -> wf r) -> genuine_op (Plain (return_step f p)).
Proof.
  intros Hf. unfold return_step. apply genuine_plain. intros args o s' s0 Gargs H. binv H. fwd.
  match goal with H : tcond _ _ _ = Ok ?r |- _ => assert (wf r) by
    (eapply wf_tcond; [| |exact H]; intros u Hu; binv Hu; fwd; eauto using wf_zeros_like) end.
  split; [|split]; ga.
Qed.
Lemma genuine_ret p : genuine_op (Return p).
Proof. apply genuine_return. intros. fwd. wfa. Qed.
Lemma genuine_log_ret p : genuine_op (LogarithmicReturn p).
Proof. apply genuine_return. intros. fwd. wfa. Qed.
Lemma genuine_macd s f m : genuine_op (MovingAverageConvergenceDivergence s f m).
Proof.
  pose proof (genuine_ema s). pose proof (genuine_ema f). pose proof (genuine_ema m).
  unfold MovingAverageConvergenceDivergence, macd_step. plain_genuine.
Qed.
Lemma genuine_zero : genuine_op ZeroCrossoverSignal.
Proof. unfold ZeroCrossoverSignal, zero_crossover_step. plain_genuine. Qed.
Lemma genuine_rsi p : genuine_op (RelativeStrengthIndex p).
Proof. pose proof (genuine_lag p). unfold RelativeStrengthIndex, rsi_step. plain_genuine. Qed.
Lemma genuine_atr p : genuine_op (AverageTrueRange p).
Proof. pose proof (genuine_rma p). unfold AverageTrueRange, atr_step. plain_genuine. Qed.
Lemma genuine_supertrend p f : genuine_op (Supertrend p f).
Proof. pose proof (genuine_atr p). unfold Supertrend, supertrend_step, supertrend_warmup. plain_genuine. Qed.
Lemma genuine_heikin : genuine_op HeikinAshi.
Proof. unfold HeikinAshi, heikin_ashi_step. plain_genuine. Qed.
Lemma genuine_drawdown : genuine_op Drawdown.
Proof. unfold Drawdown, drawdown_step. plain_genuine. Qed.
Lemma genuine_sharpe p : genuine_op (SharpeRatio p).
Proof. unfold SharpeRatio, sharpe_step. plain_genuine. Qed.
Lemma genuine_skewness p : genuine_op (Skewness p).
Proof. unfold Skewness, skewness_step. plain_genuine. Qed.
Lemma genuine_risk s l p m : genuine_op (RiskRatioEvaluator s l p m).
Proof.
  pose proof (genuine_msd p). unfold RiskRatioEvaluator, risk_ratio_step.
  apply genuine_plain. intros args o s' s0 Gargs H0. binv H0. fwd.
  match goal with H : tf_case _ _ _ = Ok ?r |- _ => assert (genuine r) end.
  { match goal with H : tf_case _ _ _ = Ok ?r |- _ => eapply genuine_tf_case; [| |exact H] end.
    - apply Forall_app. split.
      + fa; cbn [snd]; intros u Hu; binv Hu; fwd; ga.
      + match goal with H : match m with _ => _ end = Ok _ |- _ => destruct m; binv H end; fa; cbn [snd].
        intros u Hu. binv Hu. fwd. ga.
    - intros u Hu. binv Hu. fwd. ga. }
  fwd.
  match goal with H : iter _ = Ok ?r |- _ => assert (Forall genuine r) by (eapply genuine_iter; [|exact H]; assumption) end.
  split; [|split]; try ga.
  apply genuine_tup. apply Forall_app. split; [|fa; assumption].
  match goal with H : Forall genuine ?r |- Forall genuine (firstn _ ?r) => rename H into Hns end.
  apply Forall_forall. intros x Hx. rewrite Forall_forall in Hns. apply Hns.
  rewrite <- (firstn_skipn 6). apply in_or_app. now left.
Qed.
Lemma genuine_correlation p : genuine_op (Correlation p).
Proof. unfold Correlation, correlation_step. plain_genuine. Qed.
Lemma genuine_cross p l : genuine_op (CrossCorrelation p l).
Proof. pose proof (genuine_correlation p). unfold CrossCorrelation, cross_correlation_step. plain_genuine. Qed.
Lemma genuine_auto p l : genuine_op (AutoCorrelation p l).
Proof. pose proof (genuine_cross p l). unfold AutoCorrelation, auto_correlation_step. plain_genuine. Qed.
End Genuine.
