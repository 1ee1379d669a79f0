(** * InitFacts: the reported initial state is the one used. *)
From Coq Require Import String List ZArith Bool Lia.
From Verif Require Import Num Py PyFacts Tensor Streamable Spec StreamFacts TensorFacts StreamProofs
  WfFacts Meta Common Finance Library GenuineBase Genuine GenuineLib.
Import ListNotations.

Ltac rwall := repeat (cbn beta iota; cbn [bind]; match goal with
  | E : ?e = Ok _ |- context [?e] => rewrite E
  end); cbn [bind].
Ltac tailed := cbv beta delta [targ targ_or arity true_range int_op macd_diff first_slice] in *;
  cbn [nth_error app length Nat.leb andb as_t positional] in *.

Section InitFacts.
Context {N : FOps}.

Lemma positional_genuine x : genuine x -> Forall genuine (positional x).
Proof. destruct x; simpl; intros G; auto; [now apply genuine_tup|now apply genuine_lst]. Qed.

(** What has to be shown of a [step] with positional arguments. *)
Definition step_init (k : nat) (step : list val -> res out3) : Prop :=
  forall ins o s' s0, length ins = k -> Forall genuine ins -> step ins = Ok (o, s', s0) ->
    step (ins ++ positional s0) = Ok (o, s', s0).
Lemma init_of_step k step x : step_init k step -> genuine_op (Plain step) ->
  genuine x -> length (positional x) = k -> init_consistent (Plain step) x.
Proof.
  intros Hs Hg Gx Hk o s' s0 H.
  rewrite call_false_g in H by (simpl; auto).
  destruct (Hg _ None _ _ _ Gx I H) as (_ & _ & G0).
  rewrite call_false_g by (simpl; auto).
  change (step (positional x ++ []) = Ok (o, s', s0)) in H.
  change (step (positional x ++ positional s0) = Ok (o, s', s0)).
  rewrite app_nil_r in H. apply (Hs _ _ _ _ Hk); [now apply positional_genuine|exact H].
Qed.


Ltac sub_init := repeat match goal with
  | E : call ?op ?x None false = Ok (?o, ?s, ?i), I : forall y, genuine y -> length (positional y) = _ -> init_consistent ?op y |- _ =>
      lazymatch goal with _ : call op x (Some i) false = _ |- _ => fail | |- _ => idtac end;
      let K := fresh "K" in
      assert (K : call op x (Some i) false = Ok (o, s, i))
        by (apply I; [ga|reflexivity|exact E])
  end.
Ltac init_step f := let L := fresh "L" in let G := fresh "Gargs" in let H := fresh "H" in
  intros ins o s' s0 L G H;
  repeat match goal with l : list val |- _ => destruct l; try discriminate L end;
  unfold f in *; tailed; binv H; tailed.
Ltac gargs := repeat match goal with G : Forall genuine (_ :: _) |- _ => apply Forall_cons_iff in G as [? G] end.
Ltac dedup := repeat match goal with
  | E : ?e = Ok ?a, E' : ?e = Ok ?b |- _ =>
      first [constr_eq a b; clear E' | let Q := fresh in assert (Q : a = b) by congruence; subst; clear E'] end.
Ltac init_done := dedup; rwall; reflexivity.

Lemma init_lag p : step_init 1 (lag_step p).
Proof. init_step @lag_step. init_done. Qed.
Lemma init_global c : step_init 1 (global_step c).
Proof. init_step @global_step. init_done. Qed.
Lemma init_local r ri p : step_init 1 (local_step r ri p).
Proof. init_step @local_step. init_done. Qed.
Lemma init_sma p : step_init 1 (sma_step p).
Proof. init_step @sma_step. init_done. Qed.
Lemma init_msd p : step_init 1 (msd_step p).
Proof. init_step @msd_step. init_done. Qed.
Lemma init_return f p : step_init 1 (return_step f p).
Proof. init_step @return_step. init_done. Qed.
Lemma init_zero : step_init 1 zero_crossover_step.
Proof. init_step @zero_crossover_step. init_done. Qed.
Lemma init_heikin : step_init 4 heikin_ashi_step.
Proof. init_step @heikin_ashi_step. init_done. Qed.
Lemma init_drawdown : step_init 1 drawdown_step.
Proof. init_step @drawdown_step. init_done. Qed.
Lemma init_sharpe p : step_init 2 (sharpe_step p).
Proof. init_step @sharpe_step. init_done. Qed.
Lemma init_skewness p : step_init 1 (skewness_step p).
Proof. init_step @skewness_step. init_done. Qed.
Lemma init_correlation p : step_init 2 (correlation_step p).
Proof. init_step @correlation_step. init_done. Qed.

Lemma ic_lag p y : genuine y -> length (positional y) = 1 -> init_consistent (Lag p) y.
Proof. intros. eapply init_of_step; eauto using init_lag, genuine_lag. Qed.
Lemma ic_sma p y : genuine y -> length (positional y) = 1 -> init_consistent (SimpleMovingAverage p) y.
Proof. intros. eapply init_of_step; eauto using init_sma, genuine_sma. Qed.
Lemma ic_msd p y : genuine y -> length (positional y) = 1 -> init_consistent (MovingStandardDeviation p) y.
Proof. intros. eapply init_of_step; eauto using init_msd, genuine_msd. Qed.
Lemma init_ema p : step_init 1 (ema_step p).
Proof. init_step @ema_step. gargs. pose proof (ic_sma p). fwd. sub_init. init_done. Qed.
Lemma init_rma p : step_init 1 (rma_step p).
Proof. init_step @rma_step. gargs. pose proof (ic_sma p). fwd. sub_init. init_done. Qed.
Lemma init_bollinger n k : step_init 1 (bollinger_step n k).
Proof. init_step @bollinger_step. gargs. pose proof (ic_sma n). pose proof (ic_msd n). fwd. sub_init. init_done. Qed.
Lemma init_rsi p : step_init 1 (rsi_step p).
Proof. init_step @rsi_step. gargs. pose proof (ic_lag p). fwd. sub_init. init_done. Qed.
Lemma ic_ema p y : genuine y -> length (positional y) = 1 -> init_consistent (ExponentialMovingAverage p) y.
Proof. intros. eapply init_of_step; eauto using init_ema, genuine_ema. Qed.
Lemma ic_rma p y : genuine y -> length (positional y) = 1 -> init_consistent (RollingMovingAverage p) y.
Proof. intros. eapply init_of_step; eauto using init_rma, genuine_rma. Qed.
Lemma ic_correlation p y : genuine y -> length (positional y) = 2 -> init_consistent (Correlation p) y.
Proof. intros. eapply init_of_step; eauto using init_correlation, genuine_correlation. Qed.
Lemma init_cross p l : step_init 2 (cross_correlation_step p l).
Proof. init_step @cross_correlation_step. gargs. pose proof (ic_correlation p). fwd. sub_init. init_done. Qed.
Lemma ic_cross p l y : genuine y -> length (positional y) = 2 -> init_consistent (CrossCorrelation p l) y.
Proof. intros. eapply init_of_step; eauto using init_cross, genuine_cross. Qed.
Lemma init_auto p l : step_init 1 (auto_correlation_step p l).
Proof. init_step @auto_correlation_step. gargs. pose proof (ic_cross p l). fwd. sub_init. init_done. Qed.
Lemma init_macd s f m : step_init 1 (macd_step s f m).
Proof.
  init_step @macd_step. gargs. pose proof (ic_ema s). pose proof (ic_ema f). pose proof (ic_ema m).
  pose proof (genuine_ema s). pose proof (genuine_ema f). pose proof (genuine_ema m).
  fwd. sub_init. init_done.
Qed.
Lemma init_atr p : step_init 3 (atr_step p).
Proof. init_step @atr_step. gargs. pose proof (ic_rma p). fwd. sub_init. init_done. Qed.
Lemma ic_atr p y : genuine y -> length (positional y) = 3 -> init_consistent (AverageTrueRange p) y.
Proof. intros. eapply init_of_step; eauto using init_atr, genuine_atr. Qed.
Lemma init_supertrend p f : step_init 3 (supertrend_step p f).
Proof. init_step @supertrend_step. gargs. pose proof (ic_atr p). fwd. sub_init. init_done. Qed.
Lemma init_risk s l p m : step_init 4 (risk_ratio_step s l p m).
Proof.
  init_step @risk_ratio_step. gargs. pose proof (ic_msd p). fwd. sub_init. init_done.
Qed.
End InitFacts.
