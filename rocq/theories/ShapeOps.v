(** * ShapeOps: every operator that steps on tensors accepts inputs and states of its shapes and dtypes. *)
From Coq Require Import String List ZArith Bool Lia.
From Verif Require Import Num Py PyFacts Tensor Streamable Spec SpecMeta StreamFacts TensorFacts StreamProofs
  WfFacts EvalFacts ImplCorr Meta Common Finance Library GenuineBase Shapes ShapeFacts.
Import ListNotations.

Section ShapeOps.
Context {N : FOps}.

Ltac hs := solve [ eassumption | apply has_fsc | apply has_isc | apply has_bsc | eapply has_zeros_like; hs
  | eapply has_expand0; hs | apply has_zeros | apply has_ones ].
Ltac vh := first [ eassumption | apply vhas_leaf; hs | apply vhas_tup; repeat (apply Forall2_cons; [vh|]); apply Forall2_nil ].
Ltac numeric := solve [ left; reflexivity | right; split; [reflexivity|discriminate] ].
Ltac pl := first [ apply plural_leaf | apply plural_pair ].
Ltac peri := solve [ lia | assumption | congruence | discriminate ].
Ltac red1 := cbn [bind nth_error app targ targ_or as_t length Nat.leb andb fst snd positional].
Ltac st :=
  red1;
  lazymatch goal with
  | |- wp (bind _ _) _ => apply wp_bind
  | |- wp (Ok _) _ => apply wp_ok; cbn [fst snd]
  | |- wp (arity _ _ _) _ => apply wp_arity; [reflexivity|]
  | |- wp (int_op _ _ _) _ => unfold int_op; apply wp_bind
  | |- wp (pyint_like _ _) _ => eapply wp_pyint; [hs|peri|]; intros ? ?
  | |- wp (pyfloat_like _ _) _ => eapply wp_pyfloat; [hs|]; intros ? ?
  | |- wp (pynum_like _ _) _ => eapply wp_pynum; [hs|]; intros ? ?
  | |- wp (zeros_buffer _ _) _ => eapply wp_zeros_buffer; [hs|peri|]; intros ? ?
  | |- wp (fill _ _) _ => eapply wp_fill; [hs|]; intros ? ?
  | |- wp (tadd _ _) _ => eapply wp_tbin; [hs|hs|constructor|numeric|]; intros ? ?
  | |- wp (tsub _ _) _ => eapply wp_tbin; [hs|hs|constructor|numeric|]; intros ? ?
  | |- wp (tmul _ _) _ => eapply wp_tbin; [hs|hs|constructor|numeric|]; intros ? ?
  | |- wp (tdiv _ _) _ => eapply wp_tbin; [hs|hs|constructor|numeric|]; intros ? ?
  | |- wp (tmaximum _ _) _ => eapply wp_tbin; [hs|hs|constructor|numeric|]; intros ? ?
  | |- wp (tminimum _ _) _ => eapply wp_tbin; [hs|hs|constructor|numeric|]; intros ? ?
  | |- wp (tless _ _) _ => eapply wp_tcmp; [hs|hs|constructor|peri|]; intros ? ?
  | |- wp (tgreater _ _) _ => eapply wp_tcmp; [hs|hs|constructor|peri|]; intros ? ?
  | |- wp (tless_equal _ _) _ => eapply wp_tcmp; [hs|hs|constructor|peri|]; intros ? ?
  | |- wp (tgreater_equal _ _) _ => eapply wp_tcmp; [hs|hs|constructor|peri|]; intros ? ?
  | |- wp (tequal _ _) _ => eapply wp_tcmp; [hs|hs|constructor|peri|]; intros ? ?
  | |- wp (tlogical_and _ _) _ => eapply wp_tbool2; [hs|hs|constructor|]; intros ? ?
  | |- wp (tlogical_or _ _) _ => eapply wp_tbool2; [hs|hs|constructor|]; intros ? ?
  | |- wp (tlogical_not _) _ => eapply wp_tnot; [hs|]; intros ? ?
  | |- wp (tneg _) _ => eapply wp_tun; [hs|]; intros ? ?
  | |- wp (tabs _) _ => eapply wp_tun; [hs|]; intros ? ?
  | |- wp (tsqrt _) _ => eapply wp_tun; [hs|]; intros ? ?
  | |- wp (tlog _) _ => eapply wp_tun; [hs|]; intros ? ?
  | |- wp (tsign _) _ => eapply wp_tun; [hs|]; intros ? ?
  | |- wp (tpow _ _) _ => eapply wp_tun; [hs|]; intros ? ?
  | |- wp (tcast_i32 _) _ => eapply wp_tcast; [hs|]; intros ? ?
  | |- wp (twhere _ _ _) _ => eapply wp_twhere; [hs|hs|hs|]; intros ? ?
  | |- wp (index0 _ _) _ => eapply wp_index0; [hs|peri|]; intros ? ?
  | |- wp (roll _ _) _ => eapply wp_roll; [hs|hs|peri|]; intros ? ?
  | |- wp (shift _ _) _ => eapply wp_shift; [hs|hs|peri|]; intros ? ?
  | |- wp (slice_to _ _) _ => eapply wp_slice_to; [hs|hs|]; intros ? ? ?
  | |- wp (concat0 _ _) _ => eapply wp_concat0; [hs|hs|]; intros ? ?
  | |- wp (treduce0 _ _) _ => eapply wp_reduce0; [hs|]; intros ? ?
  | |- wp (treduce_sum0 _) _ => eapply wp_reduce0; [hs|]; intros ? ?
  | |- wp (treduce_mean0 _) _ => eapply wp_reduce0; [hs|]; intros ? ?
  | |- wp (tmoments0 _) _ => eapply wp_moments; [hs|]; intros ? ? ? ?
  | |- wp (treduce_all _ _) _ => eapply wp_reduce_all; [hs|]; intros ? ?
  | |- wp (treduce_num _ _ _) _ => eapply wp_reduce_num; [hs|]; intros ? ?
  | |- wp (tstack _) _ => eapply wp_tstack; [discriminate|repeat (apply Forall_cons; [hs|]); apply Forall_nil|]; cbn [length]; intros ? ?
  | |- wp (as_t _) _ => eapply wp_as_t; [vh|]; intros ? ?
  | |- wp (item _ _) _ => eapply wp_item; [eassumption|reflexivity|]; intros ? ?
  | |- wp (tcond _ _ _) _ => eapply wp_tcond; [hs| | |]; [repeat st|repeat st|intros ? ?]
  | |- wp (tf_cond _ _ _) _ => eapply wp_cond; [hs| | | |]; [|repeat st|repeat st|intros ? ?]; [pl|]
  | |- vhas _ _ => vh
  | |- has _ _ _ => hs
  | |- _ /\ _ /\ _ => refine (conj _ (conj _ _)); [vh|vh|vh]
  end.
Ltac go := repeat st.
Ltac inv_all := repeat match goal with
  | H : Forall2 vhas _ (_ :: _) |- _ => inversion H; clear H; subst
  | H : Forall2 vhas _ [] |- _ => inversion H; clear H; subst
  end.
Ltac leafy := repeat match goal with
  | H : vhas ?v _ |- _ => is_var v; let t := fresh "t" in let Ht := fresh "Ht" in
      destruct (vhas_leaf_inv v _ _ H) as (t & -> & Ht); clear H
  end.
Ltac start defs := let H1 := fresh in let H2 := fresh in
  intros ins sts H1 H2; cbn [parts] in H2; inv_all; leafy; destruct H2 as [->|H2]; [|cbn in H2; inv_all; leafy].

Lemma safe_lag p s d : (1 <= p)%Z -> step_safe (lag_step p) [Leaf (s, d)] (Leaf (s, d)) (past p s d).
Proof. intros Hp. start tt; unfold lag_step; go. Qed.
Lemma lag_safe p s d : (1 <= p)%Z -> safe (Lag p) (Leaf (s, d)) (Leaf (s, d)) (past p s d).
Proof. intros H. eapply plain_safe; [now apply safe_lag|reflexivity]. Qed.
Lemma safe_sma p s : (1 <= p)%Z -> step_safe (sma_step p) [tf s] (tf s) (s_sma p s).
Proof. intros Hp. start tt; unfold sma_step; go. Qed.
Lemma sma_safe p s : (1 <= p)%Z -> safe (SimpleMovingAverage p) (tf s) (tf s) (s_sma p s).
Proof. intros H. eapply plain_safe; [now apply safe_sma|reflexivity]. Qed.
Ltac cl lem := red1; eapply wp_call; [apply lem; lia|vh|first [exact I|eassumption|lazymatch goal with |- state_shaped (Some ?v) ?z => change (vhas v z); vh end]|intros ? ? ? ? ? ?].
Lemma safe_ema p s : (1 <= p)%Z -> step_safe (ema_step p) [tf s] (tf s) (s_ema p s).
Proof. intros Hp. start tt; unfold ema_step; go; cl sma_safe; go. Qed.
Lemma ema_safe p s : (1 <= p)%Z -> safe (ExponentialMovingAverage p) (tf s) (tf s) (s_ema p s).
Proof. intros H. eapply plain_safe; [now apply safe_ema|reflexivity]. Qed.
Lemma safe_rma p s : (1 <= p)%Z -> step_safe (rma_step p) [tf s] (tf s) (s_ema p s).
Proof. intros Hp. start tt; unfold rma_step; go; cl sma_safe; go. Qed.
Lemma rma_safe p s : (1 <= p)%Z -> safe (RollingMovingAverage p) (tf s) (tf s) (s_ema p s).
Proof. intros H. eapply plain_safe; [now apply safe_rma|reflexivity]. Qed.
Lemma safe_msd p s : (1 <= p)%Z -> step_safe (msd_step p) [tf s] (tf s) (s_sma p s).
Proof. intros Hp. start tt; unfold msd_step; go. Qed.
Lemma msd_safe p s : (1 <= p)%Z -> safe (MovingStandardDeviation p) (tf s) (tf s) (s_sma p s).
Proof. intros H. eapply plain_safe; [now apply safe_msd|reflexivity]. Qed.
Lemma safe_bollinger p k s : (1 <= p)%Z ->
  step_safe (bollinger_step p k) [tf s] (Tup [tf s; tf s; tf s]) (Tup [s_sma p s; s_sma p s]).
Proof. intros Hp. start tt; unfold bollinger_step; go; cl sma_safe; go; cl msd_safe; go. Qed.
Lemma safe_return f p : (1 <= p)%Z -> (forall t (Q : tensor -> Prop), has t [] F32 -> (forall r, has r [] F32 -> Q r) -> wp (f t) Q) ->
  step_safe (return_step f p) [num] num (s_sma p []).
Proof. intros Hp Hf. start tt; unfold return_step; go; (apply Hf; [hs|]; intros ? ?; go). Qed.
Lemma safe_macd p f m s : (1 <= p)%Z -> (1 <= f)%Z -> (1 <= m)%Z ->
  step_safe (macd_step p f m) [tf s] (Tup [tf s; tf s; tf s; tf s; tf s]) (Tup [int; s_ema p s; s_ema f s; s_ema m s]).
Proof.
  intros Hp Hf Hm. start tt; unfold macd_step, macd_diff; go; cl ema_safe; go; cl ema_safe; go; cl ema_safe; go.
Qed.
Lemma wp_sign t s (Q : tensor -> Prop) : has t s F32 -> (forall r, has r s F32 -> Q r) -> wp (sign t) Q.
Proof. intros H K. pose proof H as (_ & E & _). unfold sign. rewrite E. go. now apply K. Qed.
Ltac st2 := first [ st | red1; lazymatch goal with |- wp (sign _) _ => eapply wp_sign; [hs|]; intros ? ? end ].
Lemma safe_zero s : step_safe zero_crossover_step [tf s] (ti s) (Tup [bool_; tf s]).
Proof.
  start tt; unfold zero_crossover_step; go; (eapply wp_cond; [hs| | | |]; [|repeat st2|repeat st2|intros ? ?]; [pl|]); go.
Qed.
Lemma safe_global cmp d : (forall a b (Q : tensor -> Prop), has a [] d -> has b [] d -> (forall r, has r [] BOOL -> Q r) -> wp (cmp a b) Q) ->
  step_safe (global_step cmp) [Leaf ([], d)] (Leaf ([], d)) (Tup [Leaf ([], d); bool_]).
Proof. intros Hc. start tt; unfold global_step; go; (eapply Hc; [hs|hs|intros ? ?]); go. Qed.
Lemma safe_local red ired p : (1 <= p)%Z -> step_safe (local_step red ired p) [num] num (Tup [past p [] F32; int]).
Proof. intros Hp. start tt; unfold local_step; go. Qed.
Lemma wp_true_range l h c s (Q : tensor -> Prop) : has l s F32 -> has h s F32 -> has c s F32 ->
  (forall r, has r [] F32 -> Q r) -> wp (true_range l h c) Q.
Proof. intros Hl Hh Hc K. unfold true_range. go. now apply K. Qed.
Lemma safe_atr p s : (1 <= p)%Z -> step_safe (atr_step p) [tf s; tf s; tf s] num (Tup [tf s; s_ema p []]).
Proof.
  intros Hp. start tt; unfold atr_step; go; (eapply wp_true_range; [hs|hs|hs|intros ? ?]); go; cl rma_safe; go.
Qed.
Lemma atr_safe p s : (1 <= p)%Z -> safe (AverageTrueRange p) (Tup [tf s; tf s; tf s]) num (Tup [tf s; s_ema p []]).
Proof. intros H. eapply plain_safe; [now apply safe_atr|reflexivity]. Qed.
Lemma safe_heikin_ashi : step_safe heikin_ashi_step [num; num; num; num] (Tup [num; num; num; num]) (Tup [num; num]).
Proof. start tt; unfold heikin_ashi_step; go. Qed.
Lemma safe_drawdown : step_safe drawdown_step [num] (Tup [num; int]) (Tup [num; int]).
Proof. start tt; unfold drawdown_step; go. Qed.
Lemma safe_sharpe p : (1 <= p)%Z -> step_safe (sharpe_step p) [num; num] num (Tup [past p [] F32; int]).
Proof. intros Hp. start tt; unfold sharpe_step, first_slice, compute_sharpe_ratio; go. Qed.
Lemma safe_skewness p : (1 <= p)%Z -> step_safe (skewness_step p) [num] num (Tup [past p [] F32; int]).
Proof. intros Hp. start tt; unfold skewness_step, first_slice, compute_skewness; go. Qed.
Lemma safe_correlation p s : (1 <= p)%Z -> step_safe (correlation_step p) [tf s; tf s] (tf s) (s_corr p s).
Proof. intros Hp. start tt; unfold correlation_step, compute_correlation; go. Qed.
Lemma correlation_safe p s : (1 <= p)%Z -> safe (Correlation p) (Tup [tf s; tf s]) (tf s) (s_corr p s).
Proof. intros H. eapply plain_safe; [now apply safe_correlation|reflexivity]. Qed.
Lemma safe_cross p l s : (1 <= p)%Z -> (1 <= l)%Z -> step_safe (cross_correlation_step p l) [tf s; tf s] (tf s) (s_cross p l s).
Proof. intros Hp Hl. start tt; unfold cross_correlation_step; go; cl correlation_safe; go. Qed.
Lemma cross_safe p l s : (1 <= p)%Z -> (1 <= l)%Z -> safe (CrossCorrelation p l) (Tup [tf s; tf s]) (tf s) (s_cross p l s).
Proof. intros H1 H2. eapply plain_safe; [now apply safe_cross|reflexivity]. Qed.
Lemma safe_auto p l s : (1 <= p)%Z -> (1 <= l)%Z -> step_safe (auto_correlation_step p l) [tf s] (tf s) (Tup [s_cross p l s]).
Proof. intros Hp Hl. start tt; unfold auto_correlation_step; go; cl cross_safe; go. Qed.
Lemma wp_clip keep t n (Q : tensor -> Prop) : has t [n] F32 -> (forall r, has r [n] F32 -> Q r) -> wp (rsi_clip keep t) Q.
Proof.
  intros (W & S1 & D) K. unfold rsi_clip, wf, dtype_of in *. rewrite S1 in *. destruct (dat t); try discriminate.
  apply wp_ok, K. split; [|split; reflexivity]. unfold wf. cbn in *. now rewrite map_length.
Qed.
Lemma wp_with_rsi gl z : z = Tup [num; num; num] -> wp gl (fun r => has (fst r) [] F32 /\ has (snd r) [] F32) -> wp (with_rsi gl) (fun v => vhas v z).
Proof.
  intros -> H. unfold with_rsi, compute_rsi. apply wp_bind. eapply wp_impl; [exact H|]. intros [g l] [Hg Hl]. cbn [fst snd] in *. go.
Qed.
Lemma safe_rsi p : (1 <= p)%Z -> step_safe (rsi_step p) [num] num (Tup [int; past p [] F32; num; num]).
Proof.
  intros Hp. assert (E : forall k, int_op tequal (isc k) p = Ok (bsc (Z.eqb k p)) /\ int_op tless (isc k) p = Ok (bsc (Z.ltb k p))) by (split; reflexivity).
  assert (E' : forall k, Z.eqb k p && Z.ltb k p = false).
  { intros k. destruct (Z.eqb_spec k p), (Z.ltb_spec k p); auto; lia. }
  start tt; unfold rsi_step; go.
  1: cl lag_safe; st; st; red1; destruct (E 0%Z) as [-> ->]; set (k := 0%Z).
  2: cl lag_safe; red1; match goal with H : has ?t [] I32 |- _ => destruct (has_int _ H) as (k & ->) end; destruct (E k) as [-> ->].
  all: cbn [bind]; apply wp_bind; (eapply wp_case_exclusive with (z := Tup [num; num; num]); [apply E'|pl| | | |]).
  all: try (apply wp_ok; vh).
  all: try (apply wp_with_rsi; [reflexivity|]).
  all: try (unfold compute_default_gain_loss; go; fail).
  all: try (intros ? ?; go; fail).
  all: try (unfold compute_default_gain_loss; go; cbn [fst snd]; split; hs).
  all: unfold compute_first_gain_loss; go; (eapply wp_size0; [hs|]); st;
    (eapply wp_slice_exact with (m := Z.to_nat p); [hs|lia|lia|destruct (Z.ltb_spec (Z.of_nat (1 + Z.to_nat p)) 0); lia|]; intros ? ?); st;
    (eapply wp_slice_exact with (m := Z.to_nat p); [hs|lia|lia|destruct (Z.ltb_spec (-1) 0); lia|]; intros ? ?); go;
    (eapply wp_clip; [hs|]; intros ? ?); st; (eapply wp_clip; [hs|]; intros ? ?); go; cbn [fst snd]; split; hs.
Qed.
Lemma safe_risk_ratio sf lf p m d : (1 <= p)%Z -> d <> BOOL ->
  step_safe (risk_ratio_step sf lf p m) [num; num; num; Leaf ([], d)] (Tup [int; int; num; int])
    (Tup [num; num; num; int; int; int; s_sma p []]).
Proof.
  intros Hp Hd. destruct m as [m|]; start tt; unfold risk_ratio_step; go; cl msd_safe; go.
  all: (eapply wp_case with (z := Tup [num; num; num; int; int; int; int]); [pl| | |]).
  all: try (lazymatch goal with |- Forall _ _ => repeat (apply Forall_cons; [cbn [fst snd]; split; [hs|go]|]); apply Forall_nil end).
  all: try (go; fail).
  all: intros rr Hr; destruct (vhas_tup_inv _ _ Hr) as (vs & -> & Hv); inv_all; cbn [iter bind]; go.
Qed.

Theorem takes_safe op zs zo zst zx : takes op zs zo zst -> parts zx = zs -> safe op zx zo zst.
Proof.
  intros H E. destruct H; (eapply plain_safe; [|exact E]).
  - now apply safe_lag.
  - now apply safe_sma.
  - now apply safe_ema.
  - now apply safe_rma.
  - now apply safe_msd.
  - now apply safe_bollinger.
  - apply safe_return; [assumption|]. intros t Q Ht K. go. now apply K.
  - apply safe_return; [assumption|]. intros t Q Ht K. go. now apply K.
  - now apply safe_macd.
  - now apply safe_zero.
  - now apply safe_rsi.
  - now apply safe_atr.
  - now apply safe_heikin_ashi.
  - now apply safe_drawdown.
  - now apply safe_sharpe.
  - now apply safe_skewness.
  - apply safe_global. intros a b Q Ha Hb K. go. now apply K.
  - apply safe_global. intros a b Q Ha Hb K. go. now apply K.
  - now apply safe_local.
  - now apply safe_local.
  - now apply safe_correlation.
  - now apply safe_cross.
  - now apply safe_auto.
  - now apply safe_risk_ratio.
Qed.
End ShapeOps.
