(** * FuelFacts: the iterations given to tf.while_loop always suffice (C64). *)
From Coq Require Import List ZArith Bool Lia.
From Verif Require Import Num Py PyFacts Tensor Streamable Meta Common Finance Structure Fuel.
Import ListNotations.
Local Open Scope nat_scope.

Notation nf := no_fuel_error.
Lemma nf_ok {A} (a : A) : nf (Ok a).
Proof. discriminate. Qed.
Lemma nf_bind {A B} (r : res A) (k : A -> res B) : nf r -> (forall a, nf (k a)) -> nf (bind r k).
Proof. intros H K. destruct r as [a|e]; [apply K|]. intros E. apply H. cbn in E. congruence. Qed.
Lemma nf_mapM {A B} (f : A -> res B) l : (forall a, In a l -> nf (f a)) -> nf (mapM f l).
Proof.
  induction l as [|x l IH]; intros H; cbn; [discriminate|]. apply nf_bind; [apply H; now left|]. intros y.
  apply nf_bind; [apply IH; intros a Ha; apply H; now right|]. discriminate.
Qed.
(** A loop over a counter that each iteration increments. *)
Lemma nf_while {S} (count : S -> nat) n c (body : S -> res S) : (forall s, c s = Nat.ltb (count s) n) ->
  (forall s, nf (body s)) -> (forall s s', body s = Ok s' -> count s' = Datatypes.S (count s)) ->
  forall fuel s, n - count s <= fuel -> nf (tf_while fuel c body s).
Proof.
  intros Hc Hb Hi. induction fuel as [|k IH]; intros s H; cbn [tf_while]; rewrite Hc; destruct (Nat.ltb_spec (count s) n) as [L|L]; try discriminate; [lia|].
  destruct (body s) as [s'|e] eqn:E; cbn [bind].
  - apply IH. rewrite (Hi _ _ E). lia.
  - intros Q. apply (Hb s). rewrite E. congruence.
Qed.
(** More iterations make no difference. *)
Lemma while_more {S} c (body : S -> res S) k : forall s k', nf (tf_while k c body s) -> k <= k' -> tf_while k' c body s = tf_while k c body s.
Proof.
  induction k as [|k IH]; intros s [|k'] H L; cbn [tf_while] in *; try lia; destruct (c s); try reflexivity.
  - now destruct H.
  - destruct (body s) as [s'|e]; cbn [bind] in *; [|reflexivity]. apply IH; [exact H|lia].
Qed.
(** Goes through a definition: sequencing, case distinctions, results. *)
Create HintDb nofuel.
Ltac nf := repeat (cbn beta iota zeta; first
  [ solve [discriminate] | assumption | solve [auto with nofuel] | simple apply nf_bind; [|intros ?]
  | match goal with |- no_fuel_error (match ?x with _ => _ end) => destruct x end
  | match goal with |- no_fuel_error (let '(_, _) := ?x in _) => destruct x end ]).

Lemma nf_getkey {A} k (v : pyval A) : nf (getkey k v). Proof. unfold getkey. nf. Qed.
Lemma nf_iter {A} (v : pyval A) : nf (iter v). Proof. unfold iter. nf. Qed.
Global Hint Resolve nf_getkey nf_iter : nofuel.
Lemma nf_map_fn {A B} (f : list (pyval A) -> res (pyval B)) : (forall l, nf (f l)) -> forall obj objs, nf (map_fn f obj objs).
Proof.
  intros Hf obj. induction obj as [a|l IH|l IH|l IH|l IH] using pyval_ind'; intros objs; cbn [map_fn]; try apply Hf.
  - apply nf_bind; [apply nf_mapM; intros; apply nf_iter|]. intros its. apply nf_bind; [|discriminate].
    revert its. induction l as [|v l IHl]; intros its; [discriminate|]. inversion IH as [|? ? I1 I2]; subst. destruct (heads its) as [[hs ts]|]; [|discriminate].
    apply nf_bind; [apply I1|]. intros. apply nf_bind; [now apply IHl|discriminate].
  - apply nf_bind; [apply nf_mapM; intros; apply nf_iter|]. intros its. apply nf_bind; [|discriminate].
    revert its. induction l as [|v l IHl]; intros its; [discriminate|]. inversion IH as [|? ? I1 I2]; subst. destruct (heads its) as [[hs ts]|]; [|discriminate].
    apply nf_bind; [apply I1|]. intros. apply nf_bind; [now apply IHl|discriminate].
  - apply nf_bind; [|discriminate]. induction l as [|[k v] l IHl]; [discriminate|]. inversion IH as [|? ? I1 I2]; subst.
    apply nf_bind; [apply nf_mapM; intros; apply nf_getkey|]. intros. apply nf_bind; [apply I1|]. intros. apply nf_bind; [now apply IHl|discriminate].
Qed.

Section Facts.
Context {N : FOps}.
Lemma nf_index0 t i : nf (index0 t i). Proof. unfold index0. nf. Qed.
Lemma nf_slice0 t a b : nf (slice0 t a b). Proof. unfold slice0. nf. Qed.
Lemma nf_droplast0 t : nf (droplast0 t). Proof. apply nf_slice0. Qed.
Lemma nf_size0 t : nf (size0 t). Proof. unfold size0. nf. Qed.
Lemma nf_dapp a b : nf (dapp a b). Proof. unfold dapp. nf. Qed.
Hint Resolve nf_index0 nf_slice0 nf_droplast0 nf_size0 nf_dapp : nofuel.
Lemma nf_concat0 t u : nf (concat0 t u). Proof. unfold concat0. nf. Qed.
Lemma nf_dconcat ts : forall d, nf (dconcat d ts). Proof. induction ts; intros; cbn [dconcat]; nf. Qed.
Hint Resolve nf_dconcat : nofuel.
Lemma nf_tstack ts : nf (tstack ts). Proof. unfold tstack. nf. Qed.
Lemma nf_bop {A B C} (f : A -> B -> C) s1 s2 l1 l2 : nf (bop f s1 s2 l1 l2). Proof. unfold bop. nf. Qed.
Hint Resolve nf_concat0 nf_tstack nf_bop : nofuel.
Lemma nf_tbin ff fi t u : nf (tbin ff fi t u). Proof. unfold tbin. nf. Qed.
Lemma nf_tcmp ff fi t u : nf (tcmp ff fi t u). Proof. unfold tcmp. nf. Qed.
Lemma nf_tbool2 f t u : nf (tbool2 f t u). Proof. unfold tbool2. nf. Qed.
Lemma nf_not t : nf (tlogical_not t). Proof. unfold tlogical_not. nf. Qed.
Lemma nf_tun f t : nf (tun f t). Proof. unfold tun. nf. Qed.
Lemma nf_isnan t : nf (tis_nan t). Proof. unfold tis_nan. nf. Qed.
Lemma nf_cast t : nf (tcast_i32 t). Proof. unfold tcast_i32. nf. Qed.
Lemma nf_where c x y : nf (twhere c x y). Proof. unfold twhere. nf. Qed.
Lemma nf_reduce0 r t : nf (treduce0 r t). Proof. unfold treduce0. nf. Qed.
Lemma nf_reduce_all r t : nf (treduce_all r t). Proof. unfold treduce_all. nf. Qed.
Lemma nf_reduce_num r ri t : nf (treduce_num r ri t). Proof. unfold treduce_num. nf. Qed.
Lemma nf_reduce_any t : nf (treduce_any t). Proof. unfold treduce_any. nf. Qed.
Lemma nf_pyint t z : nf (pyint_like t z). Proof. unfold pyint_like. nf. Qed.
Lemma nf_pyfloat t x : nf (pyfloat_like t x). Proof. unfold pyfloat_like. nf. Qed.
Lemma nf_pynum t x : nf (pynum_like t x). Proof. destruct x; [apply nf_pyint|apply nf_pyfloat]. Qed.
Lemma nf_fill s v : nf (fill s v). Proof. unfold fill. nf. Qed.
Lemma nf_zeros_buffer p v : nf (zeros_buffer p v). Proof. unfold zeros_buffer. nf. Qed.
Lemma nf_as_t v : nf (as_t v). Proof. unfold as_t. nf. Qed.
Lemma nf_as_pred t : nf (as_pred t). Proof. unfold as_pred. nf. Qed.
Hint Resolve nf_tbin nf_tcmp nf_tbool2 nf_not nf_tun nf_isnan nf_cast nf_where nf_reduce0 nf_reduce_all nf_reduce_num nf_reduce_any nf_pyint nf_pyfloat nf_pynum nf_fill
  nf_zeros_buffer nf_as_t nf_as_pred : nofuel.
Lemma nf_tadd t u : nf (tadd t u). Proof. apply nf_tbin. Qed.
Lemma nf_tsub t u : nf (tsub t u). Proof. apply nf_tbin. Qed.
Lemma nf_tmul t u : nf (tmul t u). Proof. apply nf_tbin. Qed.
Lemma nf_tdiv t u : nf (tdiv t u). Proof. apply nf_tbin. Qed.
Lemma nf_tmax t u : nf (tmaximum t u). Proof. apply nf_tbin. Qed.
Lemma nf_tmin t u : nf (tminimum t u). Proof. apply nf_tbin. Qed.
Lemma nf_tless t u : nf (tless t u). Proof. apply nf_tcmp. Qed.
Lemma nf_tgreater t u : nf (tgreater t u). Proof. apply nf_tcmp. Qed.
Lemma nf_tle t u : nf (tless_equal t u). Proof. apply nf_tcmp. Qed.
Lemma nf_tge t u : nf (tgreater_equal t u). Proof. apply nf_tcmp. Qed.
Lemma nf_tequal t u : nf (tequal t u). Proof. apply nf_tcmp. Qed.
Lemma nf_and t u : nf (tlogical_and t u). Proof. apply nf_tbool2. Qed.
Lemma nf_or t u : nf (tlogical_or t u). Proof. apply nf_tbool2. Qed.
Lemma nf_tneg t : nf (tneg t). Proof. apply nf_tun. Qed.
Lemma nf_tabs t : nf (tabs t). Proof. apply nf_tun. Qed.
Lemma nf_tsqrt t : nf (tsqrt t). Proof. apply nf_tun. Qed.
Lemma nf_tlog t : nf (tlog t). Proof. apply nf_tun. Qed.
Lemma nf_tsign t : nf (tsign t). Proof. apply nf_tun. Qed.
Lemma nf_tpow t k : nf (tpow t k). Proof. apply nf_tun. Qed.
Lemma nf_sum0 t : nf (treduce_sum0 t). Proof. apply nf_reduce0. Qed.
Lemma nf_mean0 t : nf (treduce_mean0 t). Proof. apply nf_reduce0. Qed.
Hint Resolve nf_tadd nf_tsub nf_tmul nf_tdiv nf_tmax nf_tmin nf_tless nf_tgreater nf_tle nf_tge nf_tequal nf_and nf_or nf_tneg nf_tabs nf_tsqrt nf_tlog
  nf_tsign nf_tpow nf_sum0 nf_mean0 : nofuel.
Lemma nf_moments t : nf (tmoments0 t). Proof. unfold tmoments0. nf. Qed.
Hint Resolve nf_moments : nofuel.

(** ** Control flow *)
Lemma nf_to_type v : nf (to_type v). Proof. apply nf_map_fn. intros l. nf. Qed.
Hint Resolve nf_to_type : nofuel.
Lemma nf_run_branch v : nf (run_branch v). Proof. unfold run_branch. nf. Qed.
Hint Resolve nf_run_branch : nofuel.
Lemma nf_cond p a b : nf a -> nf b -> nf (tf_cond p a b).
Proof.
  intros Ha Hb. unfold tf_cond. apply nf_bind; [auto with nofuel|]. intros c.
  destruct a as [a|ea]; destruct b as [b|eb].
  - nf.
  - destruct eb; nf; exact Hb.
  - destruct ea; nf; exact Ha.
  - destruct ea, eb; nf; first [exact Ha|exact Hb].
Qed.
Lemma nf_case_nested cases d : Forall (fun pv => nf (snd pv)) cases -> nf d -> nf (tf_case_nested cases d).
Proof. intros H D. induction H as [|[p v] l Hv Hl IH]; cbn [tf_case_nested]; [exact D|]. now apply nf_cond. Qed.
Lemma nf_case cases d e : Forall (fun pv => nf (snd pv)) cases -> nf d -> nf (tf_case cases d e).
Proof.
  intros H D. unfold tf_case. apply nf_bind; [apply nf_mapM; intros; apply nf_as_pred|]. intros bs.
  destruct (e && _); [discriminate|]. now apply nf_case_nested.
Qed.
Lemma nf_targ args k : nf (targ args k). Proof. unfold targ. nf. Qed.
Lemma nf_targ_or args k d : nf d -> nf (targ_or args k d). Proof. intros H. unfold targ_or. nf. Qed.
Lemma nf_arity lo hi args : nf (arity lo hi args). Proof. unfold arity. nf. Qed.
Hint Resolve nf_targ nf_arity : nofuel.
Hint Resolve nf_targ_or nf_cond nf_case : nofuel.

(** ** Streaming *)
Lemma nf_convert v : nf (convert v). Proof. apply nf_map_fn. intros l. nf. Qed.
Lemma nf_slice_at i v : nf (slice_at i v). Proof. apply nf_map_fn. intros l. nf. Qed.
Lemma nf_ta_new v n : nf (ta_new_all v n). Proof. apply nf_map_fn. intros l. nf. Qed.
Lemma nf_ta_write i x a : nf (ta_write i x a). Proof. unfold ta_write. nf. Qed.
Hint Resolve nf_convert nf_slice_at nf_ta_new nf_ta_write : nofuel.
Lemma nf_ta_write_all i o a : nf (ta_write_all i o a).
Proof. unfold ta_write_all. apply nf_bind; [|intros; nf]. apply nf_map_fn. intros l. nf. Qed.
Lemma nf_ta_stack a : nf (ta_stack a). Proof. unfold ta_stack. apply nf_bind; [apply nf_mapM; intros; nf|intros; nf]. Qed.
Hint Resolve nf_ta_stack nf_ta_write_all : nofuel.
Lemma nf_ta_stack_all a : nf (ta_stack_all a). Proof. apply nf_map_fn. intros l. nf. Qed.
Lemma nf_types a b : nf (check_types_equality a b). Proof. unfold check_types_equality. nf. Qed.
Lemma nf_shapes a b : nf (check_shapes a b). Proof. unfold check_shapes. apply nf_bind; [|intros; nf]. apply nf_map_fn. intros l. nf. Qed.
Lemma nf_input_size v : nf (input_size v).
Proof. unfold input_size. apply nf_bind; [apply nf_mapM; intros; nf|]. intros; nf. Qed.
Hint Resolve nf_ta_stack_all nf_types nf_shapes nf_input_size : nofuel.
Definition stepwise (op : operator) : Prop := forall inputs state, nf (forward_step op inputs state).
Ltac crack H := repeat match type of H with
  | bind ?r _ = Ok _ => destruct r; cbn [bind] in H; [|discriminate]
  | (let (_, _) := ?x in _) = Ok _ => destruct x end.
Lemma body_count op inputs v v' : stream_body op inputs v = Ok v' -> fst (fst v') = S (fst (fst v)).
Proof.
  destruct v as [[i s] o]. unfold stream_body. intros H.
  crack H.
  injection H as <-. reflexivity.
Qed.
Theorem call_no_fuel op : stepwise op -> forall inputs state b, nf (call op inputs state b).
Proof.
  intros H inputs state b. assert (H' : forall x s, nf (forward_step op x s)) by exact H. unfold call. nf; try apply H'.
  all: unfold call_streamed; apply nf_bind; [auto with nofuel|]; intros size; nf; try apply H'.
  all: apply (nf_while (fun v => fst (fst v)) size); [reflexivity| |apply body_count|cbn; lia].
  all: intros [[i s] o]; unfold stream_body; nf; apply H'.
Qed.

(** ** Operators *)
Lemma nf_item v k : nf (item v k). Proof. unfold item. nf. Qed.
Lemma nf_roll v t : nf (roll v t). Proof. unfold roll. nf. Qed.
Lemma nf_shift v t : nf (shift v t). Proof. unfold shift. nf. Qed.
Lemma nf_slice_to t k : nf (slice_to t k). Proof. unfold slice_to. nf. Qed.
Lemma nf_pynth vs i : nf (py_nth vs i). Proof. unfold py_nth. nf. Qed.
Lemma nf_int_op op t z : (forall u, nf (op t u)) -> nf (int_op op t z). Proof. intros H. unfold int_op. nf. Qed.
Lemma nf_leaf r : nf r -> nf (leaf r). Proof. intros H. unfold leaf. nf. Qed.
Hint Resolve nf_item nf_roll nf_shift nf_slice_to nf_pynth nf_int_op nf_leaf : nofuel.
Lemma nf_tcond p a b : nf a -> nf b -> nf (tcond p a b). Proof. intros Ha Hb. unfold tcond. nf. Qed.
Ltac steps := nf; repeat ( first [apply nf_tcond | apply nf_cond | apply nf_targ_or]; nf).
Lemma nf_corr a b : nf (compute_correlation a b). Proof. unfold compute_correlation. steps. Qed.
Lemma nf_sign t : nf (sign t). Proof. unfold sign. steps. Qed.
Lemma nf_clip k t : nf (rsi_clip k t). Proof. unfold rsi_clip. steps. Qed.
Lemma nf_compute_rsi g l : nf (compute_rsi g l). Proof. unfold compute_rsi. steps. Qed.
Hint Resolve nf_tcond nf_corr nf_sign nf_clip nf_compute_rsi : nofuel.
Lemma nf_dgl p v b g l : nf (compute_default_gain_loss p v b g l). Proof. unfold compute_default_gain_loss. steps. Qed.
Lemma nf_fgl v b : nf (compute_first_gain_loss v b). Proof. unfold compute_first_gain_loss. steps. Qed.
Lemma nf_with_rsi r : nf r -> nf (with_rsi r). Proof. intros H. unfold with_rsi. steps. Qed.
Lemma nf_true_range l h c : nf (true_range l h c). Proof. unfold true_range. steps. Qed.
Lemma nf_sharpe t : nf (compute_sharpe_ratio t). Proof. unfold compute_sharpe_ratio. steps. Qed.
Lemma nf_skew t : nf (compute_skewness t). Proof. unfold compute_skewness. steps. Qed.
Lemma nf_first_slice t i : nf (first_slice t i). Proof. unfold first_slice. steps. Qed.
Lemma nf_macd_diff a b i s : nf (macd_diff a b i s). Proof. unfold macd_diff. steps. Qed.
Hint Resolve nf_dgl nf_fgl nf_with_rsi nf_true_range nf_sharpe nf_skew nf_first_slice nf_macd_diff : nofuel.
Lemma nf_st_default f a b c d e g h i : nf (supertrend_default f a b c d e g h i).
Proof.
  unfold supertrend_default. steps. apply nf_case; [|nf].
  - repeat constructor; nf.
  - apply nf_cond; nf.
Qed.
Hint Resolve nf_st_default : nofuel.

Lemma stepwise_plain f : (forall args, nf (f args)) -> stepwise (Plain f).
Proof. intros H x s. cbn [forward_step]. nf. Qed.
Lemma stepwise_call op : stepwise op -> forall x s, nf (call op x s false).
Proof. intros. now apply call_no_fuel. Qed.
Lemma sw_lag p : stepwise (Lag p). Proof. apply stepwise_plain. intros args. unfold lag_step. steps. Qed.
Lemma sw_global c : (forall a b, nf (c a b)) -> stepwise (Plain (global_step c)).
Proof. intros H. apply stepwise_plain. intros args. unfold global_step. steps; try apply H. Qed.
Lemma sw_local c d p : stepwise (Plain (local_step c d p)). Proof. apply stepwise_plain. intros args. unfold local_step. steps. Qed.
Lemma sw_corr p : stepwise (Correlation p). Proof. apply stepwise_plain. intros args. unfold correlation_step. steps. Qed.
Lemma nf_call_corr p x s : nf (call (Correlation p) x s false). Proof. apply call_no_fuel, sw_corr. Qed.
Hint Resolve nf_call_corr : nofuel.
Lemma sw_cross p l : stepwise (CrossCorrelation p l). Proof. apply stepwise_plain. intros args. unfold cross_correlation_step. steps. Qed.
Lemma nf_call_cross p l x s : nf (call (CrossCorrelation p l) x s false). Proof. apply call_no_fuel, sw_cross. Qed.
Hint Resolve nf_call_cross : nofuel.
Lemma sw_auto p l : stepwise (AutoCorrelation p l). Proof. apply stepwise_plain. intros args. unfold auto_correlation_step. steps. Qed.
Lemma sw_sma p : stepwise (SimpleMovingAverage p). Proof. apply stepwise_plain. intros args. unfold sma_step. steps. Qed.
Lemma nf_call_sma p x s : nf (call (SimpleMovingAverage p) x s false). Proof. apply call_no_fuel, sw_sma. Qed.
Lemma nf_call_lag p x s : nf (call (Lag p) x s false). Proof. apply call_no_fuel, sw_lag. Qed.
Hint Resolve nf_call_sma nf_call_lag : nofuel.
Lemma sw_ema p : stepwise (ExponentialMovingAverage p). Proof. apply stepwise_plain. intros args. unfold ema_step. steps. Qed.
Lemma sw_rma p : stepwise (RollingMovingAverage p). Proof. apply stepwise_plain. intros args. unfold rma_step. steps. Qed.
Lemma sw_msd p : stepwise (MovingStandardDeviation p). Proof. apply stepwise_plain. intros args. unfold msd_step. steps. Qed.
Lemma nf_call_ema p x s : nf (call (ExponentialMovingAverage p) x s false). Proof. apply call_no_fuel, sw_ema. Qed.
Lemma nf_call_rma p x s : nf (call (RollingMovingAverage p) x s false). Proof. apply call_no_fuel, sw_rma. Qed.
Lemma nf_call_msd p x s : nf (call (MovingStandardDeviation p) x s false). Proof. apply call_no_fuel, sw_msd. Qed.
Hint Resolve nf_call_ema nf_call_rma nf_call_msd : nofuel.
Lemma sw_bollinger n k : stepwise (BollingerBands n k). Proof. apply stepwise_plain. intros args. unfold bollinger_step. steps. Qed.
Lemma sw_return f p : (forall q, nf (f q)) -> stepwise (Plain (return_step f p)).
Proof. intros H. apply stepwise_plain. intros args. unfold return_step. steps; try apply H. Qed.
Lemma sw_macd s f m : stepwise (MovingAverageConvergenceDivergence s f m). Proof. apply stepwise_plain. intros args. unfold macd_step. steps. Qed.
Lemma sw_zero : stepwise ZeroCrossoverSignal. Proof. apply stepwise_plain. intros args. unfold zero_crossover_step. steps. Qed.
Lemma sw_rsi p : stepwise (RelativeStrengthIndex p).
Proof. apply stepwise_plain. intros args. unfold rsi_step. steps. apply nf_case; [repeat constructor; cbn [snd]; nf|nf]. Qed.
Lemma sw_atr p : stepwise (AverageTrueRange p). Proof. apply stepwise_plain. intros args. unfold atr_step. steps. Qed.
Lemma nf_call_atr p x s : nf (call (AverageTrueRange p) x s false). Proof. apply call_no_fuel, sw_atr. Qed.
Hint Resolve nf_call_atr : nofuel.
Lemma sw_supertrend p f : stepwise (Supertrend p f). Proof. apply stepwise_plain. intros args. unfold supertrend_step. steps. Qed.
Lemma sw_heikin : stepwise HeikinAshi. Proof. apply stepwise_plain. intros args. unfold heikin_ashi_step. steps. Qed.
Lemma sw_drawdown : stepwise Drawdown. Proof. apply stepwise_plain. intros args. unfold drawdown_step. steps. Qed.
Lemma sw_sharpe p : stepwise (SharpeRatio p). Proof. apply stepwise_plain. intros args. unfold sharpe_step. steps. Qed.
Lemma sw_skewness p : stepwise (Skewness p). Proof. apply stepwise_plain. intros args. unfold skewness_step. steps. Qed.
Lemma nf_bind_eq {A B} (r : res A) (k : A -> res B) : nf r -> (forall a, r = Ok a -> nf (k a)) -> nf (bind r k).
Proof. intros H K. destruct r as [a|e]; [now apply K|]. intros E. apply H. cbn in E. congruence. Qed.
Lemma sw_risk s l p m : stepwise (RiskRatioEvaluator s l p m).
Proof.
  apply stepwise_plain. intros args. unfold risk_ratio_step.
  repeat (cbn zeta; match goal with
    | |- nf (bind (match m with _ => _ end) _) => fail 1
    | |- nf (bind _ _) => apply nf_bind; [steps|intros ?]
    | |- nf (let (_, _) := ?x in _) => destruct x end).
  apply nf_bind_eq; [steps|]. intros lc E. apply nf_bind; [|intros ?; steps]. apply nf_case; [|steps].
  apply Forall_app. split; [repeat constructor; cbn [snd]; steps|]. destruct m as [d|]; [|injection E as <-; constructor].
  crack E. injection E as <-. repeat constructor. cbn [snd]. steps.
Qed.
Lemma sw_user fn : (forall args, nf (fn args)) -> stepwise (make_streamable fn).
Proof. intros H. apply stepwise_plain. intros args. nf. Qed.
Lemma sw_set_during v p : stepwise (SetDuring v p).
Proof. intros x s. cbn [SetDuring forward_step]. unfold set_during_step. steps. apply nf_map_fn. intros l. steps. Qed.
Lemma sw_automaton trs q d : Forall (fun t => forall args, nf (tr_guard t args) /\ nf (tr_action t args)) trs -> (forall args, nf (d args)) ->
  stepwise (Automaton trs q d).
Proof.
  intros H D x s. rewrite Forall_forall in H. cbn [Automaton forward_step]. unfold automaton_step.
  apply nf_bind; [steps|]. intros ps. apply nf_bind; [steps|]. intros ins. apply nf_bind_eq.
  - apply nf_mapM. intros t Ht. destruct (H t Ht ins) as [Hg Ha]. steps.
  - intros cases E. apply nf_bind; [apply D|]. intros dv. apply nf_bind; [|intros ?; steps]. apply nf_case; [|steps]. clear H. revert cases E.
    induction trs as [|t trs IH]; intros cases E; cbn [mapM] in E; [injection E as <-; constructor|].
    match type of E with bind ?r _ = _ => destruct r as [a|] eqn:Ea; cbn [bind] in E; [|discriminate] end.
    destruct (mapM _ trs) as [l|e] eqn:El in E; cbn [bind] in E; [|discriminate]. injection E as <-. constructor; [|exact (IH _ El)].
    crack Ea. injection Ea as <-. discriminate.
Qed.
Lemma nf_compose_loop ops : Forall stepwise ops -> forall sts x o, nf (compose_loop (combine ops sts) x o).
Proof.
  intros H. induction H as [|op ops H0 H IH]; intros [|st sts] x o; cbn [combine compose_loop]; try discriminate.
  apply nf_bind; [now apply call_no_fuel|]. intros [[o1 s1] i1]. apply nf_bind; [apply IH|]. intros [[o2 s2] i2]. discriminate.
Qed.
Lemma sw_compose ops : Forall stepwise ops -> stepwise (Compose ops).
Proof.
  intros H x s. cbn [Compose forward_step]. unfold compose_step. apply nf_bind; [steps|]. intros l.
  apply nf_bind; [apply nf_compose_loop; now apply Forall_rev|]. intros [[[o|] n] i]; discriminate.
Qed.
Lemma nf_join_loop ops : Forall stepwise ops -> forall xs, nf (join_loop (combine ops xs)).
Proof.
  intros H. induction H as [|op ops H0 H IH]; intros [|[x st] xs]; cbn [combine join_loop]; try discriminate.
  apply nf_bind; [now apply call_no_fuel|]. intros [[o1 s1] i1]. apply nf_bind; [apply IH|]. intros [[o2 s2] i2]. discriminate.
Qed.
Lemma sw_join ops : Forall stepwise ops -> stepwise (Join ops).
Proof.
  intros H x s. cbn [Join forward_step]. unfold join_step. apply nf_bind; [steps|]. intros l. apply nf_bind; [steps|]. intros ins.
  apply nf_bind; [now apply nf_join_loop|]. intros [[o n] i]; discriminate.
Qed.
Lemma nf_same a b : nf (assert_same_structure a b). Proof. unfold assert_same_structure. nf. Qed.
Hint Resolve nf_same : nofuel.
Lemma sw_map op n : stepwise op -> stepwise (Map op n).
Proof.
  intros H x s. assert (C : forall x s, nf (call op x s false)) by (intros; now apply call_no_fuel).
  cbn [Map forward_step]. unfold map_step. apply nf_bind; [steps|]. intros x0. apply nf_bind; [apply C|]. intros [[v v0] i0].
  apply nf_bind; [destruct s; [discriminate|]; apply nf_bind; [|discriminate]; apply nf_map_fn; intros l; nf|]. intros st.
  apply nf_bind; [steps|]. intros ps. apply nf_bind; [|intros ?; steps]. unfold tf_map_fn. apply nf_bind; [steps|]. intros k. apply nf_bind; [steps|]. intros outs.
  apply nf_bind; [steps|]. intros nexts. apply nf_bind; [|intros ?; steps].
  apply (nf_while (fun v => fst (fst v)) k); [reflexivity| | |cbn; lia].
  - intros [[i a] b]. unfold map_body. steps.
  - intros [[i a] b] w E. unfold map_body in E. crack E. injection E as <-. reflexivity.
Qed.
Lemma nf_reduce_or l : forall acc, nf (reduce_or acc l).
Proof. induction l; intros acc; cbn [reduce_or]; steps. Qed.
Lemma nf_any_leaf f v : (forall t, nf (f t)) -> nf (any_leaf f v).
Proof. intros H. unfold any_leaf. apply nf_bind; [|intros; apply nf_reduce_or]. apply nf_map_fn. intros l. nf. Qed.
Lemma sw_ffill op : stepwise op -> stepwise (FFill op).
Proof.
  intros H x s. assert (C : forall x s, nf (call op x s false)) by (intros; now apply call_no_fuel).
  cbn [FFill forward_step]. unfold ffill_step. apply nf_bind; [apply nf_any_leaf; intros t; unfold tensor_has_value; steps|]. intros z.
  apply nf_bind; [steps|]. intros [po ps]. apply nf_bind; [apply C|]. intros [[o ns] is]. apply nf_bind; [destruct po; [discriminate|]; apply nf_map_fn; intros l; nf|].
  intros p. steps.
Qed.
Lemma sw_listed op k zo zs : signature op k zo zs -> stepwise op.
Proof.
  intros H; inversion H; subst; first [apply sw_lag | apply sw_local | apply sw_corr | apply sw_cross | apply sw_auto | apply sw_sma | apply sw_ema | apply sw_rma
    | apply sw_msd | apply sw_bollinger | apply sw_macd | apply sw_zero | apply sw_rsi | apply sw_atr | apply sw_supertrend | apply sw_heikin
    | apply sw_drawdown | apply sw_sharpe | apply sw_skewness | apply sw_risk | apply sw_global; intros; nf | apply sw_return; intros; nf].
Qed.
Lemma finite_ind' (P : operator -> Prop) : (forall op k zo zs, signature op k zo zs -> P op) ->
  (forall fn, (forall args, nf (fn args)) -> P (make_streamable fn)) -> (forall v p, P (SetDuring v p)) ->
  (forall trs q d, Forall (fun t => forall args, nf (tr_guard t args) /\ nf (tr_action t args)) trs -> (forall args, nf (d args)) -> P (Automaton trs q d)) ->
  (forall ops, Forall P ops -> P (Compose ops)) -> (forall ops, Forall P ops -> P (Join ops)) ->
  (forall op n, P op -> P (Map op n)) -> (forall op, P op -> P (FFill op)) -> forall op, finite op -> P op.
Proof.
  intros H1 H2 H3 H4 H5 H6 H7 H8. fix IH 2. intros op H.
  assert (L : forall l, Forall finite l -> Forall P l) by (fix IHl 2; intros l [|x r Hx Hr]; constructor; [exact (IH x Hx)|exact (IHl r Hr)]).
  destruct H; eauto.
Qed.
Theorem finite_stepwise op : finite op -> stepwise op.
Proof.
  revert op. apply finite_ind'; intros.
  - eapply sw_listed; eassumption.
  - now apply sw_user.
  - apply sw_set_during.
  - now apply sw_automaton.
  - now apply sw_compose.
  - now apply sw_join.
  - now apply sw_map.
  - now apply sw_ffill.
Qed.
Theorem finite_call op : finite op -> forall inputs state b, nf (call op inputs state b).
Proof. intros H. apply call_no_fuel, finite_stepwise, H. Qed.

(** ** The classes built from others *)
Lemma nf_bin_fn f args : (forall x y, nf (f x y)) -> nf (bin_fn f args).
Proof. intros H. unfold bin_fn. nf. Qed.
Ltac fin := repeat first [assumption | now (eapply finite_listed; constructor) | apply finite_set_during | apply finite_compose; repeat (apply Forall_cons || apply Forall_nil)
  | apply finite_join; repeat (apply Forall_cons || apply Forall_nil) | apply finite_user; intros ?; first [apply nf_bin_fn; intros; now nf | solve [nf]]].
Lemma finite_select i : finite (Select i).
Proof. apply finite_user. intros vs. destruct i; try apply nf_pynth; apply nf_bind; try discriminate; apply nf_mapM; intros; apply nf_pynth. Qed.
Lemma finite_positive : finite Positive. Proof. apply finite_user. intros vs. unfold positive_fn. nf. Qed.
Lemma finite_negative : finite Negative. Proof. apply finite_user. intros vs. unfold negative_fn. nf. Qed.
Theorem finite_built_in p q m i n : finite Sub /\ finite Add /\ finite Mul /\ finite (Fork n) /\ finite Identity /\ finite (Select i) /\
  finite Positive /\ finite Negative /\ finite (Momentum p) /\ finite (Volatility p q) /\ finite (SimpleMovingAverageCrossover p q) /\
  finite (SimpleMovingAverageCrossoverSignal p q) /\ finite (MovingAverageConvergenceDivergenceSignal p q m).
Proof. pose proof (finite_select (IdxOne 4)). pose proof (finite_select i). pose proof finite_positive. pose proof finite_negative. repeat split; fin. Qed.

(** ** filter_with_mask, Drawdown.details, Drawdown.avg *)
Theorem nf_filter {A} mask (values : list A) : nf (filter_with_mask mask values).
Proof.
  unfold filter_with_mask. apply nf_bind.
  - apply (nf_while (fun v => fst (fst v)) (List.length mask)); [reflexivity| | |cbn; lia].
    + intros [[i o] l]. unfold fwm_body. nf.
    + intros [[i o] l] w E. unfold fwm_body in E. repeat match type of E with match ?x with _ => _ end = _ => destruct x end; try discriminate; injection E as <-; reflexivity.
  - intros [[i o] l]. apply nf_mapM. intros; nf.
Qed.
Theorem nf_details d days : nf (details d days).
Proof. unfold details. apply nf_bind; [apply nf_filter|]. intros. apply nf_bind; [apply nf_filter|]. intros. nf. Qed.
Theorem nf_avg d days : nf (avg d days).
Proof. unfold avg. apply nf_bind; [apply nf_details|]. discriminate. Qed.
End Facts.
