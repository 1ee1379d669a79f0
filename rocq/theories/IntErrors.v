(** * IntErrors: operators that compute averages, ratios or distances reject tensors that are not of floats. *)
From Coq Require Import String List ZArith Bool Lia.
From Verif Require Import Num Py PyFacts Tensor Streamable Spec SpecMeta StreamFacts TensorFacts StreamProofs
  WfFacts Meta Common Finance Library GenuineBase Genuine GenuineLib InitFacts InitLib MapFacts Shapes ShapeFacts ShapeOps ShapeProofs ShapeInit Vectors VectorErrors Ints.
Import ListNotations.

Section IntErrors.
Context {N : FOps}.
Notation flt_t t := (dtype_of t = F32).
(** ** The dtypes of results *)
Lemma dt_zeros s d : dtype_of (zeros s d) = d.
Proof. now destruct d. Qed.
Lemma dt_zeros_like t : dtype_of (zeros_like t) = dtype_of t.
Proof. apply dt_zeros. Qed.
Lemma dt_zb p v b : zeros_buffer p v = Ok b -> dtype_of b = dtype_of v.
Proof. unfold zeros_buffer. destruct (p <? 0)%Z; [discriminate|]. intros H. injection H as <-. apply dt_zeros. Qed.
Lemma dt_dslice o l d s s' : dtype_of (mkT s (dslice o l d)) = dtype_of (mkT s' d).
Proof. now destruct d. Qed.
Lemma dt_slice0 t a b r : slice0 t a b = Ok r -> dtype_of r = dtype_of t.
Proof. unfold slice0. destruct (sh t); [discriminate|]. intros H. injection H as <-. unfold dtype_of. cbn [dat]. now destruct (dat t). Qed.
Lemma dt_slice_to t k r : slice_to t k = Ok r -> dtype_of r = dtype_of t.
Proof. unfold slice_to. destruct (sh k), (dat k) as [|[|? [|? ?]]|]; try discriminate. apply dt_slice0. Qed.
Lemma dt_index0 t i r : index0 t i = Ok r -> dtype_of r = dtype_of t.
Proof. unfold index0. destruct (sh t); [discriminate|]. destruct (_ && _); [|discriminate]. intros H. injection H as <-. unfold dtype_of. cbn [dat]. now destruct (dat t). Qed.
Lemma dt_dapp a b d s s' s2 : dapp a b = Ok d -> dtype_of (mkT s d) = dtype_of (mkT s' a) /\ dtype_of (mkT s' a) = dtype_of (mkT s2 b).
Proof. destruct a, b; try discriminate; intros H; injection H as <-; now split. Qed.
Lemma dt_concat0 t u r : concat0 t u = Ok r -> dtype_of r = dtype_of t /\ dtype_of t = dtype_of u.
Proof.
  unfold concat0. destruct (sh t) eqn:E1, (sh u) eqn:E2; try discriminate. destruct (shape_eqb _ _); [|discriminate]. intros H. apply bind_ok in H as (d & D & H).
  injection H as <-. destruct t as [s1 d1], u as [s2 d2]. now apply dt_dapp.
Qed.
Lemma dt_roll v t r : roll v t = Ok r -> dtype_of r = dtype_of v /\ dtype_of v = dtype_of t.
Proof.
  unfold roll, droplast0. intros H. apply bind_ok in H as (u & U & H). apply dt_slice0 in U. apply dt_concat0 in H as [A B]. rewrite <- U.
  change (dtype_of (expand0 v)) with (dtype_of v) in *. auto.
Qed.
Lemma dt_tbin ff fi t u r : tbin ff fi t u = Ok r -> dtype_of r = dtype_of t /\ dtype_of t = dtype_of u.
Proof.
  unfold tbin, dtype_of at 2 3 4. destruct (dat t), (dat u); try discriminate; [|destruct fi; [|discriminate]]; intros H; apply bind_ok in H as ([sx lx] & E & H);
    injection H as <-; now split.
Qed.
Lemma dt_tdiv t u r : tdiv t u = Ok r -> flt_t t /\ flt_t u /\ flt_t r.
Proof.
  unfold tdiv, tbin, dtype_of. destruct (dat t), (dat u); try discriminate. intros H; apply bind_ok in H as ([sx lx] & E & H). injection H as <-. auto.
Qed.
Lemma dt_tcmp ff fi t u r : tcmp ff fi t u = Ok r -> dtype_of t = dtype_of u.
Proof. unfold tcmp, dtype_of. destruct (dat t), (dat u); try discriminate; auto. Qed.
Lemma dt_tun f t r : tun f t = Ok r -> flt_t t /\ flt_t r.
Proof. unfold tun, dtype_of. destruct (dat t); try discriminate. intros H. injection H as <-. auto. Qed.
Lemma dt_reduce0 f t r : treduce0 f t = Ok r -> flt_t t /\ flt_t r.
Proof. unfold treduce0, dtype_of. destruct (sh t), (dat t); try discriminate. intros H. injection H as <-. auto. Qed.
Lemma dt_reduce_all f t r : treduce_all f t = Ok r -> flt_t t /\ flt_t r.
Proof. unfold treduce_all, dtype_of. destruct (dat t); try discriminate. intros H. injection H as <-. auto. Qed.
Lemma dt_moments t m v : tmoments0 t = Ok (m, v) -> flt_t t /\ flt_t v.
Proof. unfold tmoments0. intros H. binv H. repeat match goal with K : treduce0 _ _ = Ok _ |- _ => apply dt_reduce0 in K as [? ?] end. auto. Qed.
Lemma dt_pyfloat t x r : pyfloat_like t x = Ok r -> flt_t t.
Proof. unfold pyfloat_like, dtype_of. destruct (dat t); try discriminate; auto. Qed.
Lemma dt_dconcat l : forall d e s, dconcat d l = Ok e -> (forall u, In u l -> dtype_of u = dtype_of (mkT s d)) /\ dtype_of (mkT s e) = dtype_of (mkT s d).
Proof.
  induction l as [|t l IH]; intros d e s H; cbn [dconcat] in H; [injection H as <-; split; [easy|reflexivity]|].
  apply bind_ok in H as (d' & D & H). apply IH with (s := s) in H as [A B]. destruct t as [st dt]. apply dt_dapp with (s := s) (s' := s) (s2 := st) in D as [D1 D2].
  split; [|congruence]. intros u [<-|Hu]; [symmetry; exact D2|]. rewrite (A u Hu). exact D1.
Qed.
Lemma dt_stack t l r : tstack (t :: l) = Ok r -> (forall u, In u l -> dtype_of u = dtype_of t) /\ dtype_of r = dtype_of t.
Proof.
  unfold tstack. destruct (forallb _ _); [|discriminate]. intros H. apply bind_ok in H as (d & D & H). injection H as <-. destruct t as [st dt].
  apply dt_dconcat with (s := length ({| sh := st; dat := dt |} :: l) :: st) in D as [A B]. split; [|exact B]. intros u Hu. now rewrite (A u Hu).
Qed.
(** ** Errors that are not assertions *)
Definition quiet {A} (r : res A) : Prop := r <> Err EAssert.
Lemma q_ok {A} (a : A) : quiet (Ok a).
Proof. discriminate. Qed.
Lemma q_bind {A B} (e : res A) (k : A -> res B) : quiet e -> (forall a, quiet (k a)) -> quiet (bind e k).
Proof. intros H K. destruct e as [a|x]; cbn [bind]; [apply K|]. intros E. apply H. now injection E as ->. Qed.
Lemma q_pair {A B C} (e : res (A * B)) (k : A -> B -> res C) : quiet e -> (forall a b, quiet (k a b)) -> quiet (bind e (fun p => let (a, b) := p in k a b)).
Proof. intros H K. apply q_bind; [exact H|]. intros [a b]. apply K. Qed.
Lemma q_bop {A B C} (f : A -> B -> C) s1 s2 l1 l2 : quiet (bop f s1 s2 l1 l2).
Proof. unfold quiet, bop. destruct (shape_eqb _ _); [discriminate|]. destruct (bshape _ _); discriminate. Qed.
Lemma q_tbin ff fi t u : quiet (tbin ff fi t u).
Proof. unfold tbin. destruct (dat t), (dat u); try discriminate; [|destruct fi; [|discriminate]]; (apply q_bind; [apply q_bop|intros []; apply q_ok]). Qed.
Lemma q_tcmp ff fi t u : quiet (tcmp ff fi t u).
Proof. unfold tcmp. destruct (dat t), (dat u); try discriminate; (apply q_bind; [apply q_bop|intros []; apply q_ok]). Qed.
Lemma q_tun f t : quiet (tun f t).
Proof. unfold tun. destruct (dat t); discriminate. Qed.
Lemma q_reduce0 f t : quiet (treduce0 f t).
Proof. unfold treduce0. destruct (sh t), (dat t); discriminate. Qed.
Lemma q_reduce_all f t : quiet (treduce_all f t).
Proof. unfold treduce_all. destruct (dat t); discriminate. Qed.
Lemma q_moments t : quiet (tmoments0 t).
Proof. unfold tmoments0. do 2 (apply q_bind; [apply q_reduce0|intros]). apply q_ok. Qed.
Lemma q_pyint t z : quiet (pyint_like t z).
Proof. unfold pyint_like. destruct (dat t); discriminate. Qed.
Lemma q_dconcat l : forall d, quiet (dconcat d l).
Proof. induction l as [|t l IH]; intros d; [apply q_ok|]. apply q_bind; [destruct d, (dat t); discriminate|intros; apply IH]. Qed.
Lemma q_stack l : quiet (tstack l).
Proof. destruct l as [|t l]; [discriminate|]. unfold tstack. destruct (forallb _ _); [|discriminate]. apply q_bind; [apply q_dconcat|intros; apply q_ok]. Qed.
Lemma q_slice0 t a b : quiet (slice0 t a b).
Proof. unfold slice0. destruct (sh t); discriminate. Qed.
Lemma q_slice_to t k : quiet (slice_to t k).
Proof. unfold slice_to. destruct (sh k), (dat k) as [|[|? [|? ?]]|]; try discriminate. apply q_slice0. Qed.
Lemma q_concat0 t u : quiet (concat0 t u).
Proof. unfold concat0. destruct (sh t), (sh u); try discriminate. destruct (shape_eqb _ _); [|discriminate]. apply q_bind; [destruct (dat t), (dat u); discriminate|intros; apply q_ok]. Qed.
Lemma q_size0 t : quiet (size0 t).
Proof. unfold size0. destruct (sh t); discriminate. Qed.
Lemma q_clip f t : quiet (rsi_clip f t).
Proof. unfold rsi_clip. destruct (sh t) as [|? [|? ?]], (dat t); discriminate. Qed.
Lemma q_fill s t : quiet (fill s t).
Proof. unfold fill. destruct (sh t), (dat t) as [[|? [|? ?]]|[|? [|? ?]]|[|? [|? ?]]]; discriminate. Qed.
Lemma q_where a b c : quiet (twhere a b c).
Proof. unfold twhere. destruct (_ && _); [|discriminate]. destruct (dat a), (dat b), (dat c); discriminate. Qed.
Lemma q_pred t : quiet (as_pred t).
Proof. unfold as_pred. destruct (sh t), (dat t) as [|?|[|? [|? ?]]]; discriminate. Qed.
Lemma q_cond p a b : quiet a -> quiet b -> quiet (tf_cond p (leaf a) (leaf b)).
Proof.
  intros Ha Hb. unfold tf_cond. apply q_bind; [apply q_pred|]. intros c.
  destruct a as [a|[]]; try (now elim Ha); destruct b as [b|[]]; try (now elim Hb); try discriminate.
  cbn. destruct (dtype_eqb _ _); discriminate.
Qed.
Lemma q_tcond p a b : quiet a -> quiet b -> quiet (tcond p a b).
Proof. intros Ha Hb. unfold tcond. apply q_bind; [now apply q_cond|]. intros v. destruct v; discriminate. Qed.
(** ** Both branches of a condition *)
Lemma cond_both p a b r : tf_cond p a b = Ok r -> quiet a -> quiet b -> exists x y, a = Ok x /\ b = Ok y.
Proof.
  intros H Ha Hb. unfold tf_cond in H. apply bind_ok in H as (c & _ & H).
  destruct a as [x|[]]; try (now elim Ha); destruct b as [y|[]]; try (now elim Hb); try discriminate. eauto.
Qed.
Lemma tcond_both p a b r : tcond p a b = Ok r -> quiet a -> quiet b -> exists x y, a = Ok x /\ b = Ok y /\ dtype_of x = dtype_of y /\ dtype_of r = dtype_of x.
Proof.
  intros H Ha Hb. unfold tcond in H. apply bind_ok in H as (v & H & K). unfold tf_cond in H. apply bind_ok in H as (c & _ & H).
  destruct a as [x|[]]; try (now elim Ha); destruct b as [y|[]]; try (now elim Hb); try discriminate.
  exists x, y. split; [reflexivity|]. split; [reflexivity|]. cbn in H.
  destruct (dtype_eqb (dtype_of x) (dtype_of y)) eqn:E; [|discriminate]. injection H as <-.
  assert (D : dtype_of x = dtype_of y) by (destruct (dtype_of x), (dtype_of y); try discriminate; reflexivity).
  split; [exact D|]. destruct c; injection K as <-; congruence.
Qed.
(** ** Operators *)
Ltac qt := unfold int_op, leaf, treduce_sum0, treduce_mean0, tadd, tsub, tmul, tdiv, tmaximum, tminimum, tneg, tabs, tsqrt, tlog, tsign, tpow, tless, tgreater, tless_equal, tgreater_equal, tequal, first_slice;
  repeat first [apply q_ok | apply q_tbin | apply q_tcmp | apply q_tun | apply q_reduce0 | apply q_reduce_all | apply q_moments | apply q_pyint | apply q_stack | apply q_slice0
    | apply q_slice_to | apply q_concat0 | apply q_size0 | apply q_clip | apply q_fill | apply q_where | apply q_tcond | apply q_pair; [|intros ? ?] | apply q_bind; [|intros ?]].
Ltac dts := repeat match goal with
  | H : zeros_buffer _ _ = Ok _ |- _ => apply dt_zb in H
  | H : roll _ _ = Ok _ |- _ => apply dt_roll in H as [? ?]
  | H : index0 _ _ = Ok _ |- _ => apply dt_index0 in H
  | H : slice0 _ _ _ = Ok _ |- _ => apply dt_slice0 in H
  | H : slice_to _ _ = Ok _ |- _ => apply dt_slice_to in H
  | H : concat0 (expand0 ?v) _ = Ok _ |- _ => apply dt_concat0 in H as [? ?]; change (dtype_of (expand0 v)) with (dtype_of v) in *
  | H : tstack (_ :: _) = Ok _ |- _ => apply dt_stack in H as [? ?]
  | H : tadd _ _ = Ok _ |- _ => apply dt_tbin in H as [? ?]
  | H : tsub _ _ = Ok _ |- _ => apply dt_tbin in H as [? ?]
  | H : tmul _ _ = Ok _ |- _ => apply dt_tbin in H as [? ?]
  | H : tmaximum _ _ = Ok _ |- _ => apply dt_tbin in H as [? ?]
  | H : tminimum _ _ = Ok _ |- _ => apply dt_tbin in H as [? ?]
  | H : tdiv _ _ = Ok _ |- _ => apply dt_tdiv in H as (? & ? & ?)
  | H : tabs _ = Ok _ |- _ => apply dt_tun in H as [? ?]
  | H : tsqrt _ = Ok _ |- _ => apply dt_tun in H as [? ?]
  | H : tsign _ = Ok _ |- _ => apply dt_tun in H as [? ?]
  | H : tless_equal _ _ = Ok _ |- _ => apply dt_tcmp in H
  | H : tgreater_equal _ _ = Ok _ |- _ => apply dt_tcmp in H
  | H : treduce_sum0 _ = Ok _ |- _ => apply dt_reduce0 in H as [? ?]
  | H : treduce_mean0 _ = Ok _ |- _ => apply dt_reduce0 in H as [? ?]
  | H : treduce0 _ _ = Ok _ |- _ => apply dt_reduce0 in H as [? ?]
  | H : treduce_all _ _ = Ok _ |- _ => apply dt_reduce_all in H as [? ?]
  | H : tmoments0 _ = Ok (_, _) |- _ => apply dt_moments in H as [? ?]
  | H : pyfloat_like _ _ = Ok _ |- _ => apply dt_pyfloat in H
  end; rewrite ?dt_zeros_like in *.
Ltac start E := tailed; binv E; tailed.
Lemma sma_floats p t r : sma_step p [Leaf t] = Ok r -> flt_t t.
Proof.
  intros E. unfold sma_step in E. start E.
  match goal with H : tcond _ _ _ = Ok _ |- _ => apply tcond_both in H as (x & y & _ & Y & _); [|qt..] end. binv Y. dts. congruence.
Qed.
Lemma ema_floats p t r : ema_step p [Leaf t] = Ok r -> flt_t t.
Proof. intros E. unfold ema_step in E. start E. dts. congruence. Qed.
Lemma rma_floats p t r : rma_step p [Leaf t] = Ok r -> flt_t t.
Proof. intros E. unfold rma_step in E. start E. dts. congruence. Qed.
Lemma msd_floats p t r : msd_step p [Leaf t] = Ok r -> flt_t t.
Proof. intros E. unfold msd_step in E. start E. dts. congruence. Qed.
Lemma bollinger_floats n k t r : bollinger_step n k [Leaf t] = Ok r -> flt_t t.
Proof.
  intros E. unfold bollinger_step in E. start E.
  match goal with H : call (SimpleMovingAverage n) _ _ _ = Ok _ |- _ => exact (sma_floats n _ _ H) end.
Qed.
Lemma return_floats f p t r : (forall q, quiet (f q)) -> return_step f p [Leaf t] = Ok r -> flt_t t.
Proof.
  intros Q E. unfold return_step in E. start E.
  match goal with H : tcond _ _ _ = Ok _ |- _ => apply tcond_both in H as (x & y & _ & Y & _); [|qt; try apply Q..] end. binv Y. dts. congruence.
Qed.
Lemma macd_floats a b c t r : macd_step a b c [Leaf t] = Ok r -> flt_t t.
Proof.
  intros E. unfold macd_step in E. start E.
  match goal with H : call (ExponentialMovingAverage a) _ _ _ = Ok _ |- _ => exact (ema_floats a _ _ H) end.
Qed.
Lemma sign_floats t r : sign t = Ok r -> flt_t t.
Proof. intros E. binv E. dts. assumption. Qed.
Lemma q_sign t : quiet (sign t).
Proof. unfold sign. qt. Qed.
Lemma q_not t : quiet (tlogical_not t).
Proof. unfold tlogical_not. destruct (dat t); discriminate. Qed.
Lemma q_bool2 f t u : quiet (tbool2 f t u).
Proof. unfold tbool2. destruct (dat t), (dat u); try discriminate. apply q_bind; [apply q_bop|intros []; apply q_ok]. Qed.
Lemma zero_crossover_floats t r : zero_crossover_step [Leaf t] = Ok r -> flt_t t.
Proof.
  intros E. unfold zero_crossover_step in E. start E.
  match goal with H : tf_cond _ _ _ = Ok _ |- _ => apply cond_both in H as (x & y & X & _); [|qt..] end.
  { binv X. dts. assumption. }
  all: first [apply q_sign|apply q_not|apply q_bool2].
Qed.
Lemma drawdown_floats t r : drawdown_step [Leaf t] = Ok r -> flt_t t.
Proof. intros E. unfold drawdown_step in E. start E. dts. congruence. Qed.
Lemma skewed_floats p t r : skewness_step p [Leaf t] = Ok r -> flt_t t.
Proof.
  intros E. unfold skewness_step in E. start E.
  match goal with H : tcond _ _ _ = Ok _ |- _ => apply tcond_both in H as (x & y & _ & Y & _); [|unfold compute_skewness; qt..] end. binv Y. dts. congruence.
Qed.
Lemma sharpe_floats p t u r : sharpe_step p [Leaf t; Leaf u] = Ok r -> flt_t t /\ flt_t u.
Proof.
  intros E. unfold sharpe_step in E. start E.
  match goal with H : tcond _ _ _ = Ok _ |- _ => apply tcond_both in H as (x & y & _ & Y & _); [|unfold compute_sharpe_ratio; qt..] end. binv Y. dts. split; congruence.
Qed.
Lemma range_floats l h c r : true_range l h c = Ok r -> flt_t l /\ flt_t h /\ flt_t c.
Proof. intros E. binv E. dts. repeat split; congruence. Qed.
Lemma atr_floats p c l h r : atr_step p [Leaf c; Leaf l; Leaf h] = Ok r -> flt_t c /\ flt_t l /\ flt_t h.
Proof.
  intros E. unfold atr_step in E. start E. dts. repeat split; congruence.
Qed.
Lemma supertrend_floats p k c l h r : supertrend_step p k [Leaf c; Leaf l; Leaf h] = Ok r -> flt_t c /\ flt_t l /\ flt_t h.
Proof.
  intros E. unfold supertrend_step in E. start E.
  match goal with H : call (AverageTrueRange p) _ _ _ = Ok _ |- _ => exact (atr_floats p _ _ _ _ H) end.
Qed.
Lemma heikin_floats a b c d r : heikin_ashi_step [Leaf a; Leaf b; Leaf c; Leaf d] = Ok r -> flt_t a /\ flt_t b /\ flt_t c /\ flt_t d.
Proof.
  intros E. unfold heikin_ashi_step in E. start E.
  match goal with H : tcond _ _ (bind (tstack [_; _; _; _]) _) = Ok _ |- _ => apply tcond_both in H as (x & y & _ & Y & _); [|qt..] end. binv Y. dts.
  match goal with H : forall u, In u [?c; ?b; ?a] -> _ |- _ => pose proof (H a ltac:(cbn; auto)); pose proof (H b ltac:(cbn; auto)); pose proof (H c ltac:(cbn; auto)) end.
  repeat split; congruence.
Qed.
Lemma correlation_floats p t u r : correlation_step p [Leaf t; Leaf u] = Ok r -> flt_t t /\ flt_t u.
Proof.
  intros E. unfold correlation_step in E. start E.
  match goal with H : tf_cond _ _ _ = Ok _ |- _ => apply cond_both in H as (x & y & _ & Y); [|unfold compute_correlation; qt..] end. binv Y. dts. split; congruence.
Qed.
Lemma cross_floats p k t u r : cross_correlation_step p k [Leaf t; Leaf u] = Ok r -> flt_t t /\ flt_t u.
Proof.
  intros E. unfold cross_correlation_step in E. start E.
  match goal with H : call (Correlation p) _ _ _ = Ok _ |- _ => apply correlation_floats in H as [? ?] end. dts. split; congruence.
Qed.
Lemma auto_floats p k t r : auto_correlation_step p k [Leaf t] = Ok r -> flt_t t.
Proof.
  intros E. unfold auto_correlation_step in E. start E.
  match goal with H : call (CrossCorrelation p k) _ _ _ = Ok _ |- _ => apply cross_floats in H as [? ?] end. assumption.
Qed.
Lemma risk_floats a b p m l h c s r : risk_ratio_step a b p m [Leaf l; Leaf h; Leaf c; Leaf s] = Ok r -> flt_t l /\ flt_t h /\ flt_t c.
Proof.
  intros E. unfold risk_ratio_step in E. start E.
  match goal with H : call (MovingStandardDeviation p) _ _ _ = Ok _ |- _ => apply msd_floats in H end. dts. auto.
Qed.
Lemma cond_first p a b r : tf_cond p a b = Ok r -> quiet a -> exists x, a = Ok x.
Proof.
  intros H Ha. unfold tf_cond in H. apply bind_ok in H as (c & _ & H).
  destruct a as [x|[]]; try (now elim Ha); [eauto|..]; destruct b as [y|[]]; try discriminate; destruct c; discriminate.
Qed.
Lemma dt_clip f t r : rsi_clip f t = Ok r -> flt_t t.
Proof. unfold rsi_clip, dtype_of. destruct (sh t) as [|? [|? ?]], (dat t); try discriminate; auto. Qed.
Lemma rsi_floats p t r : rsi_step p [Leaf t] = Ok r -> flt_t t.
Proof.
  intros E. unfold rsi_step in E. start E.
  match goal with H : tf_case _ _ _ = Ok _ |- _ => unfold tf_case in H; apply bind_ok in H as (bs & _ & H); destruct (_ && _); [discriminate H|];
    cbn [tf_case_nested] in H; apply cond_first in H as (x & X) end.
  - binv X. match goal with H : rsi_clip _ _ = Ok _ |- _ => apply dt_clip in H end. dts. congruence.
  - unfold with_rsi, compute_first_gain_loss, compute_rsi. qt.
Qed.
Lemma compose_first op ops x r : forward_step (Compose (ops ++ [op])) x None = Ok r -> exists y, call op x None false = Ok y.
Proof.
  intros E. cbn [forward_step Compose] in E. rewrite rev_app_distr in E. cbn [rev app] in E. unfold compose_step in E.
  cbn [repeat length combine bind compose_loop] in E. apply bind_ok in E as ([[o nx] ini] & E & _). apply bind_ok in E as (y & E & _). eauto.
Qed.
Lemma set_during_floats x p z r : call (SetDuring (fsc x) p) (Leaf z) None false = Ok r -> flt_t z.
Proof.
  intros E. change (set_during_step (fsc x) p (Leaf z) None = Ok r) in E. unfold set_during_step in E. cbn [item nth_error bind as_t pyint_like dat isc] in E.
  apply bind_ok in E as (v & E & _). cbn in E. destruct (_ <? _)%Z; unfold dtype_of in *; destruct (dat z); try reflexivity; discriminate E.
Qed.
Lemma momentum_floats p t r : forward_step (Momentum p) (Leaf t) None = Ok r -> flt_t t.
Proof.
  intros E. unfold Momentum in E. cbn [forward_step Compose rev app] in E. unfold compose_step in E. cbn [repeat length combine bind compose_loop] in E.
  apply bind_ok in E as ([[o nx] ini] & E & _). apply bind_ok in E as ([[o1 n1] i1] & E1 & E).
  apply ok_inj in E1. injection E1 as <- <- <-. apply bind_ok in E as ([[o2 n2] i2] & E & _). apply bind_ok in E as ([[o3 n3] i3] & E3 & E).
  change (join_step [Identity; Lag p] (Tup [Leaf t; Leaf t]) None = Ok (o3, n3, i3)) in E3. unfold join_step in E3. cbn [repeat length combine bind iter join_loop] in E3.
  change (call Identity (Leaf t) None false) with (@Ok out3 (Leaf t, Tup [], Tup [])) in E3. cbn [bind] in E3.
  apply bind_ok in E3 as ([[a b] c] & E3 & K). apply bind_ok in E3 as ([[a' b'] c'] & E3 & K'). apply bind_ok in E3 as ([[y ny] iy] & E3 & K2).
  apply ok_inj in K. apply ok_inj in K'. apply ok_inj in K2. injection K2 as <- <- <-. injection K' as <- <- <-. injection K as <- <- <-.
  change (lag_step p [Leaf t] = Ok (y, ny, iy)) in E3. unfold lag_step in E3. start E3.
  apply bind_ok in E as ([[o4 n4] i4] & E & _). apply bind_ok in E as ([[o5 n5] i5] & E & K).
  match type of E with call Sub (Tup [Leaf ?a; Leaf ?b]) _ _ = _ => change ((let* output := bin_fn tsub [Leaf a; Leaf b] in Ok (output, Tup [], Tup [])) = @Ok out3 (o5, n5, i5)) in E end.
  unfold bin_fn in E. start E. apply bind_ok in K as ([[o6 n6] i6] & K & _). apply bind_ok in K as ([[o7 n7] i7] & K & _). apply set_during_floats in K. dts. congruence.
Qed.
Lemma crossover_floats slow fast t r : forward_step (SimpleMovingAverageCrossover slow fast) (Leaf t) None = Ok r -> flt_t t.
Proof.
  intros E. unfold SimpleMovingAverageCrossover in E. cbn [forward_step Compose rev app] in E. unfold compose_step in E. cbn [repeat length combine bind compose_loop] in E.
  apply bind_ok in E as ([[o nx] ini] & E & _). apply bind_ok in E as ([[o1 n1] i1] & E1 & E).
  apply ok_inj in E1. injection E1 as <- <- <-. apply bind_ok in E as ([[o2 n2] i2] & E & _). apply bind_ok in E as ([[o3 n3] i3] & E3 & E).
  match type of E3 with call (Join ?l) _ _ _ = _ => change (join_step l (Tup [Leaf t; Leaf t]) None = Ok (o3, n3, i3)) in E3 end.
  unfold join_step in E3. cbn [repeat length combine bind iter join_loop] in E3.
  apply bind_ok in E3 as ([[a b] c] & E3 & _). apply bind_ok in E3 as (y & _ & E3). destruct y as [[y1 y2] y3]. apply bind_ok in E3 as ([[a' b'] c'] & E3 & _).
  apply bind_ok in E3 as (y & E3 & _). exact (sma_floats _ _ _ E3).
Qed.
Lemma volatility_floats m p t r : forward_step (Volatility m p) (Leaf t) None = Ok r -> flt_t t.
Proof.
  intros E. apply (compose_first _ [_; _]) in E as (y & E). change (return_step tlog p [Leaf t] = Ok y) in E. apply return_floats in E; [exact E|]. intros q. qt.
Qed.
Lemma macd_signal_floats a b c t r : forward_step (MovingAverageConvergenceDivergenceSignal a b c) (Leaf t) None = Ok r -> flt_t t.
Proof. intros E. apply (compose_first _ [_; _; _]) in E as (y & E). exact (macd_floats _ _ _ _ _ E). Qed.
Lemma crossover_signal_floats a b t r : forward_step (SimpleMovingAverageCrossoverSignal a b) (Leaf t) None = Ok r -> flt_t t.
Proof. intros E. apply (compose_first _ [_; _]) in E as (y & E). exact (crossover_floats a b t y E). Qed.
(** FFill and the any_value test *)
Lemma has_value_floats v t r : tensor_has_value v t = Ok r -> flt_t t.
Proof. unfold tensor_has_value. intros E. binv E. cbn in *. match goal with H : Ok _ = Ok _ |- _ => apply ok_inj in H; subst end. match goal with H : tequal _ _ = Ok _ |- _ => apply dt_tcmp in H; exact H end. Qed.
Lemma ffill_floats op t r : forward_step (FFill op) (Leaf t) None = Ok r -> flt_t t.
Proof.
  intros E. cbn [forward_step FFill] in E. unfold ffill_step in E. apply bind_ok in E as (c & E & _). unfold any_value, any_leaf in E. apply bind_ok in E as (m & E & _).
  cbn in E. apply bind_ok in E as (y & E & _). exact (has_value_floats _ _ _ E).
Qed.
(** ** Rejections *)
Ltac alone lem := apply rejects_intro; [discriminate|]; intros x r H; destruct (vhas_leaf_inv _ _ _ H) as (t & -> & (_ & _ & Ht));
  intros E; cbn [forward_step app] in E; apply lem in E; congruence.
Theorem floats_only s d : d <> F32 ->
  (forall p, rejects (SimpleMovingAverage p) (Leaf (s, d)) /\ rejects (ExponentialMovingAverage p) (Leaf (s, d)) /\ rejects (RollingMovingAverage p) (Leaf (s, d)) /\
     rejects (MovingStandardDeviation p) (Leaf (s, d)) /\ rejects (Return p) (Leaf (s, d)) /\ rejects (LogarithmicReturn p) (Leaf (s, d)) /\
     rejects (Momentum p) (Leaf (s, d)) /\ rejects (RelativeStrengthIndex p) (Leaf (s, d)) /\ rejects (Skewness p) (Leaf (s, d))) /\
  (forall n k, rejects (BollingerBands n k) (Leaf (s, d))) /\
  (forall a b, rejects (SimpleMovingAverageCrossover a b) (Leaf (s, d)) /\ rejects (SimpleMovingAverageCrossoverSignal a b) (Leaf (s, d)) /\
     rejects (Volatility a b) (Leaf (s, d)) /\ rejects (AutoCorrelation a b) (Leaf (s, d))) /\
  (forall a b c, rejects (MovingAverageConvergenceDivergence a b c) (Leaf (s, d)) /\ rejects (MovingAverageConvergenceDivergenceSignal a b c) (Leaf (s, d))) /\
  rejects Drawdown (Leaf (s, d)) /\ rejects ZeroCrossoverSignal (Leaf (s, d)) /\ (forall op, rejects (FFill op) (Leaf (s, d))).
Proof.
  intros D. repeat match goal with |- _ /\ _ => split | |- forall _, _ => intro end.
  - alone sma_floats.
  - alone ema_floats.
  - alone rma_floats.
  - alone msd_floats.
  - apply rejects_intro; [discriminate|]; intros x r H; destruct (vhas_leaf_inv _ _ _ H) as (t & -> & (_ & _ & Ht)). intros E. cbn [forward_step Return app] in E.
    apply return_floats in E; [congruence|]. intros q. qt.
  - apply rejects_intro; [discriminate|]; intros x r H; destruct (vhas_leaf_inv _ _ _ H) as (t & -> & (_ & _ & Ht)). intros E. cbn [forward_step LogarithmicReturn app] in E.
    apply return_floats in E; [congruence|]. intros q. qt.
  - apply rejects_intro; [discriminate|]; intros x r H E; destruct (vhas_leaf_inv _ _ _ H) as (t & -> & (_ & _ & Ht)). apply momentum_floats in E. congruence.
  - alone rsi_floats.
  - alone skewed_floats.
  - alone bollinger_floats.
  - apply rejects_intro; [discriminate|]; intros x r H E; destruct (vhas_leaf_inv _ _ _ H) as (t & -> & (_ & _ & Ht)). apply crossover_floats in E. congruence.
  - apply rejects_intro; [discriminate|]; intros x r H E; destruct (vhas_leaf_inv _ _ _ H) as (t & -> & (_ & _ & Ht)). apply crossover_signal_floats in E. congruence.
  - apply rejects_intro; [discriminate|]; intros x r H E; destruct (vhas_leaf_inv _ _ _ H) as (t & -> & (_ & _ & Ht)). apply volatility_floats in E. congruence.
  - alone auto_floats.
  - alone macd_floats.
  - apply rejects_intro; [discriminate|]; intros x r H E; destruct (vhas_leaf_inv _ _ _ H) as (t & -> & (_ & _ & Ht)). apply macd_signal_floats in E. congruence.
  - alone drawdown_floats.
  - alone zero_crossover_floats.
  - apply rejects_intro; [discriminate|]; intros x r H E; destruct (vhas_leaf_inv _ _ _ H) as (t & -> & (_ & _ & Ht)). apply ffill_floats in E. congruence.
Qed.
Ltac opened := apply rejects_intro; [discriminate|]; intros x r H; destruct (vhas_tup_inv _ _ H) as (vs & -> & K); inv_all; leafy;
  repeat match goal with H : has _ _ _ |- _ => destruct H as (_ & _ & ?) end; intros E; cbn [forward_step app] in E.
Lemma in_dts (zs : list (list nat * dtype)) : not_floats zs -> ~ Forall (fun z => snd z = F32) zs.
Proof. intros (s & d & I & D) H. rewrite Forall_forall in H. apply D. exact (H _ I). Qed.
Theorem floats_only_all p q k k1 k2 m z1 z2 z3 z4 :
  (not_floats [z1; z2] -> rejects (Correlation p) (Tup [Leaf z1; Leaf z2]) /\ rejects (CrossCorrelation p q) (Tup [Leaf z1; Leaf z2]) /\ rejects (SharpeRatio p) (Tup [Leaf z1; Leaf z2])) /\
  (not_floats [z1; z2; z3] -> rejects (AverageTrueRange p) (Tup [Leaf z1; Leaf z2; Leaf z3]) /\ rejects (Supertrend p k) (Tup [Leaf z1; Leaf z2; Leaf z3]) /\
     rejects (RiskRatioEvaluator k1 k2 p m) (Tup [Leaf z1; Leaf z2; Leaf z3; Leaf z4])) /\
  (not_floats [z1; z2; z3; z4] -> rejects HeikinAshi (Tup [Leaf z1; Leaf z2; Leaf z3; Leaf z4])).
Proof.
  destruct z1 as [s1 d1], z2 as [s2 d2], z3 as [s3 d3], z4 as [s4 d4].
  split; [|split]; intros D; apply in_dts in D; [split; [|split]|split; [|split]|].
  - opened. apply correlation_floats in E as (? & ?). apply D. repeat (apply Forall_cons; [cbn [snd]; congruence|]). apply Forall_nil.
  - opened. apply cross_floats in E as (? & ?). apply D. repeat (apply Forall_cons; [cbn [snd]; congruence|]). apply Forall_nil.
  - opened. apply sharpe_floats in E as (? & ?). apply D. repeat (apply Forall_cons; [cbn [snd]; congruence|]). apply Forall_nil.
  - opened. apply atr_floats in E as (? & ? & ?). apply D. repeat (apply Forall_cons; [cbn [snd]; congruence|]). apply Forall_nil.
  - opened. apply supertrend_floats in E as (? & ? & ?). apply D. repeat (apply Forall_cons; [cbn [snd]; congruence|]). apply Forall_nil.
  - opened. apply risk_floats in E as (? & ? & ?). apply D. repeat (apply Forall_cons; [cbn [snd]; congruence|]). apply Forall_nil.
  - opened. apply heikin_floats in E as (? & ? & ? & ?). apply D. repeat (apply Forall_cons; [cbn [snd]; congruence|]). apply Forall_nil.
Qed.
(** Booleans are not numbers; numbers of different dtypes do not mix. *)
Lemma tbin_numbers ff fi t u r : tbin ff fi t u = Ok r -> dtype_of t = dtype_of u /\ dtype_of t <> BOOL.
Proof. unfold tbin, dtype_of. destruct (dat t), (dat u); try discriminate; now split. Qed.
Lemma tcmp_numbers ff fi t u r : tcmp ff fi t u = Ok r -> dtype_of t <> BOOL.
Proof. unfold tcmp, dtype_of. destruct (dat t), (dat u); discriminate. Qed.
Lemma num_numbers f g t r : treduce_num f g t = Ok r -> dtype_of t <> BOOL.
Proof. unfold treduce_num, dtype_of. destruct (dat t); discriminate. Qed.
Lemma q_reduce_num f g t : quiet (treduce_num f g t).
Proof. unfold treduce_num. destruct (dat t); discriminate. Qed.
Lemma dt_shift v t r : shift v t = Ok r -> dtype_of r = dtype_of v.
Proof.
  unfold shift. destruct (sh t) as [|n [|? ?]]; try discriminate. intros H. apply dt_concat0 in H as [H _]. exact H.
Qed.
Theorem no_booleans s p :
  rejects Positive (Leaf (s, BOOL)) /\ rejects Negative (Leaf (s, BOOL)) /\ rejects GlobalMinimum (Leaf (s, BOOL)) /\ rejects GlobalMaximum (Leaf (s, BOOL)) /\
  rejects (LocalMinimum p) (Leaf (s, BOOL)) /\ rejects (LocalMaximum p) (Leaf (s, BOOL)).
Proof.
  repeat match goal with |- _ /\ _ => split end; apply rejects_intro; try discriminate; intros x r H; destruct (vhas_leaf_inv _ _ _ H) as (t & -> & (_ & _ & Ht)); intros E; cbn [forward_step app make_streamable Positive Negative] in E.
  1-2: apply bind_ok in E as (o & E & _); unfold positive_fn, negative_fn in E; start E; match goal with H : _ = Ok _ |- _ => apply tcmp_numbers in H; now apply H end.
  1-2: cbn [forward_step app GlobalMinimum GlobalMaximum] in E; unfold global_step in E; start E; apply tcmp_numbers in E0; apply E0; exact Ht.
  1-2: cbn [forward_step app LocalMinimum LocalMaximum] in E; unfold local_step in E; start E;
    match goal with H : tf_cond _ _ _ = Ok _ |- _ => apply cond_both in H as (x & y & _ & Y); [|qt; apply q_reduce_num..] end;
    apply bind_ok in Y as (m & Y & _); apply num_numbers in Y; apply Y; match goal with H : shift _ _ = Ok _ |- _ => apply dt_shift in H end; dts; congruence.
Qed.
Theorem no_mixing s1 d1 s2 d2 : d1 <> d2 \/ d1 = BOOL ->
  rejects Add (Tup [Leaf (s1, d1); Leaf (s2, d2)]) /\ rejects Sub (Tup [Leaf (s1, d1); Leaf (s2, d2)]) /\ rejects Mul (Tup [Leaf (s1, d1); Leaf (s2, d2)]).
Proof.
  intros D. repeat match goal with |- _ /\ _ => split end; opened; cbn [forward_step app make_streamable Add Sub Mul] in E;
    apply bind_ok in E as (o & E & _); unfold bin_fn in E; start E; match goal with H : _ = Ok _ |- _ => apply tbin_numbers in H as [? ?] end; destruct D; congruence.
Qed.
End IntErrors.
