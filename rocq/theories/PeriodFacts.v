(** * PeriodFacts: operators with a negative period fail; most of those with a period of zero cannot be streamed (C71). *)
From Coq Require Import String List ZArith Bool Lia.
From Verif Require Import Num Py PyFacts Tensor Streamable Spec SpecMeta StreamFacts TensorFacts StreamProofs
  WfFacts Meta Common Finance Library GenuineBase Genuine GenuineLib InitFacts InitLib MapFacts Shapes ShapeFacts ShapeOps ShapeProofs ShapeInit Vectors VectorErrors Ints IntErrors RunFacts Periods.
Import ListNotations.

Section PeriodFacts.
Context {N : FOps}.
Lemma zb_neg p v b : (p < 0)%Z -> zeros_buffer p v <> Ok b.
Proof. intros H. unfold zeros_buffer. destruct (Z.ltb_spec p 0); [discriminate|lia]. Qed.
Ltac start E := tailed; binv E; tailed.
Ltac neg := match goal with H : zeros_buffer _ _ = Ok _ |- _ => now apply zb_neg in H end.
(** ** Negative periods *)
Lemma lag_neg p t r : (p < 0)%Z -> lag_step p [Leaf t] <> Ok r.
Proof. intros P E. unfold lag_step in E. start E. neg. Qed.
Lemma sma_neg p t r : (p < 0)%Z -> sma_step p [Leaf t] <> Ok r.
Proof. intros P E. unfold sma_step in E. start E. neg. Qed.
Lemma ema_neg p t r : (p < 0)%Z -> ema_step p [Leaf t] <> Ok r.
Proof. intros P E. unfold ema_step in E. start E. match goal with H : call (SimpleMovingAverage p) _ _ _ = Ok _ |- _ => exact (sma_neg p _ _ P H) end. Qed.
Lemma rma_neg p t r : (p < 0)%Z -> rma_step p [Leaf t] <> Ok r.
Proof. intros P E. unfold rma_step in E. start E. match goal with H : call (SimpleMovingAverage p) _ _ _ = Ok _ |- _ => exact (sma_neg p _ _ P H) end. Qed.
Lemma msd_neg p t r : (p < 0)%Z -> msd_step p [Leaf t] <> Ok r.
Proof. intros P E. unfold msd_step in E. start E. neg. Qed.
Lemma bollinger_neg p k t r : (p < 0)%Z -> bollinger_step p k [Leaf t] <> Ok r.
Proof. intros P E. unfold bollinger_step in E. start E. match goal with H : call (SimpleMovingAverage p) _ _ _ = Ok _ |- _ => exact (sma_neg p _ _ P H) end. Qed.
Lemma return_neg f p t r : (p <= 0)%Z -> return_step f p [Leaf t] <> Ok r.
Proof.
  intros P E. unfold return_step in E. start E. match goal with H : zeros_buffer _ _ = Ok _ |- _ => unfold zeros_buffer in H; destruct (Z.ltb_spec p 0); [discriminate H|];
    apply ok_inj in H; subst end. assert (p = 0%Z) as -> by lia.
  match goal with H : index0 (zeros _ ?d) _ = Ok _ |- _ => destruct d; discriminate H end.
Qed.
Lemma lag_zero p t r : (p <= 0)%Z -> lag_step p [Leaf t] <> Ok r.
Proof.
  intros P E. unfold lag_step in E. start E. match goal with H : zeros_buffer _ _ = Ok _ |- _ => unfold zeros_buffer in H; destruct (Z.ltb_spec p 0); [discriminate H|];
    apply ok_inj in H; subst end. assert (p = 0%Z) as -> by lia.
  match goal with H : index0 (zeros _ ?d) _ = Ok _ |- _ => destruct d; discriminate H end.
Qed.
Lemma rsi_neg p t r : (p <= 0)%Z -> rsi_step p [Leaf t] <> Ok r.
Proof. intros P E. unfold rsi_step in E. start E. match goal with H : call (Lag p) _ _ _ = Ok _ |- _ => exact (lag_zero p _ _ P H) end. Qed.
Lemma skewness_neg p t r : (p < 0)%Z -> skewness_step p [Leaf t] <> Ok r.
Proof. intros P E. unfold skewness_step in E. start E. neg. Qed.
Lemma sharpe_neg p t u r : (p < 0)%Z -> sharpe_step p [Leaf t; Leaf u] <> Ok r.
Proof. intros P E. unfold sharpe_step in E. start E. neg. Qed.
Lemma local_neg f g p t r : (p < 0)%Z -> local_step f g p [Leaf t] <> Ok r.
Proof. intros P E. unfold local_step in E. start E. neg. Qed.
Lemma correlation_neg p t u r : (p < 0)%Z -> correlation_step p [Leaf t; Leaf u] <> Ok r.
Proof. intros P E. unfold correlation_step in E. start E. neg. Qed.
Lemma cross_neg p k t u r : (p < 0 \/ k <= 0)%Z -> cross_correlation_step p k [Leaf t; Leaf u] <> Ok r.
Proof.
  intros P E. unfold cross_correlation_step in E. start E. destruct P as [P|P].
  - match goal with H : call (Correlation p) _ _ _ = Ok _ |- _ => exact (correlation_neg p _ _ _ P H) end.
  - match goal with H : zeros_buffer _ _ = Ok _ |- _ => unfold zeros_buffer in H; destruct (Z.ltb_spec k 0); [discriminate H|]; apply ok_inj in H; subst end.
    assert (k = 0%Z) as -> by lia. match goal with H : index0 (zeros _ ?d) _ = Ok _ |- _ => destruct d; discriminate H end.
Qed.
Lemma auto_neg p k t r : (p < 0 \/ k <= 0)%Z -> auto_correlation_step p k [Leaf t] <> Ok r.
Proof. intros P E. unfold auto_correlation_step in E. start E. match goal with H : call (CrossCorrelation p k) _ _ _ = Ok _ |- _ => exact (cross_neg p k _ _ _ P H) end. Qed.
Lemma atr_neg p c l h r : (p < 0)%Z -> atr_step p [Leaf c; Leaf l; Leaf h] <> Ok r.
Proof. intros P E. unfold atr_step in E. start E. match goal with H : call (RollingMovingAverage p) _ _ _ = Ok _ |- _ => exact (rma_neg p _ _ P H) end. Qed.
Lemma supertrend_neg p k c l h r : (p < 0)%Z -> supertrend_step p k [Leaf c; Leaf l; Leaf h] <> Ok r.
Proof. intros P E. unfold supertrend_step in E. start E. match goal with H : call (AverageTrueRange p) _ _ _ = Ok _ |- _ => exact (atr_neg p _ _ _ _ P H) end. Qed.
Lemma macd_neg a b c t r : (a < 0 \/ b < 0 \/ c < 0)%Z -> macd_step a b c [Leaf t] <> Ok r.
Proof.
  intros P E. unfold macd_step in E. start E. destruct P as [P|[P|P]].
  - match goal with H : call (ExponentialMovingAverage a) _ _ _ = Ok _ |- _ => exact (ema_neg a _ _ P H) end.
  - match goal with _ : call (ExponentialMovingAverage a) _ _ _ = Ok _, H : call (ExponentialMovingAverage b) _ _ _ = Ok _ |- _ => exact (ema_neg b _ _ P H) end.
  - match goal with H : call (ExponentialMovingAverage c) _ _ _ = Ok _ |- _ => exact (ema_neg c _ _ P H) end.
Qed.
Lemma risk_neg a b p m l h c s r : (p < 0)%Z -> risk_ratio_step a b p m [Leaf l; Leaf h; Leaf c; Leaf s] <> Ok r.
Proof. intros P E. unfold risk_ratio_step in E. start E. match goal with H : call (MovingStandardDeviation p) _ _ _ = Ok _ |- _ => exact (msd_neg p _ _ P H) end. Qed.
Lemma momentum_neg p t r : (p <= 0)%Z -> forward_step (Momentum p) (Leaf t) None <> Ok r.
Proof.
  intros P E. unfold Momentum in E. cbn [forward_step Compose rev app] in E. unfold compose_step in E. cbn [repeat length combine bind compose_loop] in E.
  apply bind_ok in E as ([[o nx] ini] & E & _). apply bind_ok in E as ([[o1 n1] i1] & E1 & E).
  apply ok_inj in E1. injection E1 as <- <- <-. apply bind_ok in E as ([[o2 n2] i2] & E & _). apply bind_ok in E as ([[o3 n3] i3] & E3 & E).
  change (join_step [Identity; Lag p] (Tup [Leaf t; Leaf t]) None = Ok (o3, n3, i3)) in E3. unfold join_step in E3. cbn [repeat length combine bind iter join_loop] in E3.
  change (call Identity (Leaf t) None false) with (@Ok out3 (Leaf t, Tup [], Tup [])) in E3. cbn [bind] in E3.
  apply bind_ok in E3 as ([[a b] c] & E3 & K). apply bind_ok in E3 as ([[a' b'] c'] & E3 & K'). apply bind_ok in E3 as ([[y ny] iy] & E3 & K2).
  exact (lag_zero p _ _ P E3).
Qed.

(** ** A state whose shapes change *)
Inductive grown : val -> val -> Prop :=
| grown_leaf t u : sh t <> sh u -> grown (Leaf t) (Leaf u)
| grown_here x y a b : grown x y -> grown (Tup (x :: a)) (Tup (y :: b))
| grown_later x y a b : grown (Tup a) (Tup b) -> grown (Tup (x :: a)) (Tup (y :: b)).
Lemma grown_rejected s s' : grown s s' -> check_shapes s s' <> Ok tt.
Proof.
  unfold check_shapes. intros G H. apply bind_ok in H as (r & H & _). revert r H.
  induction G as [t u D|x y a b G IH|x y a b G IH]; intros r H.
  - cbn in H. destruct (shape_eqb (sh t) (sh u)) eqn:E; [|discriminate]. now apply shape_eqb_eq in E.
  - apply map_fn_cons2 in H as (u & rs & H & _). exact (IH _ H).
  - apply map_fn_cons2 in H as (u & rs & _ & H & _). exact (IH _ H).
Qed.
Lemma never_intro op zx : leaves zx <> [] -> (forall x, vhas x zx -> wired op x) ->
  (forall x o nx ini, vhas x zx -> forward_step op x None = Ok (o, nx, ini) -> grown ini nx) -> never_streams op zx.
Proof.
  intros L W G n v Hn Gv E. destruct (call op v None true) as [[[outs sf] s0]|e] eqn:C; [exfalso|eauto].
  assert (V : vhas v (wide n zx)) by now split. assert (S := wide_series n v zx L V). assert (V0 : vhas (row 0 v) zx) by now apply (row_vhas n).
  pose proof (library_genuine _ (wired_library _ _ (W _ V0))) as Gop.
  destruct (streamed_start op v None n outs sf s0 Gv I Gop S C)
    as (_ & Gs0 & _ & o0 & s1 & i0 & os & tas & tasf & Hf & E0 & Go & HC & _). cbn in E0. subst i0.
  pose proof (wired_init op (row 0 v) (W _ V0) (proj1 V0) o0 s1 s0) as K. rewrite !call_false_g in K by (try exact I; try apply V0; exact Gs0).
  specialize (K Hf). destruct n as [|n]; [lia|]. unfold rows in HC. cbn [seq map stepsC] in HC. rewrite K in HC. cbn [bind] in HC.
  apply bind_ok in HC as ([] & HC & _). unfold state_check in HC. apply bind_ok in HC as (t1 & _ & HC). apply bind_ok in HC as (t2 & _ & HC).
  apply bind_ok in HC as ([] & _ & HC). exact (grown_rejected _ _ (G _ _ _ _ V0 Hf) HC).
Qed.
Lemma concat_sh t u r n s m s' : sh t = n :: s -> sh u = m :: s' -> concat0 t u = Ok r -> exists s2, sh r = (n + m) :: s2.
Proof.
  unfold concat0. intros -> ->. destruct (shape_eqb _ _); [|discriminate]. intros H. apply bind_ok in H as (d & _ & H). injection H as <-. cbn. eauto.
Qed.
Lemma roll_zero v w b r : zeros_buffer 0 v = Ok b -> roll w b = Ok r -> sh b <> sh r.
Proof.
  intros B R. unfold zeros_buffer in B. cbn in B. apply ok_inj in B. subst b. unfold roll, droplast0, slice0 in R.
  replace (sh (zeros (0 :: sh v) (dtype_of v))) with (0 :: sh v) in * by now destruct (dtype_of v).
  cbn [bind] in R. apply (concat_sh _ _ _ 1 (sh w) 0 (sh v)) in R as (s2 & ->); [discriminate|reflexivity|reflexivity].
Qed.
Lemma shift_zero v w b r : zeros_buffer 0 v = Ok b -> shift w b = Ok r -> sh b <> sh r.
Proof.
  intros B R. unfold zeros_buffer in B. cbn in B. apply ok_inj in B. subst b. unfold shift in R.
  replace (sh (zeros (0 :: sh v) (dtype_of v))) with (0 :: sh v) in * by now destruct (dtype_of v).
  destruct (sh v); [|discriminate]. apply (concat_sh _ _ _ 1 (sh w) 0 []) in R as (s2 & ->); [discriminate|reflexivity|reflexivity].
Qed.
Ltac grow := repeat match goal with |- grown (Tup _) (Tup _) => first [solve [apply grown_here; grow] | apply grown_later] end;
  apply grown_leaf; first [eapply roll_zero; eassumption | eapply shift_zero; eassumption].
Lemma sma_zero t o nx ini : sma_step 0 [Leaf t] = Ok (o, nx, ini) -> grown ini nx.
Proof. intros E. unfold sma_step in E. start E. grow. Qed.
Lemma msd_zero t o nx ini : msd_step 0 [Leaf t] = Ok (o, nx, ini) -> grown ini nx.
Proof. intros E. unfold msd_step in E. start E. grow. Qed.
Lemma bollinger_zero k t o nx ini : bollinger_step 0 k [Leaf t] = Ok (o, nx, ini) -> grown ini nx.
Proof. intros E. unfold bollinger_step in E. start E. match goal with H : call (SimpleMovingAverage 0) _ _ _ = Ok _ |- _ => apply grown_later, grown_here; exact (sma_zero _ _ _ _ H) end. Qed.
Lemma skewness_zero t o nx ini : skewness_step 0 [Leaf t] = Ok (o, nx, ini) -> grown ini nx.
Proof. intros E. unfold skewness_step in E. start E. grow. Qed.
Lemma sharpe_zero t u o nx ini : sharpe_step 0 [Leaf t; Leaf u] = Ok (o, nx, ini) -> grown ini nx.
Proof. intros E. unfold sharpe_step in E. start E. grow. Qed.
Lemma local_zero f g t o nx ini : local_step f g 0 [Leaf t] = Ok (o, nx, ini) -> grown ini nx.
Proof. intros E. unfold local_step in E. start E. grow. Qed.
Lemma correlation_zero t u o nx ini : correlation_step 0 [Leaf t; Leaf u] = Ok (o, nx, ini) -> grown ini nx.
Proof. intros E. unfold correlation_step in E. start E. grow. Qed.
Lemma six_of st ns x : iter st = Ok ns -> @item N st 6 = Ok x -> exists a b c d e f g l, ns = a :: b :: c :: d :: e :: f :: g :: l.
Proof.
  destruct st as [t|l|l| |]; try discriminate; intros E H; cbn in E; try discriminate E; apply ok_inj in E; subst ns; cbn [item] in H;
    (destruct l as [|? [|? [|? [|? [|? [|? [|? ?]]]]]]]; try discriminate H; eauto 10).
Qed.
Lemma risk_zero a b m l h c s o nx ini : risk_ratio_step a b 0 m [Leaf l; Leaf h; Leaf c; Leaf s] = Ok (o, nx, ini) -> grown ini nx.
Proof.
  intros E. unfold risk_ratio_step in E. start E.
  match goal with H : iter ?st = Ok ?ns, K : item ?st 6 = Ok _ |- _ => destruct (six_of _ _ _ H K) as (y1 & y2 & y3 & y4 & y5 & y6 & y7 & rest & ->) end.
  cbn [firstn app]. do 6 apply grown_later. apply grown_here.
  match goal with H : call (MovingStandardDeviation 0) _ _ _ = Ok _ |- _ => exact (msd_zero _ _ _ _ H) end.
Qed.
Lemma call_leaf op t r : call op (Leaf t) None false = Ok r -> forward_step op (Leaf t) None = Ok r.
Proof. intros H. exact H. Qed.
Lemma crossover_zero slow fast t o nx ini : (slow = 0 \/ fast = 0)%Z ->
  forward_step (SimpleMovingAverageCrossover slow fast) (Leaf t) None = Ok (o, nx, ini) -> grown ini nx.
Proof.
  intros P E. unfold SimpleMovingAverageCrossover in E. cbn [forward_step Compose rev app] in E. unfold compose_step in E. cbn [repeat length combine bind compose_loop] in E.
  apply bind_ok in E as ([[oo nx0] ini0] & E & R). destruct oo as [oo|]; [|discriminate R]. apply ok_inj in R; unpair; subst.
  apply bind_ok in E as ([[o1 n1] i1] & E1 & E).
  apply ok_inj in E1. injection E1 as <- <- <-. apply bind_ok in E as ([[o2 n2] i2] & E & R). apply ok_inj in R; unpair; subst.
  apply bind_ok in E as ([[o3 n3] i3] & E3 & E). apply bind_ok in E as ([[o4 n4] i4] & _ & R). apply ok_inj in R; unpair; subst.
  apply grown_later, grown_here.
  match type of E3 with call (Join ?l) _ _ _ = _ => change (join_step l (Tup [Leaf t; Leaf t]) None = Ok (o3, n3, i3)) in E3 end.
  unfold join_step in E3. cbn [repeat length combine bind iter join_loop] in E3.
  apply bind_ok in E3 as ([[a b] c] & E3 & R). apply ok_inj in R; unpair; subst.
  apply bind_ok in E3 as (y & E1 & E3). destruct y as [[y1 y2] y3]. apply bind_ok in E3 as ([[a' b'] c'] & E3 & R). apply ok_inj in R; unpair; subst.
  apply bind_ok in E3 as ([[z1 z2] z3] & E2 & R). apply ok_inj in R; unpair; subst.
  destruct P as [->| ->].
  - apply grown_later, grown_here. exact (sma_zero _ _ _ _ E2).
  - apply grown_here. apply call_leaf in E1. cbn [forward_step Compose rev app] in E1. unfold compose_step in E1. cbn [repeat length combine bind compose_loop] in E1.
    apply bind_ok in E1 as ([[oo nx0] ini0] & E & R). destruct oo as [oo'|]; [|discriminate R]. apply ok_inj in R; unpair; subst.
    apply bind_ok in E as ([[u1 u2] u3] & E1 & E). apply bind_ok in E as ([[w1 w2] w3] & _ & R). apply ok_inj in R; unpair; subst.
    apply grown_here. exact (sma_zero _ _ _ _ E1).
Qed.
Lemma compose_grown op ops x o nx ini : (forall o nx ini, call op x None false = Ok (o, nx, ini) -> grown ini nx) ->
  forward_step (Compose (ops ++ [op])) x None = Ok (o, nx, ini) -> grown ini nx.
Proof.
  intros G E. cbn [forward_step Compose] in E. rewrite rev_app_distr in E. cbn [rev app] in E. unfold compose_step in E.
  cbn [repeat length combine bind compose_loop] in E. apply bind_ok in E as ([[oo n1] i1] & E & R). destruct oo as [oo|]; [|discriminate R].
  apply ok_inj in R; unpair; subst. apply bind_ok in E as ([[y1 y2] y3] & E & K). apply bind_ok in K as ([[z1 z2] z3] & _ & R). apply ok_inj in R; unpair; subst.
  apply grown_here. exact (G _ _ _ E).
Qed.
Lemma volatility_zero p t o nx ini : forward_step (Volatility 0 p) (Leaf t) None = Ok (o, nx, ini) -> grown ini nx.
Proof.
  intros E. unfold Volatility in E. cbn [forward_step Compose rev app] in E. unfold compose_step in E. cbn [repeat length combine bind compose_loop] in E.
  apply bind_ok in E as ([[oo n1] i1] & E & R). destruct oo as [oo|]; [|discriminate R]. apply ok_inj in R; unpair; subst.
  apply bind_ok in E as ([[y1 y2] y3] & E1 & E). apply bind_ok in E as ([[z1 z2] z3] & E & R). apply ok_inj in R; unpair; subst.
  apply bind_ok in E as ([[u1 u2] u3] & E2 & E). apply bind_ok in E as ([[w1 w2] w3] & _ & R). apply ok_inj in R; unpair; subst.
  apply call_leaf in E1. cbn [forward_step LogarithmicReturn app] in E1. unfold return_step in E1. start E1.
  apply grown_later, grown_here. exact (msd_zero _ _ _ _ E2).
Qed.
(** ** Rejections *)
Ltac alone lem := apply rejects_intro; [discriminate|]; intros x r Hx; destruct (vhas_leaf_inv _ _ _ Hx) as (t & -> & _);
  cbn [forward_step app]; apply lem; lia.
Ltac opened := apply rejects_intro; [discriminate|]; intros x r H; destruct (vhas_tup_inv _ _ H) as (vs & -> & K); inv_all; leafy; cbn [forward_step app].
Lemma crossover_neg slow fast t r : (slow < 0 \/ fast < 0)%Z -> forward_step (SimpleMovingAverageCrossover slow fast) (Leaf t) None <> Ok r.
Proof.
  intros P E. unfold SimpleMovingAverageCrossover in E. cbn [forward_step Compose rev app] in E. unfold compose_step in E. cbn [repeat length combine bind compose_loop] in E.
  apply bind_ok in E as ([[o nx] ini] & E & _). apply bind_ok in E as ([[o1 n1] i1] & E1 & E).
  apply ok_inj in E1. injection E1 as <- <- <-. apply bind_ok in E as ([[o2 n2] i2] & E & _). apply bind_ok in E as ([[o3 n3] i3] & E3 & E).
  match type of E3 with call (Join ?l) _ _ _ = _ => change (join_step l (Tup [Leaf t; Leaf t]) None = Ok (o3, n3, i3)) in E3 end.
  unfold join_step in E3. cbn [repeat length combine bind iter join_loop] in E3.
  apply bind_ok in E3 as ([[a b] c] & E3 & _). apply bind_ok in E3 as (y & E1 & E3). destruct y as [[y1 y2] y3]. apply bind_ok in E3 as ([[a' b'] c'] & E3 & _).
  apply bind_ok in E3 as (y & E3 & _). destruct P as [P|P]; [exact (sma_neg _ _ _ P E3)|].
  apply call_leaf in E1. apply (compose_first _ [_]) in E1 as (z & E1). exact (sma_neg _ _ _ P E1).
Qed.
Theorem negative_periods s d :
  (forall p, (p < 0)%Z -> rejects (SimpleMovingAverage p) (Leaf (s, d)) /\ rejects (ExponentialMovingAverage p) (Leaf (s, d)) /\ rejects (RollingMovingAverage p) (Leaf (s, d)) /\
     rejects (MovingStandardDeviation p) (Leaf (s, d)) /\ rejects (Skewness p) (Leaf (s, d)) /\ rejects (LocalMinimum p) (Leaf (s, d)) /\ rejects (LocalMaximum p) (Leaf (s, d)) /\
     (forall k, rejects (BollingerBands p k) (Leaf (s, d)))) /\
  (forall a b, (a < 0 \/ b < 0)%Z -> rejects (SimpleMovingAverageCrossover a b) (Leaf (s, d)) /\ rejects (SimpleMovingAverageCrossoverSignal a b) (Leaf (s, d)) /\
     rejects (Volatility a b) (Leaf (s, d)) /\ rejects (AutoCorrelation a b) (Leaf (s, d))) /\
  (forall a b c, (a < 0 \/ b < 0 \/ c < 0)%Z -> rejects (MovingAverageConvergenceDivergence a b c) (Leaf (s, d)) /\ rejects (MovingAverageConvergenceDivergenceSignal a b c) (Leaf (s, d))).
Proof.
  repeat match goal with |- _ /\ _ => split | |- forall _, _ => intro end.
  - alone sma_neg.
  - alone ema_neg.
  - alone rma_neg.
  - alone msd_neg.
  - alone skewness_neg.
  - alone local_neg.
  - alone local_neg.
  - alone bollinger_neg.
  - alone crossover_neg.
  - apply rejects_intro; [discriminate|]; intros x r K E. destruct (vhas_leaf_inv _ _ _ K) as (t & -> & _).
    apply (compose_first _ [_; _]) in E as (y & E). exact (crossover_neg _ _ _ _ H E).
  - apply rejects_intro; [discriminate|]; intros x r K E. destruct (vhas_leaf_inv _ _ _ K) as (t & -> & _). destruct H as [H|H].
    + unfold Volatility in E. cbn [forward_step Compose rev app] in E. unfold compose_step in E. cbn [repeat length combine bind compose_loop] in E.
      apply bind_ok in E as ([[oo n1] i1] & E & _). apply bind_ok in E as ([[y1 y2] y3] & E1 & E). apply bind_ok in E as ([[z1 z2] z3] & E & _).
      apply bind_ok in E as ([[u1 u2] u3] & E2 & _). apply call_leaf in E1. cbn [forward_step LogarithmicReturn app] in E1. unfold return_step in E1. start E1.
      exact (msd_neg _ _ _ H E2).
    + apply (compose_first _ [_; _]) in E as (y & E). eapply (return_neg tlog b); [|exact E]. lia.
  - apply rejects_intro; [discriminate|]; intros x r K. destruct (vhas_leaf_inv _ _ _ K) as (t & -> & _). cbn [forward_step app]. apply auto_neg. lia.
  - alone macd_neg.
  - apply rejects_intro; [discriminate|]; intros x r K E. destruct (vhas_leaf_inv _ _ _ K) as (t & -> & _).
    apply (compose_first _ [_; _; _]) in E as (y & E). exact (macd_neg _ _ _ _ _ H E).
Qed.
(** Where zero is as bad. *)
Theorem no_periods s d p : (p <= 0)%Z ->
  rejects (Lag p) (Leaf (s, d)) /\ rejects (Return p) (Leaf (s, d)) /\ rejects (LogarithmicReturn p) (Leaf (s, d)) /\ rejects (Momentum p) (Leaf (s, d)) /\
  rejects (RelativeStrengthIndex p) (Leaf (s, d)) /\ (forall q, rejects (Volatility q p) (Leaf (s, d)) /\ rejects (AutoCorrelation q p) (Leaf (s, d))).
Proof.
  intros P. repeat match goal with |- _ /\ _ => split | |- forall _, _ => intro end.
  - alone lag_zero.
  - alone return_neg.
  - alone return_neg.
  - alone momentum_neg.
  - alone rsi_neg.
  - apply rejects_intro; [discriminate|]; intros x r K E. destruct (vhas_leaf_inv _ _ _ K) as (t & -> & _).
    apply (compose_first _ [_; _]) in E as (y & E). eapply (return_neg tlog p); [|exact E]. lia.
  - alone auto_neg.
Qed.
Theorem negative_periods_all p q k k1 k2 m z1 z2 z3 z4 : (p < 0)%Z ->
  rejects (Correlation p) (Tup [Leaf z1; Leaf z2]) /\ rejects (SharpeRatio p) (Tup [Leaf z1; Leaf z2]) /\
  rejects (CrossCorrelation p q) (Tup [Leaf z1; Leaf z2]) /\ rejects (AverageTrueRange p) (Tup [Leaf z1; Leaf z2; Leaf z3]) /\
  rejects (Supertrend p k) (Tup [Leaf z1; Leaf z2; Leaf z3]) /\ rejects (RiskRatioEvaluator k1 k2 p m) (Tup [Leaf z1; Leaf z2; Leaf z3; Leaf z4]).
Proof.
  intros P. destruct z1 as [s1 d1], z2 as [s2 d2], z3 as [s3 d3], z4 as [s4 d4]. repeat match goal with |- _ /\ _ => split end; opened.
  - now apply correlation_neg.
  - now apply sharpe_neg.
  - apply cross_neg. now left.
  - now apply atr_neg.
  - now apply supertrend_neg.
  - now apply risk_neg.
Qed.
Theorem no_lag_cross p q z1 z2 : (q <= 0)%Z -> rejects (CrossCorrelation p q) (Tup [Leaf z1; Leaf z2]).
Proof. intros Q. destruct z1 as [s1 d1], z2 as [s2 d2]. opened. apply cross_neg. now right. Qed.
Ltac single lem := apply never_intro; [discriminate| |]; [intros x K; destruct (vhas_leaf_inv _ _ _ K) as (t & -> & _); eapply wired_step; [constructor|reflexivity]
  |intros x o nx ini K E; destruct (vhas_leaf_inv _ _ _ K) as (t & -> & _); cbn [forward_step app] in E; exact (lem _ _ _ _ E)].
Theorem zero_windows s d :
  never_streams (SimpleMovingAverage 0) (Leaf (s, d)) /\ never_streams (MovingStandardDeviation 0) (Leaf (s, d)) /\ never_streams (Skewness 0) (Leaf (s, d)) /\
  never_streams (LocalMinimum 0) (Leaf (s, d)) /\ never_streams (LocalMaximum 0) (Leaf (s, d)) /\ (forall k, never_streams (BollingerBands 0 k) (Leaf (s, d))) /\
  (forall p, never_streams (Volatility 0 p) (Leaf (s, d))) /\
  (forall a b, (a = 0 \/ b = 0)%Z -> never_streams (SimpleMovingAverageCrossover a b) (Leaf (s, d)) /\ never_streams (SimpleMovingAverageCrossoverSignal a b) (Leaf (s, d))).
Proof.
  repeat match goal with |- _ /\ _ => split | |- forall _, _ => intro end.
  - single sma_zero.
  - single msd_zero.
  - single skewness_zero.
  - single (local_zero frmin imin_list).
  - single (local_zero frmax imax_list).
  - single (bollinger_zero k).
  - apply never_intro; [discriminate| |]; [intros x K; destruct (vhas_leaf_inv _ _ _ K) as (t & -> & _); apply wired_volatility|].
    intros x o nx ini K E; destruct (vhas_leaf_inv _ _ _ K) as (t & -> & _). exact (volatility_zero p _ _ _ _ E).
  - apply never_intro; [discriminate| |]; [intros x K; destruct (vhas_leaf_inv _ _ _ K) as (t & -> & _); apply wired_crossover|].
    intros x o nx ini K E; destruct (vhas_leaf_inv _ _ _ K) as (t & -> & _). exact (crossover_zero _ _ _ _ _ _ H E).
  - apply never_intro; [discriminate| |]; [intros x K; destruct (vhas_leaf_inv _ _ _ K) as (t & -> & _); apply wired_crossover_signal|].
    intros x o nx ini K E; destruct (vhas_leaf_inv _ _ _ K) as (t & -> & _). apply (compose_grown _ [_; _]) in E; [exact E|].
    intros o' nx' ini' E'. exact (crossover_zero _ _ _ _ _ _ H E').
Qed.
Ltac several lem := apply never_intro; [discriminate| |]; [intros x K; destruct (vhas_tup_inv _ _ K) as (vs & -> & K'); inv_all; leafy; eapply wired_step; [constructor|reflexivity]
  |intros x o nx ini K E; destruct (vhas_tup_inv _ _ K) as (vs & -> & K'); inv_all; leafy; cbn [forward_step app] in E; exact (lem _ _ _ _ _ E)].
Theorem zero_windows_all k1 k2 m z1 z2 z3 z4 :
  never_streams (Correlation 0) (Tup [Leaf z1; Leaf z2]) /\ never_streams (SharpeRatio 0) (Tup [Leaf z1; Leaf z2]) /\
  never_streams (RiskRatioEvaluator k1 k2 0 m) (Tup [Leaf z1; Leaf z2; Leaf z3; Leaf z4]).
Proof.
  destruct z1 as [s1 d1], z2 as [s2 d2], z3 as [s3 d3], z4 as [s4 d4]. repeat match goal with |- _ /\ _ => split end.
  - several correlation_zero.
  - several sharpe_zero.
  - apply never_intro; [discriminate| |]; [intros x K; destruct (vhas_tup_inv _ _ K) as (vs & -> & K'); inv_all; leafy; eapply wired_step; [constructor|reflexivity]|].
    intros x o nx ini K E; destruct (vhas_tup_inv _ _ K) as (vs & -> & K'); inv_all; leafy; cbn [forward_step app] in E; exact (risk_zero _ _ _ _ _ _ _ _ _ _ E).
Qed.
End PeriodFacts.
