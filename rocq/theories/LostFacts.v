(** * LostFacts: what an infinity or an overflow does to the operators (C75). *)
From Coq Require Import Reals Lra List ZArith Bool Lia.
From Coq Require Import Floats.SpecFloat.
From Verif Require Import Num Py Tensor Streamable Spec Meta Common Finance Series Formulas Positions Nan Lost ImplBasic ImplScalar ImplComp ImplSignal ImplWindow ImplCorr ImplMarket
  MovingFacts ReturnFacts StatFacts SignalFacts MarketFacts B32 ER RealFacts NanFacts.
Import ListNotations.

(** ** The two arithmetics *)
Lemma sf_add_lost x y : beyond32 x \/ beyond32 y -> beyond32 (SFadd prec32 emax32 x y).
Proof. intros [H|H]; destruct x as [[]|[]| |[]], y as [[]|[]| |[]]; cbn in *; tauto. Qed.
Lemma sf_sum_lost l : forall a, beyond32 a \/ Exists beyond32 l -> beyond32 (fold_left (SFadd prec32 emax32) l a).
Proof.
  induction l as [|x l IH]; intros a H; cbn [fold_left]; [destruct H as [H|H]; [exact H|inversion H]|]. apply IH.
  destruct H as [H|H]; [left; apply sf_add_lost; now left|]. inversion H; subst; [left; apply sf_add_lost; now right|now right].
Qed.
Lemma sf_div_lost x y : beyond32 x -> beyond32 (SFdiv prec32 emax32 x y).
Proof. destruct x as [[]|[]| |[]], y as [[]|[]| |[]]; cbn; tauto. Qed.
Lemma b32_spreading log32 : spreading (B32 log32) beyond32.
Proof.
  constructor.
  - exact sf_add_lost.
  - intros x y H. change (beyond32 (SFsub prec32 emax32 x y)). destruct H as [H|H]; destruct x as [[]|[]| |[]], y as [[]|[]| |[]]; cbn in *; tauto.
  - intros x y H. change (beyond32 (SFmul prec32 emax32 x y)). destruct H as [H|H]; destruct x as [[]|[]| |[]], y as [[]|[]| |[]]; cbn in *; tauto.
  - exact sf_div_lost.
  - intros x H. change (beyond32 (SFsqrt prec32 emax32 x)). now destruct x as [[]|[]| |[]].
  - intros x H. change (beyond32 (b32_pow x 3)). now destruct x as [[]|[]| |[]].
  - intros l H. change (beyond32 (b32_sum l)). apply sf_sum_lost. now right.
  - intros l H. change (beyond32 (b32_mean l)). apply sf_div_lost, sf_sum_lost. now right.
  - intros x H. change (SFeqb x (S754_zero false) = false). now destruct x as [[]|[]| |[]].
  - reflexivity.
Qed.
Lemma inf_of_lost r : beyond_reals (inf_of r).
Proof. unfold inf_of. destruct (Rlt_dec 0 r); [exact I|]. destruct (Rlt_dec r 0); exact I. Qed.
Lemma e_add_lost x y : beyond_reals x \/ beyond_reals y -> beyond_reals (e_add x y).
Proof. intros [H|H]; destruct x, y; cbn in *; tauto. Qed.
Lemma e_sum_lost l : forall a, beyond_reals a \/ Exists beyond_reals l -> beyond_reals (fold_left e_add l a).
Proof.
  induction l as [|x l IH]; intros a H; cbn [fold_left]; [destruct H as [H|H]; [exact H|inversion H]|]. apply IH.
  destruct H as [H|H]; [left; apply e_add_lost; now left|]. inversion H; subst; [left; apply e_add_lost; now right|now right].
Qed.
Lemma e_div_lost x y : beyond_reals x -> beyond_reals (e_div x y).
Proof. destruct x, y; cbn; intros H; try tauto; destruct (Rlt_dec _ _); exact I. Qed.
Lemma er_spreading : spreading ER beyond_reals.
Proof.
  constructor.
  - exact e_add_lost.
  - intros x y H. change (beyond_reals (e_sub x y)). apply e_add_lost. destruct H as [H|H]; [now left|right; now destruct y].
  - intros x y H. change (beyond_reals (e_mul x y)). destruct H as [H|H]; destruct x, y; cbn in *; try tauto; apply inf_of_lost.
  - exact e_div_lost.
  - intros x H. change (beyond_reals (e_sqrt x)). now destruct x.
  - intros x H. change (beyond_reals (e_pow x 3)). now destruct x.
  - intros l H. change (beyond_reals (e_sum l)). apply e_sum_lost. now right.
  - intros l H. change (beyond_reals (e_mean l)). apply e_div_lost, e_sum_lost. now right.
  - intros x H. change (e_eq x (Fin 0) = false). now destruct x.
  - change (e_eq (Fin 0) (Fin 0) = true). unfold e_eq, Reqb. destruct (Req_EM_T 0 0); [reflexivity|lra].
Qed.

Lemma combine_maps {X Y Z} (f : X -> Y) (g : X -> Z) l : combine (map f l) (map g l) = map (fun x => (f x, g x)) l.
Proof. induction l; cbn; congruence. Qed.

Section Lost.
Context {N : FOps} {lost : F -> Prop} (A : spreading N lost).
(** ** Windows *)
Lemma sma_lost p h : p <= length h -> Exists lost (firstn p h) -> lost (sma p h).
Proof. intros L E. unfold sma. destruct (Nat.ltb_spec (length h) p); [lia|]. apply (l_div N lost A). now apply (l_sum N lost A). Qed.
Lemma fvar_lost l : Exists lost l -> lost (fvar l).
Proof.
  intros E. unfold fvar. apply (l_mean N lost A). apply Exists_exists in E as (x & I & Hx). apply Exists_exists.
  exists (fmul (fsub x (fmean l)) (fsub x (fmean l))). split; [exact (in_map (fun x => fmul (fsub x (fmean l)) (fsub x (fmean l))) _ _ I)|].
  apply (l_mul N lost A). left. apply (l_sub N lost A). now left.
Qed.
Lemma msd_lost p h : p <= length h -> Exists lost (firstn p h) -> lost (msd p h).
Proof. intros L E. unfold msd. destruct (Nat.ltb_spec (length h) p); [lia|]. now apply (l_sqrt N lost A), fvar_lost. Qed.
Lemma ratio_lost l : Exists lost l -> lost (ratio l).
Proof.
  intros E. assert (S : lost (fsqrt (fvar l))) by now apply (l_sqrt N lost A), fvar_lost. unfold ratio. rewrite (l_nonzero N lost A) by exact S.
  apply (l_div N lost A). now apply (l_mean N lost A).
Qed.
Lemma skew_lost l : Exists lost l -> lost (skew_of l).
Proof.
  intros E. assert (S : lost (fsqrt (fvar l))) by now apply (l_sqrt N lost A), fvar_lost. unfold skew_of. cbv zeta. rewrite (l_nonzero N lost A) by exact S.
  apply (l_div N lost A), (l_sub N lost A). right. now apply (l_cube N lost A), (l_mean N lost A).
Qed.
Lemma corr_lost {X} (f g : X -> F) (l : list X) : Exists (fun x => lost (f x) \/ lost (g x)) l -> lost (corr_of (map f l) (map g l)).
Proof.
  intros E. unfold corr_of. apply (l_div N lost A). unfold covariance. apply (l_mean N lost A). apply Exists_exists in E as (x & I & Hx). apply Exists_exists.
  set (m1 := fmean (map f l)). set (m2 := fmean (map g l)). exists (fmul (fsub (f x) m1) (fsub (g x) m2)). split.
  - rewrite combine_maps, map_map. exact (in_map (fun x => fmul (fsub (f x) m1) (fsub (g x) m2)) _ _ I).
  - apply (l_mul N lost A). destruct Hx as [Hx|Hx]; [left|right]; apply (l_sub N lost A); now left.
Qed.

(** ** Recursive averages *)
Lemma ema_stays p x r : p <= length r -> lost (ema p r) -> lost (ema p (x :: r)).
Proof.
  intros L H. cbn [ema]. destruct (Nat.leb_spec (length (x :: r)) p) as [Q|Q]; [cbn in Q; lia|].
  apply (l_add N lost A). right. apply (l_mul N lost A). now left.
Qed.
Lemma rma_stays p x r : p <= length r -> lost (rma p r) -> lost (rma p (x :: r)).
Proof.
  intros L H. cbn [rma]. destruct (Nat.leb_spec (length (x :: r)) p) as [Q|Q]; [cbn in Q; lia|].
  apply (l_div N lost A), (l_add N lost A). left. apply (l_mul N lost A). now left.
Qed.
Lemma ema_lost p h : p >= 1 -> p <= length h -> Exists lost h -> lost (ema p h).
Proof.
  intros Hp. induction h as [|x r IH]; intros L E; [cbn in L; lia|]. cbn [ema]. destruct (Nat.leb_spec (length (x :: r)) p) as [Q|Q].
  - apply sma_lost; [exact L|]. now rewrite firstn_all2.
  - apply (l_add N lost A). inversion E as [? ? Hx|? ? Hr]; subst; [left|right]; apply (l_mul N lost A); left; [exact Hx|]. apply IH; [cbn in Q; lia|exact Hr].
Qed.
Lemma rma_lost p h : p >= 1 -> p <= length h -> Exists lost h -> lost (rma p h).
Proof.
  intros Hp. induction h as [|x r IH]; intros L E; [cbn in L; lia|]. cbn [rma]. destruct (Nat.leb_spec (length (x :: r)) p) as [Q|Q].
  - apply sma_lost; [exact L|]. now rewrite firstn_all2.
  - apply (l_div N lost A). apply (l_add N lost A). inversion E as [? ? Hx|? ? Hr]; subst; [now right|left]. apply (l_mul N lost A). left. apply IH; [cbn in Q; lia|exact Hr].
Qed.
Lemma macd_lost slow fast h : slow >= 1 -> slow <= length h -> Exists lost h -> lost (macd slow fast h).
Proof. intros Hs L E. unfold macd. destruct (Nat.ltb_spec (length h) slow); [lia|]. apply (l_sub N lost A). right. now apply ema_lost. Qed.
Lemma macd_signal_lost slow fast m h : slow >= 1 -> m >= 1 -> slow + m <= length h + 1 -> Exists lost h -> lost (macd_signal slow fast m h).
Proof.
  intros Hs Hm L E. unfold macd_signal. destruct (Nat.ltb_spec (length h) slow); [lia|]. apply ema_lost; [exact Hm| |].
  - rewrite firstn_length, trail_length. lia.
  - destruct h as [|x r]; [cbn in L; lia|]. cbn [trail]. destruct (length (x :: r) + 1 - slow) as [|k] eqn:Q; [lia|]. cbn [firstn]. left. apply macd_lost; [exact Hs|lia|exact E].
Qed.
Lemma macd_histogram_lost slow fast m h : slow >= 1 -> m >= 1 -> slow + m <= length h + 1 -> Exists lost h -> lost (macd_histogram slow fast m h).
Proof. intros Hs Hm L E. unfold macd_histogram. destruct (Nat.ltb_spec (length h + 1) (slow + m)); [lia|]. apply (l_sub N lost A). left. apply macd_lost; [exact Hs|lia|exact E]. Qed.

(** ** Position by position *)
Lemma numbers_lost xs j k n : k <= n -> n < length xs -> lost (number xs j k) -> lost (nth k (numbers xs j) f0).
Proof. intros H1 H2. rewrite nth_numbers by lia. tauto. Qed.
Theorem windows_lost s p op xs : p >= 1 -> op = SimpleMovingAverage (Z.of_nat p) \/ op = MovingStandardDeviation (Z.of_nat p) ->
  xs <> [] -> ok_rows s (rev xs) ->
  exists out sf s0, call op (tensors s xs) None true = Ok (tensors s out, sf, s0) /\ length out = length xs /\
    forall k n j, k <= n < k + p -> p <= n + 1 -> n < length xs -> j < prod s -> lost (number xs j k) -> lost (number out j n).
Proof.
  intros Hp Hop NE OK.
  assert (T : exists f, streams op (ok_rows s) (tensors s) (fun hs => tensors s (map (each s f) hs)) /\ forall h, p <= length h -> Exists lost (firstn p h) -> lost (f h)).
  { destruct Hop as [->| ->]; [exists (sma p); split; [now apply sma_streams|apply sma_lost]|exists (msd p); split; [now apply msd_streams|apply msd_lost]]. }
  destruct T as (f & St & Hf). destruct (tensor_positions _ _ _ _ St xs NE OK) as (out & sf & s0 & E & L & H). exists out, sf, s0. split; [exact E|]. split; [exact L|].
  intros k n j Hk Hn Hl Hj Hx. rewrite H by assumption. apply Hf; [rewrite upto_length; rewrite ?numbers_length; lia|].
  apply (exists_window lost p n _ f0); [now rewrite numbers_length|]. exists k. split; [exact Hk|]. now apply (numbers_lost xs j k n); [lia|..].
Qed.
Theorem bands_lost s p k xs : p >= 1 -> xs <> [] -> ok_rows s (rev xs) ->
  exists lo mid up sf s0, call (BollingerBands (Z.of_nat p) k) (tensors s xs) None true = Ok (Tup [tensors s lo; tensors s mid; tensors s up], sf, s0) /\
    forall i n j, i <= n < i + p -> p <= n + 1 -> n < length xs -> j < prod s -> lost (number xs j i) ->
      lost (number lo j n) /\ lost (number mid j n) /\ lost (number up j n).
Proof.
  intros Hp NE OK. destruct (bollinger_streams s p k Hp) as (st & H & _).
  eexists _, _, _, _, _. split; [now apply H|]. intros i n j Hi Hn Hl Hj Hx. unfold number. rewrite !nth_map_hists by exact Hl. rewrite !each_nth by exact Hj. rewrite column_upto.
  assert (W : Exists lost (firstn p (upto n (numbers xs j)))).
  { apply (exists_window lost p n _ f0); [now rewrite numbers_length|]. exists i. split; [exact Hi|]. now apply (numbers_lost xs j i n); [lia|..]. }
  assert (S : lost (sma p (upto n (numbers xs j)))) by (apply sma_lost; [rewrite upto_length; rewrite ?numbers_length; lia|exact W]).
  split; [apply (l_sub N lost A); now left|]. split; [exact S|apply (l_add N lost A); now left].
Qed.
Lemma stays_on (f : list F -> F) p (h : list F) n : (forall x r, p <= length r -> lost (f r) -> lost (f (x :: r))) -> n < length h ->
  forall k, k <= n -> p <= k + 1 -> lost (f (upto k h)) -> lost (f (upto n h)).
Proof.
  intros Hf Hn k Hk Hp H. assert (forall m, k <= m <= n -> lost (f (upto m h))) as G; [|now apply G].
  induction m as [|m IH]; intros Hm; [now replace k with 0 in H by lia|]. destruct (Nat.eq_dec k (S m)) as [->|Q]; [exact H|].
  assert (U : upto (S m) h = nth (S m) h f0 :: upto m h).
  { apply (nth_ext _ _ f0 f0); [cbn [length]; rewrite !upto_length by lia; reflexivity|]. intros i Hi. rewrite upto_length in Hi by lia. rewrite nth_upto by lia.
    destruct i as [|i]; [now rewrite Nat.sub_0_r|]. cbn [nth]. rewrite nth_upto by lia. f_equal; lia. }
  rewrite U. apply Hf; [rewrite upto_length by lia; lia|apply IH; lia].
Qed.
Theorem averages_lost s p op xs : p >= 1 -> op = ExponentialMovingAverage (Z.of_nat p) \/ op = RollingMovingAverage (Z.of_nat p) ->
  xs <> [] -> ok_rows s (rev xs) ->
  exists out sf s0, call op (tensors s xs) None true = Ok (tensors s out, sf, s0) /\ length out = length xs /\
    forall k n j, k <= n -> p <= n + 1 -> n < length xs -> j < prod s ->
      (lost (number xs j k) -> lost (number out j n)) /\ (p <= k + 1 -> lost (number out j k) -> lost (number out j n)).
Proof.
  intros Hp Hop NE OK.
  assert (T : exists f, streams op (ok_rows s) (tensors s) (fun hs => tensors s (map (each s f) hs)) /\ (forall h, p <= length h -> Exists lost h -> lost (f h)) /\
    forall x r, p <= length r -> lost (f r) -> lost (f (x :: r))).
  { destruct Hop as [->| ->]; [exists (ema p); split; [now apply ema_streams|split; [intros; now apply ema_lost|apply ema_stays]]|exists (rma p); split; [now apply rma_streams|split; [intros; now apply rma_lost|apply rma_stays]]]. }
  destruct T as (f & St & Hf & Hg). destruct (tensor_positions _ _ _ _ St xs NE OK) as (out & sf & s0 & E & L & H). exists out, sf, s0. split; [exact E|]. split; [exact L|].
  intros k n j Hk Hn Hl Hj. split; [intros Hx|intros Hk1 Hx; rewrite H in Hx by lia || assumption]; rewrite H by assumption.
  - apply Hf; [rewrite upto_length; rewrite ?numbers_length; lia|]. apply (exists_upto lost n _ f0); [now rewrite numbers_length|]. exists k. split; [exact Hk|]. now apply (numbers_lost xs j k n).
  - apply (stays_on f p _ n Hg) with (k := k); try assumption. now rewrite numbers_length.
Qed.
Theorem convergence_lost s slow fast m xs : slow >= 1 -> fast >= 1 -> m >= 1 -> xs <> [] -> ok_rows s (rev xs) ->
  exists a b line signal hist sf s0, call (MovingAverageConvergenceDivergence (Z.of_nat slow) (Z.of_nat fast) (Z.of_nat m)) (tensors s xs) None true =
      Ok (Tup [a; b; tensors s line; tensors s signal; tensors s hist], sf, s0) /\
    forall k n j, k <= n -> n < length xs -> j < prod s -> lost (number xs j k) ->
      (slow <= n + 1 -> lost (number line j n)) /\ (slow + m <= n + 2 -> lost (number signal j n) /\ lost (number hist j n)).
Proof.
  intros Hs Hf Hm NE OK. destruct (macd_streams s slow fast m Hs Hf Hm) as (st & H & _).
  eexists _, _, _, _, _, _, _. split; [now apply H|]. intros k n j Hk Hl Hj Hx. unfold number. rewrite !nth_map_hists by exact Hl. rewrite !each_nth by exact Hj. rewrite column_upto.
  assert (W : Exists lost (upto n (numbers xs j))).
  { apply (exists_upto lost n _ f0); [now rewrite numbers_length|]. exists k. split; [exact Hk|]. now apply (numbers_lost xs j k n). }
  assert (Lh : length (upto n (numbers xs j)) = n + 1) by (rewrite upto_length; rewrite ?numbers_length; lia).
  split; [intros; apply macd_lost; try assumption; lia|]. intros. split; [apply macd_signal_lost|apply macd_histogram_lost]; try assumption; lia.
Qed.
Theorem momentum_lost s p xs : p >= 1 -> xs <> [] -> ok_rows s (rev xs) ->
  exists out sf s0, call (Momentum (Z.of_nat p)) (tensors s xs) None true = Ok (tensors s out, sf, s0) /\ length out = length xs /\
    forall n j, p <= n < length xs -> j < prod s -> lost (number xs j n) \/ lost (number xs j (n - p)) -> lost (number out j n).
Proof.
  intros Hp NE OK. destruct (tensor_positions _ _ _ _ (momentum_streams s p Hp) xs NE OK) as (out & sf & s0 & E & L & H). exists out, sf, s0. split; [exact E|]. split; [exact L|].
  intros n j Hn Hj Hx. rewrite H by lia || assumption. unfold momentum. rewrite upto_length by (rewrite numbers_length; lia). destruct (Nat.leb_spec (S n) p); [lia|].
  apply (l_sub N lost A). unfold now, ago. rewrite !nth_upto by (rewrite ?numbers_length; lia). rewrite !nth_numbers by lia. now rewrite Nat.sub_0_r.
Qed.
Theorem return_lost p xs : p >= 1 -> xs <> [] -> short (rev xs) ->
  exists out sf s0, call (Return (Z.of_nat p)) (scalars xs) None true = Ok (scalars out, sf, s0) /\ length out = length xs /\
    forall n, p <= n < length xs -> lost (nth n xs f0) -> feq (nth (n - p) xs f0) f0 = false -> lost (nth n out f0).
Proof.
  intros Hp NE OK. destruct (scalar_positions _ _ _ _ (ret_streams p Hp (l_zero N lost A)) xs NE OK) as (out & sf & s0 & E & L & H). exists out, sf, s0. split; [exact E|]. split; [exact L|].
  intros n Hn Hx Hz. rewrite H by lia. unfold ret, change. rewrite upto_length by lia. destruct (Nat.leb_spec (S n) p); [lia|]. cbn [orb].
  unfold now, ago. rewrite !nth_upto by lia. rewrite Nat.sub_0_r, Hz. apply (l_sub N lost A). left. now apply (l_div N lost A).
Qed.
Theorem skewness_lost p xs : p >= 1 -> (Z.of_nat p < 2147483648)%Z -> xs <> [] -> short (rev xs) ->
  exists out sf s0, call (Skewness (Z.of_nat p)) (scalars xs) None true = Ok (scalars out, sf, s0) /\ length out = length xs /\
    forall k n, k <= n < k + p -> n < length xs -> lost (nth k xs f0) -> lost (nth n out f0).
Proof.
  intros Hp Hb NE OK. destruct (scalar_positions _ _ _ _ (skewness_streams p Hp Hb) xs NE OK) as (out & sf & s0 & E & L & H). exists out, sf, s0. split; [exact E|]. split; [exact L|].
  intros k n Hk Hn Hx. rewrite H by lia. apply skew_lost. apply (exists_window lost p n _ f0); [exact Hn|]. now exists k.
Qed.
Theorem sharpe_lost p xs : p >= 1 -> (Z.of_nat p < 2147483648)%Z -> xs <> [] -> short (rev xs) ->
  exists out sf s0, call (SharpeRatio (Z.of_nat p)) (pairs xs) None true = Ok (scalars out, sf, s0) /\ length out = length xs /\
    forall k n, k <= n < k + p -> n < length xs -> lost (fst (nth k xs (f0, f0))) \/ lost (snd (nth k xs (f0, f0))) -> lost (nth n out f0).
Proof.
  intros Hp Hb NE OK. destruct (scalar_positions _ _ _ _ (sharpe_streams p Hp Hb) xs NE OK) as (out & sf & s0 & E & L & H). exists out, sf, s0. split; [exact E|]. split; [exact L|].
  intros k n Hk Hn Hx. rewrite H by lia. unfold sharpe. apply ratio_lost. rewrite firstn_map. apply Exists_exists.
  assert (W : Exists (fun x => lost (excess x)) (firstn p (upto n xs))).
  { apply (exists_window (fun x => lost (excess x)) p n _ (f0, f0)); [exact Hn|]. exists k. split; [exact Hk|]. unfold excess. now apply (l_sub N lost A). }
  apply Exists_exists in W as (x & I & Q). exists (excess x). split; [now apply in_map|exact Q].
Qed.
Theorem correlation_lost s p xs : p >= 1 -> xs <> [] -> two_rows s (rev xs) ->
  exists out sf s0, call (Correlation (Z.of_nat p)) (tensor_pairs s xs) None true = Ok (tensors s out, sf, s0) /\ length out = length xs /\
    forall k n j, k <= n < k + p -> p <= n -> n < length xs -> j < prod s ->
      lost (number (map fst xs) j k) \/ lost (number (map snd xs) j k) -> lost (number out j n).
Proof.
  intros Hp NE OK. destruct (pair_positions _ _ _ _ (corr_streams s p Hp) xs NE OK) as (out & sf & s0 & E & L & H). exists out, sf, s0. split; [exact E|]. split; [exact L|].
  intros k n j Hk Hn Hl Hj Hx. rewrite H by lia || assumption. unfold correlation, column2. rewrite map_length, upto_length by exact Hl. destruct (Nat.leb_spec (S n) p); [lia|].
  rewrite !map_map. cbn [fst snd]. rewrite !firstn_map. apply (corr_lost (fun x => nth j (fst x) f0) (fun x => nth j (snd x) f0)).
  apply (exists_window (fun x => lost (nth j (fst x) f0) \/ lost (nth j (snd x) f0)) p n _ ([], [])); [exact Hl|]. exists k. split; [exact Hk|].
  unfold number in Hx. rewrite (nth_indep _ [] (fst ([] : list F, [] : list F))), map_nth in Hx by (rewrite map_length; lia).
  rewrite (nth_indep (map snd xs) [] (snd ([] : list F, [] : list F))), map_nth in Hx by (rewrite map_length; lia). exact Hx.
Qed.
End Lost.

(** ** Overflow in single precision *)
Section Overflow.
Variable log32 : spec_float -> spec_float.
Local Instance N32 : FOps := B32 log32.
Definition max32 : spec_float := S754_finite false 16777215 104.
Theorem overflow_sma : exists out sf s0, call (SimpleMovingAverage 2) (tensors [1] [[max32]; [max32]]) None true = Ok (tensors [1] out, sf, s0) /\
  number out 0 1 = S754_infinity false.
Proof.
  assert (OK : ok_rows [1] (rev [[max32]; [max32]])) by (split; [repeat constructor|unfold short; cbn; lia]).
  destruct (tensor_positions _ _ _ _ (sma_streams [1] 2 ltac:(lia)) [[max32]; [max32]] ltac:(discriminate) OK) as (out & sf & s0 & E & L & H).
  exists out, sf, s0. split; [exact E|]. rewrite H by (cbn; lia). vm_compute. reflexivity.
Qed.
Theorem overflow_for_good op (ys : list (list F)) : op = ExponentialMovingAverage 2 \/ op = RollingMovingAverage 2 -> ok_rows [1] (rev ([max32] :: [max32] :: ys)) ->
  exists out sf s0, call op (tensors [1] ([max32] :: [max32] :: ys)) None true = Ok (tensors [1] out, sf, s0) /\ length out = length ys + 2 /\
    forall n, 1 <= n < length ys + 2 -> beyond32 (number out 0 n).
Proof.
  intros Hop OK.
  assert (T : exists f, streams op (ok_rows [1]) (tensors [1]) (fun hs => tensors [1] (map (each [1] f) hs)) /\ beyond32 (f [max32; max32]) /\
    forall x r, 2 <= length r -> beyond32 (f r) -> beyond32 (f (x :: r))).
  { destruct Hop as [->| ->].
    - exists (ema 2). split; [apply (ema_streams [1] 2); lia|]. split; [vm_compute; exact I|exact (ema_stays (b32_spreading log32) 2)].
    - exists (rma 2). split; [apply (rma_streams [1] 2); lia|]. split; [vm_compute; exact I|exact (rma_stays (b32_spreading log32) 2)]. }
  destruct T as (f & St & Hf & Hg). destruct (tensor_positions _ _ _ _ St ([max32] :: [max32] :: ys) ltac:(discriminate) OK) as (out & sf & s0 & E & L & H). exists out, sf, s0. split; [exact E|].
  split; [rewrite L; cbn [length]; now rewrite Nat.add_comm|].
  assert (Ln : length (numbers ([max32] :: [max32] :: ys) 0) = length ys + 2) by (rewrite numbers_length; cbn [length]; now rewrite Nat.add_comm).
  intros n Hn. rewrite H; [|rewrite numbers_length in Ln; rewrite Ln; lia|exact (le_n 1)].
  refine (stays_on (lost := beyond32) f 2 (numbers ([max32] :: [max32] :: ys) 0) n Hg _ 1 _ _ Hf); [rewrite Ln|..]; lia.
Qed.
End Overflow.
