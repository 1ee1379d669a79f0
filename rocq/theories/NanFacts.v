(** * NanFacts: what one NaN does to the operators (C65). *)
From Coq Require Import List ZArith Bool Lia.
From Verif Require Import Num Py Tensor Streamable Spec Meta Common Finance Series Formulas Positions Nan ImplBasic ImplScalar ImplComp ImplSignal ImplWindow ImplCorr ImplMarket
  MovingFacts ReturnFacts StatFacts SignalFacts MarketFacts OrderFacts Order.
Import ListNotations.

Section Nans.
Context {N : FOps} (A : absorbing N).
Lemma exists_upto {X} (P : X -> Prop) n (l : list X) d : n < length l -> (exists k, k <= n /\ P (nth k l d)) -> Exists P (upto n l).
Proof. intros H (k & Hk & Pk). apply Exists_exists. exists (nth k l d). split; [|exact Pk]. apply (upto_in n l d _ H). now exists k. Qed.
Lemma exists_window {X} (P : X -> Prop) p n (l : list X) d : n < length l -> (exists k, k <= n < k + p /\ P (nth k l d)) -> Exists P (firstn p (upto n l)).
Proof.
  intros H (k & Hk & Pk). apply Exists_exists. exists (nth k l d). split; [|exact Pk].
  replace k with (n - (n - k)) by lia. rewrite <- (nth_upto n (n - k)) by lia. rewrite <- (nth_firstn (n - k) p) by lia. apply nth_In.
  rewrite firstn_length, upto_length by exact H. lia.
Qed.

(** ** Windows *)
Lemma sma_nan p h : p <= length h -> Exists nan (firstn p h) -> nan (sma p h).
Proof. intros L E. unfold sma. destruct (Nat.ltb_spec (length h) p); [lia|]. apply (n_div N A). left. now apply (n_sum N A). Qed.
Lemma fvar_nan l : Exists nan l -> nan (fvar l).
Proof.
  intros E. unfold fvar. apply (n_mean N A). apply Exists_exists in E as (x & I & Hx). apply Exists_exists.
  exists (fmul (fsub x (fmean l)) (fsub x (fmean l))). split; [exact (in_map (fun x => fmul (fsub x (fmean l)) (fsub x (fmean l))) _ _ I)|].
  apply (n_mul N A). left. apply (n_sub N A). now left.
Qed.
Lemma msd_nan p h : p <= length h -> Exists nan (firstn p h) -> nan (msd p h).
Proof. intros L E. unfold msd. destruct (Nat.ltb_spec (length h) p); [lia|]. now apply (n_sqrt N A), fvar_nan. Qed.
Lemma ratio_nan l : Exists nan l -> nan (ratio l).
Proof.
  intros E. assert (S : nan (fsqrt (fvar l))) by now apply (n_sqrt N A), fvar_nan. unfold ratio. rewrite (n_eq N A) by now left.
  apply (n_div N A). now right.
Qed.
Lemma skew_nan l : Exists nan l -> nan (skew_of l).
Proof.
  intros E. assert (S : nan (fsqrt (fvar l))) by now apply (n_sqrt N A), fvar_nan. unfold skew_of. cbv zeta. rewrite (n_eq N A) by now left.
  apply (n_div N A). right. now apply (n_pow N A).
Qed.
Lemma corr_nan u v : Exists nan u \/ Exists nan v -> nan (corr_of u v).
Proof.
  intros E. unfold corr_of. apply (n_div N A). right. apply (n_mul N A). destruct E as [E|E]; [left|right]; now apply (n_sqrt N A), fvar_nan.
Qed.

(** ** Recursive averages *)
Lemma ema_nan p h : p >= 1 -> p <= length h -> Exists nan h -> nan (ema p h).
Proof.
  intros Hp. induction h as [|x r IH]; intros L E; [cbn in L; lia|]. cbn [ema]. destruct (Nat.leb_spec (length (x :: r)) p) as [Q|Q].
  - apply sma_nan; [exact L|]. now rewrite firstn_all2.
  - apply (n_add N A). inversion E as [? ? Hx|? ? Hr]; subst; [left|right]; apply (n_mul N A); left; [exact Hx|]. apply IH; [cbn in Q; lia|exact Hr].
Qed.
Lemma rma_nan p h : p >= 1 -> p <= length h -> Exists nan h -> nan (rma p h).
Proof.
  intros Hp. induction h as [|x r IH]; intros L E; [cbn in L; lia|]. cbn [rma]. destruct (Nat.leb_spec (length (x :: r)) p) as [Q|Q].
  - apply sma_nan; [exact L|]. now rewrite firstn_all2.
  - apply (n_div N A). left. apply (n_add N A). inversion E as [? ? Hx|? ? Hr]; subst; [now right|left]. apply (n_mul N A). left. apply IH; [cbn in Q; lia|exact Hr].
Qed.
Lemma macd_nan slow fast h : slow >= 1 -> slow <= length h -> Exists nan h -> nan (macd slow fast h).
Proof. intros Hs L E. unfold macd. destruct (Nat.ltb_spec (length h) slow); [lia|]. apply (n_sub N A). right. now apply ema_nan. Qed.
Lemma trail_length {X Y} (f : list X -> Y) h : length (trail f h) = length h.
Proof. induction h; cbn; congruence. Qed.
Lemma macd_signal_nan slow fast m h : slow >= 1 -> m >= 1 -> slow + m <= length h + 1 -> Exists nan h -> nan (macd_signal slow fast m h).
Proof.
  intros Hs Hm L E. unfold macd_signal. destruct (Nat.ltb_spec (length h) slow); [lia|]. apply ema_nan; [exact Hm| |].
  - rewrite firstn_length, trail_length. lia.
  - destruct h as [|x r]; [cbn in L; lia|]. cbn [trail]. destruct (length (x :: r) + 1 - slow) as [|k] eqn:Q; [lia|]. cbn [firstn]. left. apply macd_nan; [exact Hs|lia|exact E].
Qed.
Lemma macd_histogram_nan slow fast m h : slow >= 1 -> m >= 1 -> slow + m <= length h + 1 -> Exists nan h -> nan (macd_histogram slow fast m h).
Proof. intros Hs Hm L E. unfold macd_histogram. destruct (Nat.ltb_spec (length h + 1) (slow + m)); [lia|]. apply (n_sub N A). left. apply macd_nan; [exact Hs|lia|exact E]. Qed.

(** ** Position by position *)
Lemma number_numbers xs j k n : k <= n -> n < length xs -> nan (number xs j k) -> nan (nth k (numbers xs j) f0).
Proof. intros H1 H2. rewrite nth_numbers by lia. tauto. Qed.
Theorem windows_nan s p op xs : p >= 1 -> op = SimpleMovingAverage (Z.of_nat p) \/ op = MovingStandardDeviation (Z.of_nat p) ->
  xs <> [] -> ok_rows s (rev xs) ->
  exists out sf s0, call op (tensors s xs) None true = Ok (tensors s out, sf, s0) /\ length out = length xs /\
    forall k n j, k <= n < k + p -> p <= n + 1 -> n < length xs -> j < prod s -> nan (number xs j k) -> nan (number out j n).
Proof.
  intros Hp Hop NE OK.
  assert (T : exists f, streams op (ok_rows s) (tensors s) (fun hs => tensors s (map (each s f) hs)) /\ forall h, p <= length h -> Exists nan (firstn p h) -> nan (f h)).
  { destruct Hop as [->| ->]; [exists (sma p); split; [now apply sma_streams|apply sma_nan]|exists (msd p); split; [now apply msd_streams|apply msd_nan]]. }
  destruct T as (f & St & Hf). destruct (tensor_positions _ _ _ _ St xs NE OK) as (out & sf & s0 & E & L & H). exists out, sf, s0. split; [exact E|]. split; [exact L|].
  intros k n j Hk Hn Hl Hj Hx. rewrite H by assumption. apply Hf; [rewrite upto_length; rewrite ?numbers_length; lia|].
  apply (exists_window nan p n _ f0); [now rewrite numbers_length|]. exists k. split; [exact Hk|]. now apply (number_numbers xs j k n); [lia|..].
Qed.
Theorem averages_nan s p op xs : p >= 1 -> op = ExponentialMovingAverage (Z.of_nat p) \/ op = RollingMovingAverage (Z.of_nat p) ->
  xs <> [] -> ok_rows s (rev xs) ->
  exists out sf s0, call op (tensors s xs) None true = Ok (tensors s out, sf, s0) /\ length out = length xs /\
    forall k n j, k <= n -> p <= n + 1 -> n < length xs -> j < prod s -> nan (number xs j k) -> nan (number out j n).
Proof.
  intros Hp Hop NE OK.
  assert (T : exists f, streams op (ok_rows s) (tensors s) (fun hs => tensors s (map (each s f) hs)) /\ forall h, p <= length h -> Exists nan h -> nan (f h)).
  { destruct Hop as [->| ->]; [exists (ema p); split; [now apply ema_streams|intros; now apply ema_nan]|exists (rma p); split; [now apply rma_streams|intros; now apply rma_nan]]. }
  destruct T as (f & St & Hf). destruct (tensor_positions _ _ _ _ St xs NE OK) as (out & sf & s0 & E & L & H). exists out, sf, s0. split; [exact E|]. split; [exact L|].
  intros k n j Hk Hn Hl Hj Hx. rewrite H by assumption. apply Hf; [rewrite upto_length; rewrite ?numbers_length; lia|].
  apply (exists_upto nan n _ f0); [now rewrite numbers_length|]. exists k. split; [exact Hk|]. now apply (number_numbers xs j k n).
Qed.
Theorem bands_nan s p k xs : p >= 1 -> xs <> [] -> ok_rows s (rev xs) ->
  exists lo mid up sf s0, call (BollingerBands (Z.of_nat p) k) (tensors s xs) None true = Ok (Tup [tensors s lo; tensors s mid; tensors s up], sf, s0) /\
    forall i n j, i <= n < i + p -> p <= n + 1 -> n < length xs -> j < prod s -> nan (number xs j i) ->
      nan (number lo j n) /\ nan (number mid j n) /\ nan (number up j n).
Proof.
  intros Hp NE OK. destruct (bollinger_streams s p k Hp) as (st & H & _).
  eexists _, _, _, _, _. split; [now apply H|]. intros i n j Hi Hn Hl Hj Hx. unfold number. rewrite !nth_map_hists by exact Hl. rewrite !each_nth by exact Hj. rewrite column_upto.
  assert (W : Exists nan (firstn p (upto n (numbers xs j)))).
  { apply (exists_window nan p n _ f0); [now rewrite numbers_length|]. exists i. split; [exact Hi|]. now apply (number_numbers xs j i n); [lia|..]. }
  assert (S : nan (sma p (upto n (numbers xs j)))) by (apply sma_nan; [rewrite upto_length; rewrite ?numbers_length; lia|exact W]).
  split; [apply (n_sub N A); now left|]. split; [exact S|apply (n_add N A); now left].
Qed.
Theorem convergence_nan s slow fast m xs : slow >= 1 -> fast >= 1 -> m >= 1 -> xs <> [] -> ok_rows s (rev xs) ->
  exists a b line signal hist sf s0, call (MovingAverageConvergenceDivergence (Z.of_nat slow) (Z.of_nat fast) (Z.of_nat m)) (tensors s xs) None true =
      Ok (Tup [a; b; tensors s line; tensors s signal; tensors s hist], sf, s0) /\
    forall k n j, k <= n -> n < length xs -> j < prod s -> nan (number xs j k) ->
      (slow <= n + 1 -> nan (number line j n)) /\ (slow + m <= n + 2 -> nan (number signal j n) /\ nan (number hist j n)).
Proof.
  intros Hs Hf Hm NE OK. destruct (macd_streams s slow fast m Hs Hf Hm) as (st & H & _).
  eexists _, _, _, _, _, _, _. split; [now apply H|]. intros k n j Hk Hl Hj Hx. unfold number. rewrite !nth_map_hists by exact Hl. rewrite !each_nth by exact Hj. rewrite column_upto.
  assert (W : Exists nan (upto n (numbers xs j))).
  { apply (exists_upto nan n _ f0); [now rewrite numbers_length|]. exists k. split; [exact Hk|]. now apply (number_numbers xs j k n). }
  assert (Lh : length (upto n (numbers xs j)) = n + 1) by (rewrite upto_length; rewrite ?numbers_length; lia).
  split; [intros; apply macd_nan; try assumption; lia|]. intros. split; [apply macd_signal_nan|apply macd_histogram_nan]; try assumption; lia.
Qed.
Theorem momentum_nan s p xs : p >= 1 -> xs <> [] -> ok_rows s (rev xs) ->
  exists out sf s0, call (Momentum (Z.of_nat p)) (tensors s xs) None true = Ok (tensors s out, sf, s0) /\ length out = length xs /\
    forall n j, p <= n < length xs -> j < prod s -> nan (number xs j n) \/ nan (number xs j (n - p)) -> nan (number out j n).
Proof.
  intros Hp NE OK. destruct (tensor_positions _ _ _ _ (momentum_streams s p Hp) xs NE OK) as (out & sf & s0 & E & L & H). exists out, sf, s0. split; [exact E|]. split; [exact L|].
  intros n j Hn Hj Hx. rewrite H by lia || assumption. unfold momentum. rewrite upto_length by (rewrite numbers_length; lia). destruct (Nat.leb_spec (S n) p); [lia|].
  apply (n_sub N A). unfold now, ago. rewrite !nth_upto by (rewrite ?numbers_length; lia). rewrite !nth_numbers by lia. now rewrite Nat.sub_0_r.
Qed.
Theorem return_nan p xs : p >= 1 -> xs <> [] -> short (rev xs) ->
  exists out sf s0, call (Return (Z.of_nat p)) (scalars xs) None true = Ok (scalars out, sf, s0) /\ length out = length xs /\
    forall n, p <= n < length xs ->
      (nan (nth (n - p) xs f0) -> nan (nth n out f0)) /\ (nan (nth n xs f0) -> feq (nth (n - p) xs f0) f0 = false -> nan (nth n out f0)).
Proof.
  intros Hp NE OK. destruct (scalar_positions _ _ _ _ (ret_streams p Hp (n_zero N A)) xs NE OK) as (out & sf & s0 & E & L & H). exists out, sf, s0. split; [exact E|]. split; [exact L|].
  intros n Hn. rewrite H by lia. unfold ret, change. rewrite upto_length by lia. destruct (Nat.leb_spec (S n) p); [lia|]. cbn [orb].
  unfold now, ago. rewrite !nth_upto by lia. rewrite Nat.sub_0_r. split.
  - intros Hx. rewrite (n_eq N A) by now left. apply (n_sub N A). left. apply (n_div N A). now right.
  - intros Hx ->. apply (n_sub N A). left. apply (n_div N A). now left.
Qed.
Theorem skewness_nan p xs : p >= 1 -> (Z.of_nat p < 2147483648)%Z -> xs <> [] -> short (rev xs) ->
  exists out sf s0, call (Skewness (Z.of_nat p)) (scalars xs) None true = Ok (scalars out, sf, s0) /\ length out = length xs /\
    forall k n, k <= n < k + p -> n < length xs -> nan (nth k xs f0) -> nan (nth n out f0).
Proof.
  intros Hp Hb NE OK. destruct (scalar_positions _ _ _ _ (skewness_streams p Hp Hb) xs NE OK) as (out & sf & s0 & E & L & H). exists out, sf, s0. split; [exact E|]. split; [exact L|].
  intros k n Hk Hn Hx. rewrite H by lia. apply skew_nan. apply (exists_window nan p n _ f0); [exact Hn|]. now exists k.
Qed.
Theorem sharpe_nan p xs : p >= 1 -> (Z.of_nat p < 2147483648)%Z -> xs <> [] -> short (rev xs) ->
  exists out sf s0, call (SharpeRatio (Z.of_nat p)) (pairs xs) None true = Ok (scalars out, sf, s0) /\ length out = length xs /\
    forall k n, k <= n < k + p -> n < length xs -> nan (fst (nth k xs (f0, f0))) \/ nan (snd (nth k xs (f0, f0))) -> nan (nth n out f0).
Proof.
  intros Hp Hb NE OK. destruct (scalar_positions _ _ _ _ (sharpe_streams p Hp Hb) xs NE OK) as (out & sf & s0 & E & L & H). exists out, sf, s0. split; [exact E|]. split; [exact L|].
  intros k n Hk Hn Hx. rewrite H by lia. unfold sharpe. apply ratio_nan. rewrite firstn_map. apply Exists_exists.
  assert (W : Exists (fun x => nan (excess x)) (firstn p (upto n xs))).
  { apply (exists_window (fun x => nan (excess x)) p n _ (f0, f0)); [exact Hn|]. exists k. split; [exact Hk|]. unfold excess. now apply (n_sub N A). }
  apply Exists_exists in W as (x & I & Q). exists (excess x). split; [now apply in_map|exact Q].
Qed.
Theorem correlation_nan s p xs : p >= 1 -> xs <> [] -> two_rows s (rev xs) ->
  exists out sf s0, call (Correlation (Z.of_nat p)) (tensor_pairs s xs) None true = Ok (tensors s out, sf, s0) /\ length out = length xs /\
    forall k n j, k <= n < k + p -> p <= n -> n < length xs -> j < prod s ->
      nan (number (map fst xs) j k) \/ nan (number (map snd xs) j k) -> nan (number out j n).
Proof.
  intros Hp NE OK. destruct (pair_positions _ _ _ _ (corr_streams s p Hp) xs NE OK) as (out & sf & s0 & E & L & H). exists out, sf, s0. split; [exact E|]. split; [exact L|].
  intros k n j Hk Hn Hl Hj Hx. rewrite H by lia || assumption. unfold correlation, column2. rewrite map_length, upto_length by exact Hl. destruct (Nat.leb_spec (S n) p); [lia|].
  apply corr_nan. rewrite !map_map. cbn [fst snd]. rewrite !firstn_map.
  assert (K : forall g : list F * list F -> list F, nan (number (map g xs) j k) -> Exists nan (map (fun x => nth j (g x) f0) (firstn p (upto n xs)))).
  { intros g Q. apply Exists_exists. assert (W : Exists (fun x => nan (nth j (g x) f0)) (firstn p (upto n xs))).
    { apply (exists_window (fun x => nan (nth j (g x) f0)) p n _ ([], [])); [exact Hl|]. exists k. split; [exact Hk|]. unfold number in Q.
      rewrite (nth_indep _ [] (g ([], []))), map_nth in Q by (rewrite map_length; lia). exact Q. }
    apply Exists_exists in W as (x & I & Q'). exists (nth j (g x) f0). split; [exact (in_map (fun x => nth j (g x) f0) _ _ I)|exact Q']. }
  destruct Hx as [Hx|Hx]; [left; now apply (K fst)|right; now apply (K snd)].
Qed.

(** ** Crossings of zero *)
Lemma sgn_nan x : nan x -> sgn x = f_of_Z 1.
Proof. intros H. unfold sgn. now rewrite (n_sign N A). Qed.
Lemma sgn_zeroed x : sgn (zeroed x) = sgn x.
Proof. unfold zeroed. destruct (fisnan x) eqn:E; [|reflexivity]. rewrite (sgn_nan x E). unfold sgn. now rewrite (n_sign0 N A). Qed.
Lemma crossed_nan d x : nan x -> crossed d x = false.
Proof. intros H. unfold crossed. rewrite (sgn_nan (fmul x d)) by (apply (n_mul N A); now left). now rewrite (n_one N A). Qed.
Lemma crossed_zeroed d x : crossed d (zeroed x) = crossed d x.
Proof. unfold zeroed. destruct (fisnan x) eqn:E; [|reflexivity]. rewrite (crossed_nan d x E). unfold crossed. rewrite (n_zero N A). now rewrite andb_comm. Qed.
Lemma zc_dir_zeroed h : zc_dir (map zeroed h) = zc_dir h.
Proof.
  induction h as [|x [|y h] IH]; [reflexivity|exact (sgn_zeroed x)|].
  change (map zeroed (x :: y :: h)) with (zeroed x :: map zeroed (y :: h)).
  change (zc_dir (zeroed x :: map zeroed (y :: h))) with
    (if crossed (zc_dir (map zeroed (y :: h))) (zeroed x) then fneg (zc_dir (map zeroed (y :: h))) else zc_dir (map zeroed (y :: h))).
  rewrite IH, crossed_zeroed. reflexivity.
Qed.
Lemma zc_sig_zeroed h : zc_sig (map zeroed h) = zc_sig h.
Proof.
  destruct h as [|x [|y h]]; [reflexivity..|]. change (map zeroed (x :: y :: h)) with (zeroed x :: map zeroed (y :: h)).
  change (zc_sig (zeroed x :: map zeroed (y :: h))) with (if crossed (zc_dir (map zeroed (y :: h))) (zeroed x) then fneg (zc_dir (map zeroed (y :: h))) else f0).
  rewrite zc_dir_zeroed, crossed_zeroed. reflexivity.
Qed.
Lemma zc_sig_nan x h : nan x -> zc_sig (x :: h) = f0.
Proof. intros H. destruct h; [reflexivity|]. cbn [zc_sig]. now rewrite crossed_nan. Qed.
Lemma hists_members {X} (xs : list X) : forall h g x, In g (hists h xs) -> In x g -> In x xs \/ In x h.
Proof.
  induction xs as [|y xs IH]; intros h g x Hg Hx; [easy|]. cbn [hists] in Hg. destruct Hg as [<-|Hg].
  - destruct Hx as [->|Hx]; [left; now left|now right].
  - destruct (IH _ _ _ Hg Hx) as [H|[->|H]]; [left; now right|left; now left|now right].
Qed.
Lemma each_zeroed s h : shaped s h -> each s (fun c => f_to_Z (zc_sig c)) (map (map zeroed) h) = each s (fun c => f_to_Z (zc_sig c)) h.
Proof.
  intros H. unfold each. apply map_ext_in. intros j Hj. apply in_seq in Hj. f_equal. rewrite <- (zc_sig_zeroed (column f0 j h)). f_equal. unfold column. rewrite !map_map. apply map_ext_in. intros r Hr.
  unfold shaped in H. rewrite Forall_forall in H. rewrite (nth_indep _ f0 (zeroed f0)) by (rewrite map_length, (H r Hr); lia). apply map_nth.
Qed.
Theorem crossings_nan s xs : xs <> [] -> ok_rows s (rev xs) ->
  exists out sf s0 sf' s0', call ZeroCrossoverSignal (tensors s xs) None true = Ok (int_tensors s out, sf, s0) /\
    call ZeroCrossoverSignal (tensors s (map (map zeroed) xs)) None true = Ok (int_tensors s out, sf', s0').
Proof.
  intros NE OK. destruct (zc_streams s) as (st & H & _). destruct OK as [R Sh].
  exists (map (each s (fun c => f_to_Z (zc_sig c))) (hists [] xs)). do 4 eexists. split; [now apply H|].
  rewrite H.
  - do 4 f_equal. change (@nil (list F)) with (map (map zeroed) []). rewrite hists_map, map_map. apply map_ext_in. intros h Hh. apply each_zeroed.
    unfold shaped in *. rewrite Forall_forall in *. intros r Hr. apply R. apply in_rev. rewrite rev_involutive. now destruct (hists_members _ _ _ _ Hh Hr).
  - destruct xs; [easy|discriminate].
  - split; [|unfold short in *; now rewrite rev_length, map_length in *]. unfold shaped in *. rewrite <- map_rev. apply Forall_map. eapply Forall_impl; [|exact R]. cbn. intros r Hr. now rewrite map_length.
Qed.
Theorem crossover_signal_nan s slow fast xs : slow >= 1 -> fast >= 1 -> xs <> [] -> ok_rows s (rev xs) ->
  exists out sf s0, call (SimpleMovingAverageCrossoverSignal (Z.of_nat slow) (Z.of_nat fast)) (tensors s xs) None true = Ok (int_tensors s out, sf, s0) /\
    forall k n j, k <= n < k + slow -> n < length xs -> j < prod s -> nan (number xs j k) -> inumber out j n = 0%Z.
Proof.
  intros Hs Hf NE OK. destruct (int_positions _ _ _ _ (crossover_sig_streams s slow fast Hs Hf) xs NE OK) as (out & sf & s0 & E & L & H). exists out, sf, s0. split; [exact E|].
  intros k n j Hk Hl Hj Hx. rewrite H by assumption. rewrite upto_length by now rewrite numbers_length. destruct (Nat.leb_spec (S n) slow); [reflexivity|].
  assert (Q : nan (crossover_code slow fast (upto n (numbers xs j)))).
  { unfold crossover_code. apply (n_sub N A). right. apply sma_nan; [rewrite upto_length; rewrite ?numbers_length; lia|].
    apply (exists_window nan slow n _ f0); [now rewrite numbers_length|]. exists k. split; [exact Hk|]. now apply (number_numbers xs j k n); [lia|..]. }
  destruct (upto n (numbers xs j)) as [|x h]; [exact (n_cast N A)|]. cbn [trail]. rewrite zc_sig_nan by exact Q. exact (n_cast N A).
Qed.
Theorem convergence_signal_nan s slow fast m xs : slow >= 1 -> fast >= 1 -> m >= 1 -> xs <> [] -> ok_rows s (rev xs) ->
  exists out sf s0, call (MovingAverageConvergenceDivergenceSignal (Z.of_nat slow) (Z.of_nat fast) (Z.of_nat m)) (tensors s xs) None true = Ok (int_tensors s out, sf, s0) /\
    forall k n j, k <= n -> n < length xs -> j < prod s -> nan (number xs j k) -> inumber out j n = 0%Z.
Proof.
  intros Hs Hf Hm NE OK. destruct (int_positions _ _ _ _ (macd_sig_streams s slow fast m Hs Hf Hm) xs NE OK) as (out & sf & s0 & E & L & H). exists out, sf, s0. split; [exact E|].
  intros k n j Hk Hl Hj Hx. rewrite H by assumption. rewrite upto_length by now rewrite numbers_length. destruct (Nat.ltb_spec (S n + 1) (slow + m)); [reflexivity|].
  assert (Q : nan (macd_histogram slow fast m (upto n (numbers xs j)))).
  { apply macd_histogram_nan; try assumption; [rewrite upto_length; rewrite ?numbers_length; lia|].
    apply (exists_upto nan n _ f0); [now rewrite numbers_length|]. exists k. split; [exact Hk|]. now apply (number_numbers xs j k n). }
  destruct (upto n (numbers xs j)) as [|x h]; [exact (n_cast N A)|]. cbn [trail]. rewrite zc_sig_nan by exact Q. exact (n_cast N A).
Qed.

(** ** Running extrema *)
Lemma running_first lt h x : (forall a b, nan a \/ nan b -> lt a b = false) -> nan x -> nan (running lt (h ++ [x])).
Proof.
  intros Hl Hx. induction h as [|y h IH]; [exact Hx|]. cbn [app]. destruct (h ++ [x]) as [|z r] eqn:Q; [now destruct h|].
  change (running lt (y :: z :: r)) with (if lt y (running lt (z :: r)) then y else running lt (z :: r)). now rewrite Hl by now right.
Qed.
Lemma running_number lt h x : (forall a b, nan a \/ nan b -> lt a b = false) -> ~ nan x -> ~ nan (running lt (h ++ [x])).
Proof.
  intros Hl Hx. induction h as [|y h IH]; [exact Hx|]. cbn [app]. destruct (h ++ [x]) as [|z r] eqn:Q; [now destruct h|].
  change (running lt (y :: z :: r)) with (if lt y (running lt (z :: r)) then y else running lt (z :: r)).
  destruct (lt y (running lt (z :: r))) eqn:E; [|exact IH]. intros Hy. now rewrite Hl in E by now left.
Qed.
Lemma upto_first n (xs : list F) : n < length xs -> exists h, upto n xs = h ++ [nth 0 xs f0].
Proof. intros H. destruct xs as [|x xs]; [cbn in H; lia|]. exists (rev (firstn n xs)). reflexivity. Qed.
Theorem extrema_nan usable (O : orderly N usable) op (beats : F -> F -> bool) xs :
  (op = GlobalMinimum /\ beats = flt) \/ (op = GlobalMaximum /\ beats = fgt) -> xs <> [] ->
  exists out sf s0, call op (scalars xs) None true = Ok (scalars out, sf, s0) /\ length out = length xs /\
    forall n, n < length xs ->
      (nan (nth 0 xs f0) -> nan (nth n out f0)) /\
      (~ nan (nth 0 xs f0) -> ~ nan (nth n out f0) /\ (exists i, i <= n /\ nth n out f0 = nth i xs f0) /\
                              forall i, i <= n -> beats (nth i xs f0) (nth n out f0) = false).
Proof.
  intros Hop NE.
  assert (T : streams op (fun _ => True) scalars (fun hs => scalars (map (running beats) hs)) /\ (forall a b, nan a \/ nan b -> beats a b = false) /\
              (forall h, h <> [] -> In (running beats h) h /\ forall x, In x h -> beats x (running beats h) = false)).
  { destruct Hop as [[-> ->]|[-> ->]].
    - split; [exact global_min_streams|]. split; [exact (n_lt N A)|exact (running_min O)].
    - split; [exact global_max_streams|]. split; [intros a b Q; apply (n_lt N A); tauto|exact (running_max O)]. }
  destruct T as (St & Hb & Hr). destruct (scalar_positions _ _ _ _ St xs NE I) as (out & sf & s0 & E & L & H). exists out, sf, s0. split; [exact E|]. split; [exact L|].
  intros n Hn. rewrite H by exact Hn. destruct (Hr _ (upto_ne n xs Hn)) as [H1 H2]. split.
  - intros Hx. destruct (upto_first n xs Hn) as [h ->]. now apply running_first.
  - intros Hx. split; [destruct (upto_first n xs Hn) as [h ->]; now apply running_number|]. split.
    + apply (upto_in n xs f0) in H1 as (i & Hi & Ei); [|exact Hn]. exists i. now rewrite Ei.
    + intros i Hi. apply H2. apply (upto_in n xs f0); [exact Hn|]. now exists i.
Qed.
End Nans.
