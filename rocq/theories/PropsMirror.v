(** * PropsMirror: property C63 — indicators of a mirrored series.
    Exact arithmetic (instance [ER]) except for the zero crossings.  Vocabulary: Mirror.v ([mirror c x] = c - x, [mirror_candle]:
    prices negated, high and low exchanged; [mirrors op op' ok inp T U]: on the series changed by [T], [op'] gives the outputs of
    [op] changed by [U]), Linear.v, MirrorSign.v ([opposite s xs ys]: number by number on the other side of 0). *)
From Coq Require Import Reals Lra Lia List ZArith Bool.
From Verif Require Import Num Py Tensor Streamable Meta Common Finance Series Formulas Positions Order B32 ImplBasic ImplScalar ImplComp ImplWindow ImplCorr ImplMarket
  ImplSignal ER RealMarket MovingFacts StatReal SignalFacts Linear Mirror RealMirror MirrorSign SuperMirror.
Import ListNotations.
Local Open Scope R_scope.

(** The minimum of the mirrored series is the mirror image of the maximum, and conversely. *)
Theorem C63_extrema p c : (1 <= p)%nat -> (Z.of_nat p < 2147483648)%Z ->
  mirrors GlobalMaximum GlobalMinimum (fun _ => True) reals (mirror c) (e_mirror c) /\
  mirrors GlobalMinimum GlobalMaximum (fun _ => True) reals (mirror c) (e_mirror c) /\
  mirrors (LocalMaximum (Z.of_nat p)) (LocalMinimum (Z.of_nat p)) short reals (mirror c) (e_mirror c) /\
  mirrors (LocalMinimum (Z.of_nat p)) (LocalMaximum (Z.of_nat p)) short reals (mirror c) (e_mirror c).
Proof. exact (extrema_mirror p c). Qed.
Print Assumptions C63_extrema.
(** The strength index of the mirrored series is 100 minus that of the series (NaN where that is NaN), 0 for both while warming up. *)
Theorem C63_relative_strength p c xs : (1 <= p)%nat -> xs <> [] -> short xs ->
  exists o o' s i s' i',
    call (RelativeStrengthIndex (Z.of_nat p)) (reals xs) None true = Ok (@scalars ER o, s, i) /\
    call (RelativeStrengthIndex (Z.of_nat p)) (reals (map (mirror c) xs)) None true = Ok (@scalars ER o', s', i') /\
    length o = length xs /\ length o' = length xs /\
    (forall n, (n < p)%nat -> (n < length xs)%nat -> nth n o NaN = Fin 0 /\ nth n o' NaN = Fin 0) /\
    (forall n, (p <= n)%nat -> (n < length xs)%nat -> nth n o' NaN = e_sub (Fin 100) (nth n o NaN)).
Proof. exact (rsi_mirror p c xs). Qed.
Print Assumptions C63_relative_strength.
(** Skewness, and the Sharpe ratio of mirrored returns and rates, change sign. *)
Theorem C63_skewness p c : (1 <= p)%nat -> (Z.of_nat p < 2147483648)%Z ->
  mirrors (Skewness (Z.of_nat p)) (Skewness (Z.of_nat p)) short reals (mirror c) e_neg.
Proof. exact (skewness_mirror p c). Qed.
Print Assumptions C63_skewness.
Theorem C63_sharpe p c : (1 <= p)%nat -> (Z.of_nat p < 2147483648)%Z ->
  mirrors (SharpeRatio (Z.of_nat p)) (SharpeRatio (Z.of_nat p)) short (fun xs => pairs (map fin_pair xs))
    (fun x => (mirror c (fst x), mirror c (snd x))) e_neg.
Proof. exact (sharpe_mirror p c). Qed.
Print Assumptions C63_sharpe.
(** Correlations change sign when one of the two series is mirrored, and do not depend on the order of the two. *)
Theorem C63_correlations s p l c : (1 <= p)%nat -> (1 <= l)%nat ->
  mirrors_pairs (Correlation (Z.of_nat p)) s (mirror_first c) e_neg /\
  mirrors_pairs (Correlation (Z.of_nat p)) s (mirror_second c) e_neg /\
  mirrors_pairs (CrossCorrelation (Z.of_nat p) (Z.of_nat l)) s (mirror_first c) e_neg /\
  mirrors_pairs (CrossCorrelation (Z.of_nat p) (Z.of_nat l)) s (mirror_second c) e_neg /\
  mirrors_pairs (Correlation (Z.of_nat p)) s pair_swap (fun x => x).
Proof. exact (correlations_mirror s p l c). Qed.
Print Assumptions C63_correlations.
(** The upper band of the negated series is the negated lower band, and conversely. *)
Theorem C63_bands s p k xs : (1 <= p)%nat -> xs <> [] -> rshaped s xs ->
  exists lower middle upper sx ix sy iy,
    call (BollingerBands (Z.of_nat p) k) (tensors s (fins xs)) None true = Ok (series_list s [lower; middle; upper], sx, ix) /\
    call (BollingerBands (Z.of_nat p) k) (tensors s (fins (times (-1) xs))) None true =
      Ok (series_list s [times (-1) upper; times (-1) middle; times (-1) lower], sy, iy).
Proof. exact (bollinger_mirror s p k xs). Qed.
Print Assumptions C63_bands.
(** Ranges do not see the mirror; Heikin-Ashi candles are mirrored. *)
Theorem C63_ranges p : (1 <= p)%nat ->
  unaffected (AverageTrueRange (Z.of_nat p)) short (fun xs => bars (map cfin xs)) mirror_candle.
Proof. exact (atr_mirror p). Qed.
Print Assumptions C63_ranges.
Theorem C63_candles xs : xs <> [] ->
  exists o sx ix sy iy,
    call HeikinAshi (candles (map cfin xs)) None true = Ok (candles (map cfin o), sx, ix) /\
    call HeikinAshi (candles (map cfin (map mirror_candle xs))) None true = Ok (candles (map cfin (map mirror_candle o)), sy, iy).
Proof. exact (ha_mirror xs). Qed.
Print Assumptions C63_candles.
(** Zero crossings change sign, provided no series starts with 0; in IEEE single precision too. *)
Theorem C63_crossings {N : FOps} {usable : F -> Prop} (O : orderly N usable) s xs ys :
  xs <> [] -> length ys = length xs -> ok_rows s (rev xs) -> ok_rows s (rev ys) ->
  Forall (Forall usable) xs -> Forall (Forall usable) ys -> opposite s xs ys ->
  (forall j, (j < prod s)%nat -> feq (number xs j 0) f0 = false) ->
  exists o o' sf s0 sf' s0',
    call ZeroCrossoverSignal (tensors s xs) None true = Ok (int_tensors s o, sf, s0) /\
    call ZeroCrossoverSignal (tensors s ys) None true = Ok (int_tensors s o', sf', s0') /\
    length o = length xs /\ length o' = length xs /\
    forall n j, (n < length xs)%nat -> (j < prod s)%nat -> inumber o' j n = (- inumber o j n)%Z.
Proof. exact (crossings_mirror O s xs ys). Qed.
Print Assumptions C63_crossings.
(** The proviso is needed: 0, 1 gives no signal, 0, -1 gives -1. *)
Theorem C63_leading_zero_refuted log32 : let N := B32 log32 in
  exists sf s0 sf' s0',
    @call N (@ZeroCrossoverSignal N) (@scalars N [b32_of_Z 0; b32_of_Z 1]) None true = Ok (@ints N [0; 0]%Z, sf, s0) /\
    @call N (@ZeroCrossoverSignal N) (@scalars N [b32_of_Z 0; b32_of_Z (-1)]) None true = Ok (@ints N [0; -1]%Z, sf', s0').
Proof. exact (zeros_not_mirrored log32). Qed.
Print Assumptions C63_leading_zero_refuted.
(** Supertrend of the mirrored candles: it stops on the one exactly when it stops on the other, and its line is the mirrored line,
    provided no close is 0. *)
Theorem C63_supertrend p factor xs : (1 <= p)%nat -> xs <> [] -> short xs -> Forall (fun c => r_close c <> 0) xs ->
  ((exists r, call (@Supertrend ER (Z.of_nat p) factor) (bars (map cfin xs)) None true = Ok r) <->
   (exists r, call (@Supertrend ER (Z.of_nat p) factor) (bars (map cfin (map mirror_candle xs))) None true = Ok r)) /\
  forall r, call (@Supertrend ER (Z.of_nat p) factor) (bars (map cfin xs)) None true = Ok r ->
  exists o sx ix sy iy, r = (reals o, sx, ix) /\ length o = length xs /\
    call (@Supertrend ER (Z.of_nat p) factor) (bars (map cfin (map mirror_candle xs))) None true = Ok (reals (map Ropp o), sy, iy).
Proof. exact (super_mirror p factor xs). Qed.
Print Assumptions C63_supertrend.
(** The proviso is needed: a candle that is its own mirror image and closes at 0 gives the line -6, not 6. *)
Theorem C63_supertrend_zero_refuted : let xs := [RC 0 1 (-1) 0] in map mirror_candle xs = xs /\
  exists sf s0, call (@Supertrend ER 1 (PyInt 3)) (bars (map cfin xs)) None true = Ok (reals [-6], sf, s0).
Proof. exact super_zero_close. Qed.
Print Assumptions C63_supertrend_zero_refuted.

Example C63_met : [100; 110; 99] <> [] /\ short [100; 110; 99] /\ rshaped [2%nat] [[1; 5]; [2; 3]; [4; 9]] /\
  rpairs_ok [2%nat] [([1; 5], [2; 3]); ([2; 3], [4; 9])].
Proof.
  split; [discriminate|]. split; [unfold short; cbn; lia|]. split; (split; [repeat constructor|unfold short; cbn; lia]).
Qed.
Example C63_crossings_met log32 : let N := B32 log32 in
  let xs := map (map b32_of_Z) [[1; -2]; [-1; 3]]%Z in let ys := map (map b32_of_Z) [[-1; 2]; [1; -3]]%Z in
  @ok_rows N [2%nat] (rev xs) /\ @ok_rows N [2%nat] (rev ys) /\ Forall (Forall b32_usable) xs /\ Forall (Forall b32_usable) ys /\
  @opposite N [2%nat] xs ys /\ forall j, (j < prod [2%nat])%nat -> @feq N (@number N xs j 0) (@f0 N) = false.
Proof.
  cbv zeta. split; [split; [repeat constructor|unfold short; cbn [rev app map length]; lia]|].
  split; [split; [repeat constructor|unfold short; cbn [rev app map length]; lia]|].
  split; [repeat constructor; discriminate|]. split; [repeat constructor; discriminate|]. split.
  - intros n j Hn Hj. cbn [length map] in Hn. cbn in Hj. destruct n as [|[|n]]; [..|lia]; (destruct j as [|[|j]]; [..|lia]); repeat split; vm_compute; reflexivity.
  - intros j Hj. cbn in Hj. destruct j as [|[|j]]; [..|lia]; vm_compute; reflexivity.
Qed.
Example C63_supertrend_met : Forall (fun c => r_close c <> 0) [RC 10 12 9 11; RC 11 13 10 10] /\ short [RC 10 12 9 11; RC 11 13 10 10] /\
  exists r, call (@Supertrend ER 1 (PyInt 3)) (bars (map cfin [RC 10 12 9 11])) None true = Ok r.
Proof.
  split; [repeat constructor; cbn; lra|]. split; [unfold short; cbn; lia|]. apply (MarketFacts.super_total (N := ER) 1 (PyInt 3)); [lia|discriminate|unfold short; cbn; lia|].
  cbn [map rev app calm]. split; [|exact I]. cbn [conflict]. change (@supertrend ER 1 (num (PyInt 3)) []) with (@Trend ER (Fin 0) (Fin 0) 0 (Fin 0)). cbn [t_down t_up cfin c_close r_close].
  rewrite !SuperNum.flt_fin, (proj2 (RealMarket.Rltb_false 11 0)) by lra. now rewrite andb_false_r.
Qed.
