(** * PropsStats: properties C34, C35, C39 and C40 — Sharpe ratio, skewness, correlations.
    Vocabulary: Series.v, Positions.v ([number xs j n]: number [j] of the tensor at position [n]),
    Formulas.v ([skew_of], [corr_of]; [fmean], [fvar], [fsqrt]: mean, population variance, root in the
    arithmetic at hand).  [pairs xs]: the two series of first and of second components;
    [tensor_pairs s xs]: likewise for tensors of shape [s]. *)
From Coq Require Import List ZArith Bool Lia.
From Verif Require Import Num Py PyFacts Tensor Streamable Spec Meta Common Finance Series Formulas Positions
  ImplComp ImplWindow ImplCorr StatFacts Witness WitnessSeries.
Import ListNotations.

(** ** C34: SharpeRatio *)
Theorem C34_sharpe_ratio {N : FOps} p xs : p >= 1 -> (Z.of_nat p < 2147483648)%Z -> xs <> [] -> short (rev xs) ->
  exists out sf s0, call (SharpeRatio (Z.of_nat p)) (pairs xs) None true = Ok (scalars out, sf, s0) /\
    length out = length xs /\
    forall n, n < length xs ->
      let w := map (fun i => fsub (fst (nth (n - i) xs (f0, f0))) (snd (nth (n - i) xs (f0, f0)))) (seq 0 (Nat.min (n + 1) p)) in
      nth n out f0 = if feq (fsqrt (fvar w)) f0 then f0 else fdiv (fmean w) (fsqrt (fvar w)).
Proof. exact (sharpe_positions p xs). Qed.
Print Assumptions C34_sharpe_ratio.
Theorem C34_sharpe_ratio_history {N : FOps} p : p >= 1 -> (Z.of_nat p < 2147483648)%Z ->
  streams (SharpeRatio (Z.of_nat p)) short pairs (fun hs => scalars (map (sharpe p) hs)).
Proof. exact (sharpe_streams p). Qed.
Print Assumptions C34_sharpe_ratio_history.

(** ** C35: Skewness *)
Theorem C35_skewness {N : FOps} p xs : p >= 1 -> (Z.of_nat p < 2147483648)%Z -> xs <> [] -> short (rev xs) ->
  exists out sf s0, call (Skewness (Z.of_nat p)) (scalars xs) None true = Ok (scalars out, sf, s0) /\
    length out = length xs /\
    forall n, n < length xs -> nth n out f0 = skew_of (map (fun i => nth (n - i) xs f0) (seq 0 (Nat.min (n + 1) p))).
Proof. exact (skewness_positions p xs). Qed.
Print Assumptions C35_skewness.
Theorem C35_skewness_history {N : FOps} p : p >= 1 -> (Z.of_nat p < 2147483648)%Z ->
  streams (Skewness (Z.of_nat p)) short scalars (fun hs => scalars (map (skewness p) hs)).
Proof. exact (skewness_streams p). Qed.
Print Assumptions C35_skewness_history.

(** ** C39: Correlation *)
Theorem C39_correlation {N : FOps} s p xs : p >= 1 -> xs <> [] -> two_rows s (rev xs) ->
  exists out sf s0, call (Correlation (Z.of_nat p)) (tensor_pairs s xs) None true = Ok (tensors s out, sf, s0) /\
    length out = length xs /\
    forall n j, n < length xs -> j < prod s ->
      number out j n = if n <? p then f0
        else corr_of (map (fun i => number (map fst xs) j (n - i)) (seq 0 p)) (map (fun i => number (map snd xs) j (n - i)) (seq 0 p)).
Proof. exact (corr_positions s p xs). Qed.
Print Assumptions C39_correlation.
Theorem C39_correlation_history {N : FOps} s p : p >= 1 ->
  streams (Correlation (Z.of_nat p)) (two_rows s) (tensor_pairs s)
    (fun hs => tensors s (map (each2 s (correlation p)) hs)).
Proof. exact (corr_streams s p). Qed.
Print Assumptions C39_correlation_history.

(** ** C40: CrossCorrelation and AutoCorrelation *)
Theorem C40_cross_correlation {N : FOps} s p l xs : p >= 1 -> l >= 1 -> xs <> [] -> two_rows s (rev xs) ->
  exists out sf s0, call (CrossCorrelation (Z.of_nat p) (Z.of_nat l)) (tensor_pairs s xs) None true = Ok (tensors s out, sf, s0) /\
    length out = length xs /\
    forall n j, n < length xs -> j < prod s ->
      number out j n = if n <? l + p then f0
        else corr_of (map (fun i => number (map fst xs) j (n - i)) (seq 0 p)) (map (fun i => number (map snd xs) j (n - l - i)) (seq 0 p)).
Proof. exact (cross_positions s p l xs). Qed.
Print Assumptions C40_cross_correlation.
Theorem C40_auto_correlation {N : FOps} s p l xs : p >= 1 -> l >= 1 -> xs <> [] -> ok_rows s (rev xs) ->
  exists out sf s0 sf' s0', call (AutoCorrelation (Z.of_nat p) (Z.of_nat l)) (tensors s xs) None true = Ok (tensors s out, sf, s0) /\
    call (CrossCorrelation (Z.of_nat p) (Z.of_nat l)) (Tup [tensors s xs; tensors s xs]) None true = Ok (tensors s out, sf', s0') /\
    length out = length xs /\
    forall n j, n < length xs -> j < prod s ->
      number out j n = if n <? l + p then f0
        else corr_of (map (fun i => number xs j (n - i)) (seq 0 p)) (map (fun i => number xs j (n - l - i)) (seq 0 p)).
Proof. exact (auto_positions s p l xs). Qed.
Print Assumptions C40_auto_correlation.
Theorem C40_cross_correlation_history {N : FOps} s p l : p >= 1 -> l >= 1 ->
  streams (CrossCorrelation (Z.of_nat p) (Z.of_nat l)) (two_rows s) (tensor_pairs s)
    (fun hs => tensors s (map (each2 s (cross_correlation p l)) hs)).
Proof. exact (cross_streams s p l). Qed.
Print Assumptions C40_cross_correlation_history.
Theorem C40_auto_correlation_history {N : FOps} s p l : p >= 1 -> l >= 1 ->
  streams (AutoCorrelation (Z.of_nat p) (Z.of_nat l)) (ok_rows s) (tensors s)
    (fun hs => tensors s (map (each s (fun c => cross_correlation p l (map twice c))) hs)).
Proof. exact (auto_streams s p l). Qed.
Print Assumptions C40_auto_correlation_history.

Example C34_to_C40_met : (w_pairs <> [] /\ short (rev w_pairs)) /\ (w_numbers <> [] /\ short (rev w_numbers)) /\
  (w_two_rows <> [] /\ two_rows [2] (rev w_two_rows) /\ 1 + 2 < length w_two_rows) /\ (w_signed <> [] /\ ok_rows [2] (rev w_signed)).
Proof.
  split; [split; [discriminate|exact w_pairs_ok]|]. split; [split; [discriminate|exact w_numbers_ok]|].
  split; [split; [discriminate|split; [exact w_two_rows_ok|cbn; lia]]|]. split; [discriminate|exact w_signed_ok].
Qed.
