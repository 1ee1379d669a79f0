(** * PropsStatsReal: properties C34, C35, C39 and C40 in exact arithmetic (instance [ER]).
    [last_numbers k xs n]: the last [k] numbers up to position [n]; [rmean], [rvar], [rcov],
    [third_moment]: mean, population variance, covariance and third central moment of real numbers
    (RealFacts.v, RealStats.v); [constant w]: all numbers of [w] are equal; [is_correlation e u v]
    (StatReal.v): [e] is NaN if [u] or [v] is constant and otherwise the correlation coefficient, in [-1, 1]. *)
From Coq Require Import Reals Lra List ZArith Bool Lia.
From Verif Require Import Num Py Tensor Streamable Meta Common Finance Series Formulas Positions
  ImplWindow ImplCorr ER RealFacts RealStats MovingFacts StatReal WitnessReal.
Import ListNotations.
Local Open Scope R_scope.

Theorem C34_exact p xs : (1 <= p)%nat -> (Z.of_nat p < 2147483648)%Z -> xs <> [] -> short (rev xs) ->
  exists out sf s0, call (@SharpeRatio ER (Z.of_nat p)) (@pairs ER (map fin_pair xs)) None true = Ok (scalars out, sf, s0) /\
    length out = length xs /\
    forall n, (n < length xs)%nat ->
      let w := last_numbers (Nat.min (n + 1) p) (map (fun x => fst x - snd x) xs) n in
      (constant w -> nth n out NaN = Fin 0) /\
      (~ constant w -> nth n out NaN = Fin (rmean w / sqrt (rvar w))).
Proof. exact (sharpe_real p xs). Qed.
Print Assumptions C34_exact.
Theorem C35_exact p xs : (1 <= p)%nat -> (Z.of_nat p < 2147483648)%Z -> xs <> [] -> short (rev xs) ->
  exists out sf s0, call (@Skewness ER (Z.of_nat p)) (@scalars ER (map Fin xs)) None true = Ok (scalars out, sf, s0) /\
    length out = length xs /\
    forall n, (n < length xs)%nat ->
      let w := last_numbers (Nat.min (n + 1) p) xs n in
      (constant w -> nth n out NaN = Fin 0) /\
      (~ constant w -> nth n out NaN = Fin (third_moment w / sqrt (rvar w) ^ 3)).
Proof. exact (skewness_real p xs). Qed.
Print Assumptions C35_exact.
Theorem C39_exact s p xs : (1 <= p)%nat -> xs <> [] -> rpairs_ok s xs ->
  exists out sf s0, call (@Correlation ER (Z.of_nat p)) (@tensor_pairs ER s (map fin_rows xs)) None true = Ok (tensors s out, sf, s0) /\
    length out = length xs /\
    forall n j, (n < length xs)%nat -> (j < prod s)%nat ->
      ((n < p)%nat -> number out j n = Fin 0) /\
      ((p <= n)%nat -> is_correlation (number out j n)
         (map (fun i => rnumber (map fst xs) j (n - i)) (seq 0 p)) (map (fun i => rnumber (map snd xs) j (n - i)) (seq 0 p))).
Proof. exact (corr_real s p xs). Qed.
Print Assumptions C39_exact.
Theorem C40_exact s p l xs : (1 <= p)%nat -> (1 <= l)%nat -> xs <> [] -> rpairs_ok s xs ->
  exists out sf s0, call (@CrossCorrelation ER (Z.of_nat p) (Z.of_nat l)) (@tensor_pairs ER s (map fin_rows xs)) None true = Ok (tensors s out, sf, s0) /\
    length out = length xs /\
    forall n j, (n < length xs)%nat -> (j < prod s)%nat ->
      ((n < l + p)%nat -> number out j n = Fin 0) /\
      ((l + p <= n)%nat -> is_correlation (number out j n)
         (map (fun i => rnumber (map fst xs) j (n - i)) (seq 0 p)) (map (fun i => rnumber (map snd xs) j (n - l - i)) (seq 0 p))).
Proof. exact (cross_real s p l xs). Qed.
Print Assumptions C40_exact.

Example C34_to_C40_met_real : ([(3, 1); (5, 2)] <> [] /\ short (rev [(3, 1); (5, 2)])) /\
  (w_rpairs <> [] /\ rpairs_ok [1%nat] w_rpairs) /\
  ~ constant (map (fun i => rnumber (map fst w_rpairs) 0 (2 - i)) (seq 0 2)) /\
  constant (map (fun i => rnumber (map snd w_rpairs) 0 (2 - i)) (seq 0 2)).
Proof.
  split; [split; [discriminate|unfold short; cbn [rev app length]; lia]|].
  split; [split; [discriminate|exact w_rpairs_ok]|]. exact w_rpairs_windows.
Qed.
