(** * PropsInts: property C70 — whole-number (int32) series are computed exactly or rejected at the first element.
    Vocabulary: Ints.v ([int32 z]: -2^31 <= z < 2^31; [least_of xs a n v], [greatest_of xs a n v]: [v] is the least, the greatest, of elements [a] to [n];
    [int_result f a b out]: [out] is [f] of [a] and [b] place by place, exact where that is an int32, and wrapped around by a multiple of 2^32 otherwise;
    [not_floats zs]: some dtype of [zs] is not float32); Vectors.v ([rejects op z]: given anything of shapes and dtypes [z], alone or as a series, [op] fails
    at the first element); Series.v ([ints l]: the series of the whole numbers [l]). *)
From Coq Require Import List ZArith Bool Lia.
From Verif Require Import Num Py Tensor Streamable Meta Common Finance Spec SpecHelpers Series Shapes Vectors Ints IntFacts IntErrors Witness.
Import ListNotations.

(** Extrema of all elements so far: no bound on the series. *)
Theorem C70_global_extrema {N : FOps} xs : xs <> [] ->
  (exists out sf s0, call GlobalMinimum (ints xs) None true = Ok (ints out, sf, s0) /\ length out = length xs /\
     forall n, n < length xs -> least_of xs 0 n (nth n out 0%Z)) /\
  (exists out sf s0, call GlobalMaximum (ints xs) None true = Ok (ints out, sf, s0) /\ length out = length xs /\
     forall n, n < length xs -> greatest_of xs 0 n (nth n out 0%Z)).
Proof. exact (global_ints xs). Qed.
Print Assumptions C70_global_extrema.
(** Extrema of the last [p] elements, or of those there are. *)
Theorem C70_local_extrema {N : FOps} p xs : p >= 1 -> (Z.of_nat p < 2147483648)%Z -> xs <> [] -> short xs -> Forall int32 xs ->
  (exists out sf s0, call (LocalMinimum (Z.of_nat p)) (ints xs) None true = Ok (ints out, sf, s0) /\ length out = length xs /\
     forall n, n < length xs -> least_of xs (S n - p) n (nth n out 0%Z)) /\
  (exists out sf s0, call (LocalMaximum (Z.of_nat p)) (ints xs) None true = Ok (ints out, sf, s0) /\ length out = length xs /\
     forall n, n < length xs -> greatest_of xs (S n - p) n (nth n out 0%Z)).
Proof. exact (local_ints p xs). Qed.
Print Assumptions C70_local_extrema.
(** Sums, differences and products of tensors of any shape. *)
Theorem C70_arithmetic {N : FOps} n s (a b : list Z) st : n > 0 -> length a = prod (n :: s) -> length b = prod (n :: s) -> no_state st ->
  let v := Tup [Leaf (mkT (n :: s) (DI a)); Leaf (mkT (n :: s) (DI b))] in
  exists o1 o2 o3, call Add v st true = Ok (Leaf (mkT (n :: s) (DI o1)), Tup [], Tup []) /\ int_result Z.add a b o1 /\
    call Sub v st true = Ok (Leaf (mkT (n :: s) (DI o2)), Tup [], Tup []) /\ int_result Z.sub a b o2 /\
    call Mul v st true = Ok (Leaf (mkT (n :: s) (DI o3)), Tup [], Tup []) /\ int_result Z.mul a b o3.
Proof. exact (int_arithmetic n s a b st). Qed.
Print Assumptions C70_arithmetic.
(** Operators of one series that only take floats, whatever its shape and their periods. *)
Theorem C70_floats_only {N : FOps} s d : d <> F32 ->
  (forall p, rejects (SimpleMovingAverage p) (Leaf (s, d)) /\ rejects (ExponentialMovingAverage p) (Leaf (s, d)) /\ rejects (RollingMovingAverage p) (Leaf (s, d)) /\
     rejects (MovingStandardDeviation p) (Leaf (s, d)) /\ rejects (Return p) (Leaf (s, d)) /\ rejects (LogarithmicReturn p) (Leaf (s, d)) /\
     rejects (Momentum p) (Leaf (s, d)) /\ rejects (RelativeStrengthIndex p) (Leaf (s, d)) /\ rejects (Skewness p) (Leaf (s, d))) /\
  (forall n k, rejects (BollingerBands n k) (Leaf (s, d))) /\
  (forall a b, rejects (SimpleMovingAverageCrossover a b) (Leaf (s, d)) /\ rejects (SimpleMovingAverageCrossoverSignal a b) (Leaf (s, d)) /\
     rejects (Volatility a b) (Leaf (s, d)) /\ rejects (AutoCorrelation a b) (Leaf (s, d))) /\
  (forall a b c, rejects (MovingAverageConvergenceDivergence a b c) (Leaf (s, d)) /\ rejects (MovingAverageConvergenceDivergenceSignal a b c) (Leaf (s, d))) /\
  rejects Drawdown (Leaf (s, d)) /\ rejects ZeroCrossoverSignal (Leaf (s, d)) /\ (forall op, rejects (FFill op) (Leaf (s, d))).
Proof. exact (floats_only s d). Qed.
Print Assumptions C70_floats_only.
(** Operators of several series: one that is not of floats is enough. The fourth series of RiskRatioEvaluator is the signal. *)
Theorem C70_floats_only_several {N : FOps} p q k k1 k2 m z1 z2 z3 z4 :
  (not_floats [z1; z2] -> rejects (Correlation p) (Tup [Leaf z1; Leaf z2]) /\ rejects (CrossCorrelation p q) (Tup [Leaf z1; Leaf z2]) /\ rejects (SharpeRatio p) (Tup [Leaf z1; Leaf z2])) /\
  (not_floats [z1; z2; z3] -> rejects (AverageTrueRange p) (Tup [Leaf z1; Leaf z2; Leaf z3]) /\ rejects (Supertrend p k) (Tup [Leaf z1; Leaf z2; Leaf z3]) /\
     rejects (RiskRatioEvaluator k1 k2 p m) (Tup [Leaf z1; Leaf z2; Leaf z3; Leaf z4])) /\
  (not_floats [z1; z2; z3; z4] -> rejects HeikinAshi (Tup [Leaf z1; Leaf z2; Leaf z3; Leaf z4])).
Proof. exact (floats_only_all p q k k1 k2 m z1 z2 z3 z4). Qed.
Print Assumptions C70_floats_only_several.
(** Booleans are not numbers. *)
Theorem C70_no_booleans {N : FOps} s p :
  rejects Positive (Leaf (s, BOOL)) /\ rejects Negative (Leaf (s, BOOL)) /\ rejects GlobalMinimum (Leaf (s, BOOL)) /\ rejects GlobalMaximum (Leaf (s, BOOL)) /\
  rejects (LocalMinimum p) (Leaf (s, BOOL)) /\ rejects (LocalMaximum p) (Leaf (s, BOOL)).
Proof. exact (no_booleans s p). Qed.
Print Assumptions C70_no_booleans.
(** Numbers of different kinds are not added up. *)
Theorem C70_no_mixing {N : FOps} s1 d1 s2 d2 : d1 <> d2 \/ d1 = BOOL ->
  rejects Add (Tup [Leaf (s1, d1); Leaf (s2, d2)]) /\ rejects Sub (Tup [Leaf (s1, d1); Leaf (s2, d2)]) /\ rejects Mul (Tup [Leaf (s1, d1); Leaf (s2, d2)]).
Proof. exact (no_mixing s1 d1 s2 d2). Qed.
Print Assumptions C70_no_mixing.

(** A series with the smallest and the largest int32. *)
Definition some_ints : list Z := [3; -2147483648; 5; 2147483647; -7]%Z.
Example C70_met : some_ints <> [] /\ short some_ints /\ Forall int32 some_ints /\
  (exists sf s0, call (LocalMinimum 2) (ints some_ints) None true = Ok (ints [3; -2147483648; -2147483648; 5; -7]%Z, sf, s0)) /\
  (exists sf s0, call GlobalMaximum (ints some_ints) None true = Ok (ints [3; 3; 5; 2147483647; 2147483647]%Z, sf, s0)) /\
  (exists o, int_result Z.add some_ints [1; 1; 1; 1; 1]%Z o /\ nth 3 o 0%Z = (-2147483648)%Z) /\
  call (SimpleMovingAverage 2) (ints some_ints) None true = Err EType /\ not_floats [([], F32); ([], I32)].
Proof.
  split; [discriminate|]. split; [unfold short; cbn; lia|]. split; [unfold int32, some_ints; repeat (constructor; [lia|]); constructor|].
  split; [eexists _, _; reflexivity|]. split; [eexists _, _; reflexivity|]. split.
  { exists [4; -2147483647; 6; -2147483648; -6]%Z. split; [|reflexivity]. split; [reflexivity|]. intros i Hi. cbn in Hi. unfold int32.
    do 5 (destruct i as [|i]; [cbn [nth some_ints]; cbv zeta; split; [lia|]; split; [|lia]; (exists 0%Z; reflexivity) || (exists (-1)%Z; reflexivity)|]). lia. }
  split; [reflexivity|]. exists [], I32. split; [right; left; reflexivity|discriminate].
Qed.
