(** * PropsNan: property C65 — missing numbers.
    What the operators make of a NaN among their inputs.  Vocabulary: Nan.v ([nan x]: x is not a number; [zeroed]: 0 in the place of NaN;
    [absorbing N]: what is asked of the arithmetic), Positions.v ([number xs j n]: number [j] of row [n]). *)
From Coq Require Import List ZArith Bool Lia.
From Coq Require Import Floats.SpecFloat.
From Verif Require Import Num Py Tensor Streamable Meta Common Finance Series Formulas Positions ImplComp ImplWindow ImplCorr ImplSignal SignalFacts Order B32 ER Nan NanFacts NanNum.
Import ListNotations.

(** The laws hold of IEEE single precision and of exact arithmetic. *)
Theorem C65_float32 log32 : absorbing (B32 log32).
Proof. exact (b32_absorbing log32). Qed.
Print Assumptions C65_float32.
Theorem C65_exact : absorbing ER.
Proof. exact er_absorbing. Qed.
Print Assumptions C65_exact.
(** A windowed operator gives NaN as long as a NaN is among the last [p] numbers (what happens once it has left
    the window is C51). *)
Theorem C65_windows {N : FOps} (A : absorbing N) s p op xs : p >= 1 ->
  op = SimpleMovingAverage (Z.of_nat p) \/ op = MovingStandardDeviation (Z.of_nat p) -> xs <> [] -> ok_rows s (rev xs) ->
  exists out sf s0, call op (tensors s xs) None true = Ok (tensors s out, sf, s0) /\ length out = length xs /\
    forall k n j, k <= n < k + p -> p <= n + 1 -> n < length xs -> j < prod s -> nan (number xs j k) -> nan (number out j n).
Proof. exact (windows_nan A s p op xs). Qed.
Print Assumptions C65_windows.
Theorem C65_bands {N : FOps} (A : absorbing N) s p k xs : p >= 1 -> xs <> [] -> ok_rows s (rev xs) ->
  exists lo mid up sf s0, call (BollingerBands (Z.of_nat p) k) (tensors s xs) None true = Ok (Tup [tensors s lo; tensors s mid; tensors s up], sf, s0) /\
    forall i n j, i <= n < i + p -> p <= n + 1 -> n < length xs -> j < prod s -> nan (number xs j i) ->
      nan (number lo j n) /\ nan (number mid j n) /\ nan (number up j n).
Proof. exact (bands_nan A s p k xs). Qed.
Print Assumptions C65_bands.
(** The recursive averages never recover: once a NaN has gone in, every output from the end of the warm-up on is NaN. *)
Theorem C65_averages {N : FOps} (A : absorbing N) s p op xs : p >= 1 ->
  op = ExponentialMovingAverage (Z.of_nat p) \/ op = RollingMovingAverage (Z.of_nat p) -> xs <> [] -> ok_rows s (rev xs) ->
  exists out sf s0, call op (tensors s xs) None true = Ok (tensors s out, sf, s0) /\ length out = length xs /\
    forall k n j, k <= n -> p <= n + 1 -> n < length xs -> j < prod s -> nan (number xs j k) -> nan (number out j n).
Proof. exact (averages_nan A s p op xs). Qed.
Print Assumptions C65_averages.
(** Neither do the MACD line, its signal line and their difference. *)
Theorem C65_convergence {N : FOps} (A : absorbing N) s slow fast m xs : slow >= 1 -> fast >= 1 -> m >= 1 -> xs <> [] -> ok_rows s (rev xs) ->
  exists a b line signal hist sf s0,
    call (MovingAverageConvergenceDivergence (Z.of_nat slow) (Z.of_nat fast) (Z.of_nat m)) (tensors s xs) None true =
      Ok (Tup [a; b; tensors s line; tensors s signal; tensors s hist], sf, s0) /\
    forall k n j, k <= n -> n < length xs -> j < prod s -> nan (number xs j k) ->
      (slow <= n + 1 -> nan (number line j n)) /\ (slow + m <= n + 2 -> nan (number signal j n) /\ nan (number hist j n)).
Proof. exact (convergence_nan A s slow fast m xs). Qed.
Print Assumptions C65_convergence.
(** A momentum or a return is NaN where one of the two numbers it compares is (a return from 0 is 0, whatever follows). *)
Theorem C65_momentum {N : FOps} (A : absorbing N) s p xs : p >= 1 -> xs <> [] -> ok_rows s (rev xs) ->
  exists out sf s0, call (Momentum (Z.of_nat p)) (tensors s xs) None true = Ok (tensors s out, sf, s0) /\ length out = length xs /\
    forall n j, p <= n < length xs -> j < prod s -> nan (number xs j n) \/ nan (number xs j (n - p)) -> nan (number out j n).
Proof. exact (momentum_nan A s p xs). Qed.
Print Assumptions C65_momentum.
Theorem C65_return {N : FOps} (A : absorbing N) p xs : p >= 1 -> xs <> [] -> short (rev xs) ->
  exists out sf s0, call (Return (Z.of_nat p)) (scalars xs) None true = Ok (scalars out, sf, s0) /\ length out = length xs /\
    forall n, p <= n < length xs ->
      (nan (nth (n - p) xs f0) -> nan (nth n out f0)) /\ (nan (nth n xs f0) -> feq (nth (n - p) xs f0) f0 = false -> nan (nth n out f0)).
Proof. exact (return_nan A p xs). Qed.
Print Assumptions C65_return.
(** Skewness, Sharpe ratio and correlation: NaN while one is in the window. *)
Theorem C65_skewness {N : FOps} (A : absorbing N) p xs : p >= 1 -> (Z.of_nat p < 2147483648)%Z -> xs <> [] -> short (rev xs) ->
  exists out sf s0, call (Skewness (Z.of_nat p)) (scalars xs) None true = Ok (scalars out, sf, s0) /\ length out = length xs /\
    forall k n, k <= n < k + p -> n < length xs -> nan (nth k xs f0) -> nan (nth n out f0).
Proof. exact (skewness_nan A p xs). Qed.
Print Assumptions C65_skewness.
Theorem C65_sharpe {N : FOps} (A : absorbing N) p xs : p >= 1 -> (Z.of_nat p < 2147483648)%Z -> xs <> [] -> short (rev xs) ->
  exists out sf s0, call (SharpeRatio (Z.of_nat p)) (pairs xs) None true = Ok (scalars out, sf, s0) /\ length out = length xs /\
    forall k n, k <= n < k + p -> n < length xs -> nan (fst (nth k xs (f0, f0))) \/ nan (snd (nth k xs (f0, f0))) -> nan (nth n out f0).
Proof. exact (sharpe_nan A p xs). Qed.
Print Assumptions C65_sharpe.
Theorem C65_correlation {N : FOps} (A : absorbing N) s p xs : p >= 1 -> xs <> [] -> two_rows s (rev xs) ->
  exists out sf s0, call (Correlation (Z.of_nat p)) (tensor_pairs s xs) None true = Ok (tensors s out, sf, s0) /\ length out = length xs /\
    forall k n j, k <= n < k + p -> p <= n -> n < length xs -> j < prod s ->
      nan (number (map fst xs) j k) \/ nan (number (map snd xs) j k) -> nan (number out j n).
Proof. exact (correlation_nan A s p xs). Qed.
Print Assumptions C65_correlation.
(** The running extrema skip every NaN but the first number of the series: that one they keep for ever. *)
Theorem C65_extrema {N : FOps} (A : absorbing N) usable (O : orderly N usable) op (beats : F -> F -> bool) xs :
  (op = GlobalMinimum /\ beats = flt) \/ (op = GlobalMaximum /\ beats = fgt) -> xs <> [] ->
  exists out sf s0, call op (scalars xs) None true = Ok (scalars out, sf, s0) /\ length out = length xs /\
    forall n, n < length xs ->
      (nan (nth 0 xs f0) -> nan (nth n out f0)) /\
      (~ nan (nth 0 xs f0) -> ~ nan (nth n out f0) /\ (exists i, i <= n /\ nth n out f0 = nth i xs f0) /\
                              forall i, i <= n -> beats (nth i xs f0) (nth n out f0) = false).
Proof. exact (extrema_nan A usable O op beats xs). Qed.
Print Assumptions C65_extrema.
(** Crossings of zero: NaN counts as 0. *)
Theorem C65_crossings {N : FOps} (A : absorbing N) s xs : xs <> [] -> ok_rows s (rev xs) ->
  exists out sf s0 sf' s0', call ZeroCrossoverSignal (tensors s xs) None true = Ok (int_tensors s out, sf, s0) /\
    call ZeroCrossoverSignal (tensors s (map (map zeroed) xs)) None true = Ok (int_tensors s out, sf', s0').
Proof. exact (crossings_nan A s xs). Qed.
Print Assumptions C65_crossings.
(** The crossover signal says nothing while a NaN is in the longer window; the MACD signal never says anything again. *)
Theorem C65_crossover_signal {N : FOps} (A : absorbing N) s slow fast xs : slow >= 1 -> fast >= 1 -> xs <> [] -> ok_rows s (rev xs) ->
  exists out sf s0, call (SimpleMovingAverageCrossoverSignal (Z.of_nat slow) (Z.of_nat fast)) (tensors s xs) None true = Ok (int_tensors s out, sf, s0) /\
    forall k n j, k <= n < k + slow -> n < length xs -> j < prod s -> nan (number xs j k) -> inumber out j n = 0%Z.
Proof. exact (crossover_signal_nan A s slow fast xs). Qed.
Print Assumptions C65_crossover_signal.
Theorem C65_convergence_signal {N : FOps} (A : absorbing N) s slow fast m xs : slow >= 1 -> fast >= 1 -> m >= 1 -> xs <> [] -> ok_rows s (rev xs) ->
  exists out sf s0, call (MovingAverageConvergenceDivergenceSignal (Z.of_nat slow) (Z.of_nat fast) (Z.of_nat m)) (tensors s xs) None true = Ok (int_tensors s out, sf, s0) /\
    forall k n j, k <= n -> n < length xs -> j < prod s -> nan (number xs j k) -> inumber out j n = 0%Z.
Proof. exact (convergence_signal_nan A s slow fast m xs). Qed.
Print Assumptions C65_convergence_signal.

(** In float32: the numbers 1, NaN, 3, 4, 5; the average over 2 recovers at the fourth, the exponential one never does, the signal of
    2, NaN, -1 falls at the third. *)
Definition f32 : FOps := B32 (fun x => x).
Definition n32 (z : Z) : spec_float := b32_of_Z z.
Definition row32 (l : list spec_float) : list (list spec_float) := map (fun x => [x]) l.
Definition out_of {A B C} (r : res (A * B * C)) : res A := match r with Ok (a, _, _) => Ok a | Err e => Err e end.
Example C65_met : @nan f32 S754_nan /\ @ok_rows f32 [1] (rev (row32 [n32 1; S754_nan; n32 3; n32 4; n32 5])).
Proof. split; [reflexivity|]. split; [repeat constructor|]. unfold short. cbn. lia. Qed.
Example C65_windows_met : out_of (@call f32 (@SimpleMovingAverage f32 2) (@tensors f32 [1] (row32 [n32 1; S754_nan; n32 3; n32 4; n32 5])) None true) =
  Ok (@tensors f32 [1] (row32 [n32 0; S754_nan; S754_nan; SFdiv prec32 emax32 (n32 7) (n32 2); SFdiv prec32 emax32 (n32 9) (n32 2)])).
Proof. match goal with |- _ = ?b => vm_cast_no_check (eq_refl b) end. Qed.
Example C65_averages_met : out_of (@call f32 (@ExponentialMovingAverage f32 2) (@tensors f32 [1] (row32 [n32 1; S754_nan; n32 3; n32 4; n32 5])) None true) =
  Ok (@tensors f32 [1] (row32 [n32 0; S754_nan; S754_nan; S754_nan; S754_nan])).
Proof. match goal with |- _ = ?b => vm_cast_no_check (eq_refl b) end. Qed.
Example C65_crossings_met : out_of (@call f32 (@ZeroCrossoverSignal f32) (@tensors f32 [1] (row32 [n32 2; S754_nan; n32 (-1)])) None true) =
  Ok (@int_tensors f32 [1] [[0%Z]; [0%Z]; [(-1)%Z]]).
Proof. match goal with |- _ = ?b => vm_cast_no_check (eq_refl b) end. Qed.
Example C65_extrema_met : out_of (@call f32 (@GlobalMaximum f32) (@scalars f32 [n32 2; S754_nan; n32 3]) None true) =
    Ok (@scalars f32 [n32 2; n32 2; n32 3]) /\
  out_of (@call f32 (@GlobalMaximum f32) (@scalars f32 [S754_nan; n32 3]) None true) = Ok (@scalars f32 [S754_nan; S754_nan]).
Proof. split; match goal with |- _ = ?b => vm_cast_no_check (eq_refl b) end. Qed.
