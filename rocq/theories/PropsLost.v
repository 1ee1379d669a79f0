(** * PropsLost: property C75 — infinities and overflow.
    What the operators make of an infinity among their inputs, or of a computation that overflows.  Vocabulary: Lost.v ([beyond32]: an
    infinity or NaN of IEEE single precision; [beyond_reals]: the same next to the real numbers; [spreading N lost]: what is asked of the
    arithmetic), Rounding.v ([b32_finite]: a finite number of the format), Positions.v ([number xs j n]: number [j] of row [n]). *)
From Coq Require Import List ZArith Bool Lia.
From Coq Require Import Floats.SpecFloat.
From Verif Require Import Num Py Tensor Streamable Meta Common Finance Series Formulas Positions ImplComp ImplWindow ImplCorr ImplSignal SignalFacts B32 ER Rounding Lost LostFacts.
Import ListNotations.

(** The laws hold of IEEE single precision and of exact arithmetic. *)
Theorem C75_float32 log32 : spreading (B32 log32) beyond32.
Proof. exact (b32_spreading log32). Qed.
Print Assumptions C75_float32.
Theorem C75_exact : spreading ER beyond_reals.
Proof. exact er_spreading. Qed.
Print Assumptions C75_exact.
(** A windowed operator gives no number as long as an infinity (or NaN) is among the last [p] inputs. *)
Theorem C75_windows {N : FOps} {lost : F -> Prop} (A : spreading N lost) s p op xs : p >= 1 -> op = SimpleMovingAverage (Z.of_nat p) \/ op = MovingStandardDeviation (Z.of_nat p) ->
  xs <> [] -> ok_rows s (rev xs) ->
  exists out sf s0, call op (tensors s xs) None true = Ok (tensors s out, sf, s0) /\ length out = length xs /\
    forall k n j, k <= n < k + p -> p <= n + 1 -> n < length xs -> j < prod s -> lost (number xs j k) -> lost (number out j n).
Proof. exact (windows_lost A s p op xs). Qed.
Print Assumptions C75_windows.
(** Nor do the Bollinger bands. *)
Theorem C75_bands {N : FOps} {lost : F -> Prop} (A : spreading N lost) s p k xs : p >= 1 -> xs <> [] -> ok_rows s (rev xs) ->
  exists lo mid up sf s0, call (BollingerBands (Z.of_nat p) k) (tensors s xs) None true = Ok (Tup [tensors s lo; tensors s mid; tensors s up], sf, s0) /\
    forall i n j, i <= n < i + p -> p <= n + 1 -> n < length xs -> j < prod s -> lost (number xs j i) ->
      lost (number lo j n) /\ lost (number mid j n) /\ lost (number up j n).
Proof. exact (bands_lost A s p k xs). Qed.
Print Assumptions C75_bands.
(** The recursive averages never come back: neither from an input that is no number, nor from an output that is none, whatever made it so. *)
Theorem C75_averages {N : FOps} {lost : F -> Prop} (A : spreading N lost) s p op xs : p >= 1 -> op = ExponentialMovingAverage (Z.of_nat p) \/ op = RollingMovingAverage (Z.of_nat p) ->
  xs <> [] -> ok_rows s (rev xs) ->
  exists out sf s0, call op (tensors s xs) None true = Ok (tensors s out, sf, s0) /\ length out = length xs /\
    forall k n j, k <= n -> p <= n + 1 -> n < length xs -> j < prod s ->
      (lost (number xs j k) -> lost (number out j n)) /\ (p <= k + 1 -> lost (number out j k) -> lost (number out j n)).
Proof. exact (averages_lost A s p op xs). Qed.
Print Assumptions C75_averages.
(** Nor do the MACD line, its signal line and their difference. *)
Theorem C75_convergence {N : FOps} {lost : F -> Prop} (A : spreading N lost) s slow fast m xs : slow >= 1 -> fast >= 1 -> m >= 1 -> xs <> [] -> ok_rows s (rev xs) ->
  exists a b line signal hist sf s0, call (MovingAverageConvergenceDivergence (Z.of_nat slow) (Z.of_nat fast) (Z.of_nat m)) (tensors s xs) None true =
      Ok (Tup [a; b; tensors s line; tensors s signal; tensors s hist], sf, s0) /\
    forall k n j, k <= n -> n < length xs -> j < prod s -> lost (number xs j k) ->
      (slow <= n + 1 -> lost (number line j n)) /\ (slow + m <= n + 2 -> lost (number signal j n) /\ lost (number hist j n)).
Proof. exact (convergence_lost A s slow fast m xs). Qed.
Print Assumptions C75_convergence.
(** A momentum is no number where one of the two numbers it compares is none; a return where the later one is (the return from an
    infinity to a number is -1, see C75_return_met). *)
Theorem C75_momentum {N : FOps} {lost : F -> Prop} (A : spreading N lost) s p xs : p >= 1 -> xs <> [] -> ok_rows s (rev xs) ->
  exists out sf s0, call (Momentum (Z.of_nat p)) (tensors s xs) None true = Ok (tensors s out, sf, s0) /\ length out = length xs /\
    forall n j, p <= n < length xs -> j < prod s -> lost (number xs j n) \/ lost (number xs j (n - p)) -> lost (number out j n).
Proof. exact (momentum_lost A s p xs). Qed.
Print Assumptions C75_momentum.
Theorem C75_return {N : FOps} {lost : F -> Prop} (A : spreading N lost) p xs : p >= 1 -> xs <> [] -> short (rev xs) ->
  exists out sf s0, call (Return (Z.of_nat p)) (scalars xs) None true = Ok (scalars out, sf, s0) /\ length out = length xs /\
    forall n, p <= n < length xs -> lost (nth n xs f0) -> feq (nth (n - p) xs f0) f0 = false -> lost (nth n out f0).
Proof. exact (return_lost A p xs). Qed.
Print Assumptions C75_return.
(** Skewness, Sharpe ratio and correlation: no number while one of the inputs in the window is none. *)
Theorem C75_skewness {N : FOps} {lost : F -> Prop} (A : spreading N lost) p xs : p >= 1 -> (Z.of_nat p < 2147483648)%Z -> xs <> [] -> short (rev xs) ->
  exists out sf s0, call (Skewness (Z.of_nat p)) (scalars xs) None true = Ok (scalars out, sf, s0) /\ length out = length xs /\
    forall k n, k <= n < k + p -> n < length xs -> lost (nth k xs f0) -> lost (nth n out f0).
Proof. exact (skewness_lost A p xs). Qed.
Print Assumptions C75_skewness.
Theorem C75_sharpe {N : FOps} {lost : F -> Prop} (A : spreading N lost) p xs : p >= 1 -> (Z.of_nat p < 2147483648)%Z -> xs <> [] -> short (rev xs) ->
  exists out sf s0, call (SharpeRatio (Z.of_nat p)) (pairs xs) None true = Ok (scalars out, sf, s0) /\ length out = length xs /\
    forall k n, k <= n < k + p -> n < length xs -> lost (fst (nth k xs (f0, f0))) \/ lost (snd (nth k xs (f0, f0))) -> lost (nth n out f0).
Proof. exact (sharpe_lost A p xs). Qed.
Print Assumptions C75_sharpe.
Theorem C75_correlation {N : FOps} {lost : F -> Prop} (A : spreading N lost) s p xs : p >= 1 -> xs <> [] -> two_rows s (rev xs) ->
  exists out sf s0, call (Correlation (Z.of_nat p)) (tensor_pairs s xs) None true = Ok (tensors s out, sf, s0) /\ length out = length xs /\
    forall k n j, k <= n < k + p -> p <= n -> n < length xs -> j < prod s ->
      lost (number (map fst xs) j k) \/ lost (number (map snd xs) j k) -> lost (number out j n).
Proof. exact (correlation_lost A s p xs). Qed.
Print Assumptions C75_correlation.
(** Finite numbers are not enough: the greatest number of the format, twice, has an infinite average over 2 (its true average is the number
    itself), and an exponential or rolling average over 2 that starts so gives no number ever again, whatever follows.  (Inputs below
    2^90 are safe: C55.) *)
Theorem C75_overflow_refuted log32 : b32_finite max32 /\
  (exists out sf s0, @call (B32 log32) (@SimpleMovingAverage (B32 log32) 2) (@tensors (B32 log32) [1] [[max32]; [max32]]) None true =
      Ok (@tensors (B32 log32) [1] out, sf, s0) /\ @number (B32 log32) out 0 1 = S754_infinity false) /\
  forall op (ys : list (list (@F (B32 log32)))), op = @ExponentialMovingAverage (B32 log32) 2 \/ op = @RollingMovingAverage (B32 log32) 2 ->
    @ok_rows (B32 log32) [1] (rev ([max32] :: [max32] :: ys)) ->
    exists out sf s0, @call (B32 log32) op (@tensors (B32 log32) [1] ([max32] :: [max32] :: ys)) None true = Ok (@tensors (B32 log32) [1] out, sf, s0) /\
      length out = length ys + 2 /\ forall n, 1 <= n < length ys + 2 -> beyond32 (@number (B32 log32) out 0 n).
Proof. exact (conj (conj eq_refl eq_refl) (conj (overflow_sma log32) (overflow_for_good log32))). Qed.
Print Assumptions C75_overflow_refuted.

(** In float32: the numbers 1, infinity, 3, 4; the average over 2 recovers at the fourth, the exponential one never does, the return over 1 is
    infinite at the second, -1 at the third. *)
Definition f32 : FOps := B32 (fun x => x).
Definition n32 (z : Z) : spec_float := b32_of_Z z.
Definition row32 (l : list spec_float) : list (list spec_float) := map (fun x => [x]) l.
Definition out_of {A B C} (r : res (A * B * C)) : res A := match r with Ok (a, _, _) => Ok a | Err e => Err e end.
Definition inf32 : spec_float := S754_infinity false.
Example C75_met : beyond32 inf32 /\ @ok_rows f32 [1] (rev (row32 [n32 1; inf32; n32 3; n32 4])).
Proof. split; [exact I|]. split; [repeat constructor|]. unfold short. cbn. lia. Qed.
Example C75_windows_met : out_of (@call f32 (@SimpleMovingAverage f32 2) (@tensors f32 [1] (row32 [n32 1; inf32; n32 3; n32 4])) None true) =
  Ok (@tensors f32 [1] (row32 [n32 0; inf32; inf32; SFdiv prec32 emax32 (n32 7) (n32 2)])).
Proof. match goal with |- _ = ?b => vm_cast_no_check (eq_refl b) end. Qed.
Example C75_averages_met : out_of (@call f32 (@ExponentialMovingAverage f32 2) (@tensors f32 [1] (row32 [n32 1; inf32; n32 3; n32 4])) None true) =
  Ok (@tensors f32 [1] (row32 [n32 0; inf32; inf32; inf32])).
Proof. match goal with |- _ = ?b => vm_cast_no_check (eq_refl b) end. Qed.
Example C75_return_met : out_of (@call f32 (@Return f32 1) (@scalars f32 [n32 1; inf32; n32 3; n32 6]) None true) =
  Ok (@scalars f32 [n32 0; inf32; n32 (-1); n32 1]).
Proof. match goal with |- _ = ?b => vm_cast_no_check (eq_refl b) end. Qed.
