(** * PropsWrap: property C46, continued — the 32-bit counters of the windows, returns, momentum, correlation and bands.
    Vocabulary: Wrap.v ([reading p n]: how many of the last values a window of [p] takes at position [n]; [change_forever],
    [momentum_forever], [correlation_forever], [window_forever]: the same operators over a history of any length), Positions.v ([number xs j n]).
    Below position 2^31 the operators are those of C17 to C41. *)
From Coq Require Import List ZArith Bool Lia.
From Coq Require Import Floats.SpecFloat.
From Verif Require Import Num Py Tensor Streamable Meta Common Finance Series Formulas Positions ImplWindow ImplCorr SpecHelpers B32 Wrap WrapFacts WrapPositions.
Import ListNotations.

(** From position 2^31 on, for the next 2^31 positions, returns, logarithmic returns, momenta and correlations are 0 again. *)
Theorem C46_returns {N : FOps} p op xs : p >= 1 -> op = Return (Z.of_nat p) \/ op = LogarithmicReturn (Z.of_nat p) -> xs <> [] ->
  exists out sf s0, call op (scalars xs) None true = Ok (scalars out, sf, s0) /\ length out = length xs /\
    forall n, n < length xs -> (2147483648 <= Z.of_nat n < 4294967296)%Z -> nth n out f0 = f0.
Proof. exact (returns_again p op xs). Qed.
Print Assumptions C46_returns.
Theorem C46_momentum {N : FOps} s p xs : p >= 1 -> xs <> [] -> shaped s (rev xs) ->
  exists out sf s0, call (Momentum (Z.of_nat p)) (tensors s xs) None true = Ok (tensors s out, sf, s0) /\ length out = length xs /\
    forall n j, n < length xs -> j < prod s -> (2147483648 <= Z.of_nat n < 4294967296)%Z -> number out j n = f0.
Proof. exact (momentum_again s p xs). Qed.
Print Assumptions C46_momentum.
Theorem C46_correlation {N : FOps} s p xs : p >= 1 -> xs <> [] -> shaped s (map fst (rev xs)) -> shaped s (map snd (rev xs)) ->
  exists out sf s0, call (Correlation (Z.of_nat p)) (tensor_pairs s xs) None true = Ok (tensors s out, sf, s0) /\ length out = length xs /\
    forall n j, n < length xs -> j < prod s -> (2147483648 <= Z.of_nat n < 4294967296)%Z -> number out j n = f0.
Proof. exact (correlation_again s p xs). Qed.
Print Assumptions C46_correlation.
(** The three Bollinger bands close on 0. *)
Theorem C46_bands {N : FOps} s p k xs : p >= 1 -> xs <> [] -> shaped s (rev xs) ->
  exists lo mid up sf s0, call (BollingerBands (Z.of_nat p) k) (tensors s xs) None true = Ok (Tup [tensors s lo; tensors s mid; tensors s up], sf, s0) /\
    forall n j, n < length xs -> j < prod s -> (2147483648 <= Z.of_nat n < 4294967296)%Z ->
      number lo j n = fsub f0 (fmul f0 (num k)) /\ number mid j n = f0 /\ number up j n = fadd f0 (fmul f0 (num k)).
Proof. exact (bands_again s p k xs). Qed.
Print Assumptions C46_bands.
(** Local extrema and skewness take the last [reading p n] values at position [n]: from 2^31 to 2^32 - p that is none at all. *)
Theorem C46_windows {N : FOps} p op f xs : p >= 1 -> (Z.of_nat p < 2147483648)%Z ->
  (op = LocalMinimum (Z.of_nat p) /\ f = frmin) \/ (op = LocalMaximum (Z.of_nat p) /\ f = frmax) \/ (op = Skewness (Z.of_nat p) /\ f = skew_of) -> xs <> [] ->
  exists out sf s0, call op (scalars xs) None true = Ok (scalars out, sf, s0) /\ length out = length xs /\
    forall n, n < length xs ->
      nth n out f0 = f (map (fun i => nth (n - i) xs f0) (seq 0 (reading p n))) /\
      ((2147483648 <= Z.of_nat n < 4294967296 - Z.of_nat p)%Z -> nth n out f0 = f []).
Proof. exact (windows_again p op f xs). Qed.
Print Assumptions C46_windows.
Theorem C46_sharpe {N : FOps} p xs : p >= 1 -> (Z.of_nat p < 2147483648)%Z -> xs <> [] ->
  exists out sf s0, call (SharpeRatio (Z.of_nat p)) (pairs xs) None true = Ok (scalars out, sf, s0) /\ length out = length xs /\
    forall n, n < length xs ->
      nth n out f0 = ratio (map (fun i => excess (nth (n - i) xs (f0, f0))) (seq 0 (reading p n))) /\
      ((2147483648 <= Z.of_nat n < 4294967296 - Z.of_nat p)%Z -> nth n out f0 = ratio []).
Proof. exact (sharpe_again p xs). Qed.
Print Assumptions C46_sharpe.
(** In float32 an empty window has minimum +infinity, maximum -infinity, and neither a skewness nor a Sharpe ratio. *)
Theorem C46_empty_window log32 : @frmin (B32 log32) [] = S754_infinity false /\ @frmax (B32 log32) [] = S754_infinity true /\
  @skew_of (B32 log32) [] = S754_nan /\ @ratio (B32 log32) [] = S754_nan.
Proof. exact (conj eq_refl (conj eq_refl (conj eq_refl eq_refl))). Qed.
Print Assumptions C46_empty_window.
(** Below position 2^31 a window takes the last [p] values, or all of them while there are fewer. *)
Theorem C46_reading p n : (Z.of_nat n < 2147483648)%Z -> reading p n = Nat.min p (S n).
Proof. exact (reading_first p n). Qed.
Print Assumptions C46_reading.
(** At every point of every history, resumed or not. *)
Theorem C46_change_history {N : FOps} p : p >= 1 ->
  streams (Return (Z.of_nat p)) (fun _ => True) scalars (fun hs => scalars (map (change_forever (fun q => fsub q f1) p) hs)) /\
  streams (LogarithmicReturn (Z.of_nat p)) (fun _ => True) scalars (fun hs => scalars (map (change_forever flog p) hs)).
Proof. exact (fun H => conj (ret_streams_forever p H) (log_ret_streams_forever p H)). Qed.
Print Assumptions C46_change_history.
Theorem C46_momentum_history {N : FOps} s p : p >= 1 ->
  streams (Momentum (Z.of_nat p)) (shaped s) (tensors s) (fun hs => tensors s (map (each s (momentum_forever p)) hs)).
Proof. exact (momentum_streams_forever s p). Qed.
Print Assumptions C46_momentum_history.
Theorem C46_correlation_history {N : FOps} s p : p >= 1 ->
  streams (Correlation (Z.of_nat p)) (fun h => shaped s (map fst h) /\ shaped s (map snd h)) (tensor_pairs s)
    (fun hs => tensors s (map (each2 s (correlation_forever p)) hs)).
Proof. exact (corr_streams_forever s p). Qed.
Print Assumptions C46_correlation_history.
Theorem C46_window_history {N : FOps} p op f : p >= 1 -> (Z.of_nat p < 2147483648)%Z ->
  (op = LocalMinimum (Z.of_nat p) /\ f = frmin) \/ (op = LocalMaximum (Z.of_nat p) /\ f = frmax) \/ (op = Skewness (Z.of_nat p) /\ f = skew_of) ->
  streams op (fun _ => True) scalars (fun hs => scalars (map (window_forever f p) hs)).
Proof. exact (window_streams_forever p op f). Qed.
Print Assumptions C46_window_history.
Theorem C46_sharpe_history {N : FOps} p : p >= 1 -> (Z.of_nat p < 2147483648)%Z ->
  streams (SharpeRatio (Z.of_nat p)) (fun _ => True) pairs (fun hs => scalars (map (fun h => window_forever ratio p (map excess h)) hs)).
Proof. exact (sharpe_streams_forever p). Qed.
Print Assumptions C46_sharpe_history.

(** A series that long exists; and in float32, resumed with a counter at its lowest value: the minimum of the last 2 numbers is infinite, the
    return over 1 is 0, while the same calls with the counter at 2 give 5 and 1. *)
Example C46_long_met : exists xs : list nat, xs <> [] /\ exists n, n < length xs /\ (2147483648 <= Z.of_nat n < 4294967296 - 2)%Z.
Proof.
  exists (repeat 0 (Z.to_nat 2147483649)). split; [intros E; apply (f_equal (@length nat)) in E; rewrite repeat_length in E; apply (f_equal Z.of_nat) in E; rewrite Z2Nat.id in E by lia; cbn in E; lia|].
  exists (Z.to_nat 2147483648). rewrite repeat_length. split; [apply Nat2Z.inj_lt|]; rewrite !Z2Nat.id by lia; lia.
Qed.
Definition f32 : FOps := B32 (fun x => x).
Definition n32 (z : Z) : spec_float := b32_of_Z z.
Definition out_of {A B C} (r : res (A * B * C)) : res A := match r with Ok (a, _, _) => Ok a | Err e => Err e end.
Definition buffer (l : list spec_float) : @val f32 := Leaf (@mkT f32 [length l] (@DF f32 l)).
Definition counter (z : Z) : @val f32 := Leaf (@isc f32 z).
Example C46_windows_met :
  out_of (@call f32 (@LocalMinimum f32 2) (@scalars f32 [n32 6]) (Some (Tup [buffer [n32 5; n32 4]; counter (-2147483648)])) true) =
    Ok (@scalars f32 [S754_infinity false]) /\
  out_of (@call f32 (@LocalMinimum f32 2) (@scalars f32 [n32 6]) (Some (Tup [buffer [n32 5; n32 4]; counter 2])) true) = Ok (@scalars f32 [n32 5]).
Proof. split; match goal with |- _ = ?b => vm_cast_no_check (eq_refl b) end. Qed.
Example C46_returns_met :
  out_of (@call f32 (@Return f32 1) (@scalars f32 [n32 6]) (Some (Tup [counter (-2147483648); buffer [n32 3]])) true) = Ok (@scalars f32 [n32 0]) /\
  out_of (@call f32 (@Return f32 1) (@scalars f32 [n32 6]) (Some (Tup [counter 2; buffer [n32 3]])) true) = Ok (@scalars f32 [n32 1]).
Proof. split; match goal with |- _ = ?b => vm_cast_no_check (eq_refl b) end. Qed.
