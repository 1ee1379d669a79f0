(** * PropsSignal: properties C26, C27 and C41 — signals and extrema.
    Vocabulary: Series.v, Positions.v ([number xs j n]: number [j] of the tensor at position [n]);
    SignalFacts.v: [inumber] likewise for integers, [was_negative x n] / [was_positive x n]: the last value
    of [x] different from 0 before position [n] is negative / is positive or there is none.
    [orderly N usable] (Order.v) lists what is needed of comparisons; [orderly_arithmetic]: it
    holds of IEEE single precision on all numbers but NaN, and of exact arithmetic. *)
From Coq Require Import List ZArith Bool Lia.
From Verif Require Import Num Py PyFacts Tensor Streamable Spec Meta Common Finance B32 ER Series Formulas Positions Order
  ImplBasic ImplScalar ImplComp ImplSignal ImplWindow SignalFacts StatFacts WitnessMarket Witness WitnessSeries.
Import ListNotations.

Theorem orderly_arithmetic : (forall log32, orderly (B32 log32) b32_usable) /\ orderly ER er_usable.
Proof. exact (conj b32_orderly er_orderly). Qed.
Print Assumptions orderly_arithmetic.

(** ** C26: ZeroCrossoverSignal *)
Theorem C26_zero_crossover {N : FOps} {usable : F -> Prop} (O : orderly N usable) s xs :
  xs <> [] -> ok_rows s (rev xs) -> Forall (Forall usable) xs ->
  exists out sf s0, call ZeroCrossoverSignal (tensors s xs) None true = Ok (int_tensors s out, sf, s0) /\
    length out = length xs /\
    forall n j, n < length xs -> j < prod s ->
      let x := number xs j in let o := inumber out j in
      (o n = 1 \/ o n = 0 \/ o n = -1)%Z /\
      o 0 = 0%Z /\
      (o n = 1%Z <-> n > 0 /\ flt f0 (x n) = true /\ was_negative x n) /\
      (o n = (-1)%Z <-> n > 0 /\ flt (x n) f0 = true /\ was_positive x n) /\
      (forall m, m < n -> o m <> 0%Z -> o n <> 0%Z -> (forall k, m < k < n -> o k = 0%Z) -> o n = (- o m)%Z).
Proof. exact (zc_positions O s xs). Qed.
Print Assumptions C26_zero_crossover.
(** Also when the stream is resumed: [crossing] in Formulas.v. *)
Theorem C26_zero_crossover_history {N : FOps} {usable : F -> Prop} (O : orderly N usable) s :
  streams ZeroCrossoverSignal (fun h => ok_rows s h /\ Forall (Forall usable) h) (tensors s)
    (fun hs => int_tensors s (map (each s crossing) hs)).
Proof. exact (zc_crossing O s). Qed.
Print Assumptions C26_zero_crossover_history.
Example C26_met : w_signed <> [] /\ ok_rows [2] (rev w_signed) /\ Forall (Forall b32_usable) w_signed.
Proof. split; [discriminate|]. split; [exact w_signed_ok|exact w_signed_usable]. Qed.

(** ** C27: the pipelines *)
Theorem C27_macd_signal {N : FOps} {usable : F -> Prop} (O : orderly N usable) s slow fast m xs :
  slow >= 1 -> fast >= 1 -> m >= 1 -> xs <> [] -> ok_rows s (rev xs) ->
  exists out a b c d hist zc sf s0 sf1 s01 sf2 s02,
    call (MovingAverageConvergenceDivergenceSignal (Z.of_nat slow) (Z.of_nat fast) (Z.of_nat m)) (tensors s xs) None true =
      Ok (int_tensors s out, sf, s0) /\
    call (MovingAverageConvergenceDivergence (Z.of_nat slow) (Z.of_nat fast) (Z.of_nat m)) (tensors s xs) None true =
      Ok (Tup [a; b; c; d; tensors s hist], sf1, s01) /\
    call ZeroCrossoverSignal (tensors s hist) None true = Ok (int_tensors s zc, sf2, s02) /\
    length out = length xs /\ length hist = length xs /\ length zc = length xs /\
    (forall n j, n < length xs -> j < prod s -> inumber out j n = if n + 2 <? slow + m then 0%Z else inumber zc j n) /\
    (** the signal emitted at the first defined position although nothing crossed *)
    (usable f0 -> forall j, j < prod s -> slow + m - 2 < length xs -> slow + m > 2 -> usable (number hist j (slow + m - 2)) ->
      flt (number hist j (slow + m - 2)) f0 = true -> inumber out j (slow + m - 2) = (-1)%Z).
Proof. exact (macd_sig_positions O s slow fast m xs). Qed.
Print Assumptions C27_macd_signal.
(** It happens: over 20, 20, 19, 15, 5 the first defined histogram value is negative, no defined value is
    positive, and -1 is emitted. *)
Theorem C27_no_crossing_refuted log32 :
  let N := B32 log32 in
  exists xs hist sigs a b c d sf1 s01 sf2 s02,
    call (MovingAverageConvergenceDivergence 2 1 2) (scalars xs) None true = Ok (Tup [a; b; c; d; scalars hist], sf1, s01) /\
    call (MovingAverageConvergenceDivergenceSignal 2 1 2) (scalars xs) None true = Ok (ints sigs, sf2, s02) /\
    (forall n, n < length xs -> flt f0 (nth n hist f0) = false) /\
    sigs = [0; 0; -1; 0; 0]%Z.
Proof. exact (macd_no_crossing log32). Qed.
Print Assumptions C27_no_crossing_refuted.
Theorem C27_crossover_signal {N : FOps} s slow fast xs : slow >= 1 -> fast >= 1 -> xs <> [] -> ok_rows s (rev xs) ->
  exists out cross zc sf s0 sf1 s01 sf2 s02,
    call (SimpleMovingAverageCrossoverSignal (Z.of_nat slow) (Z.of_nat fast)) (tensors s xs) None true =
      Ok (int_tensors s out, sf, s0) /\
    call (SimpleMovingAverageCrossover (Z.of_nat slow) (Z.of_nat fast)) (tensors s xs) None true = Ok (tensors s cross, sf1, s01) /\
    call ZeroCrossoverSignal (tensors s cross) None true = Ok (int_tensors s zc, sf2, s02) /\
    length out = length xs /\ length zc = length xs /\
    forall n j, n < length xs -> j < prod s -> inumber out j n = if n <? slow then 0%Z else inumber zc j n.
Proof. exact (crossover_sig_positions s slow fast xs). Qed.
Print Assumptions C27_crossover_signal.
Example C27_met : w_signed <> [] /\ ok_rows [2] (rev w_signed) /\ b32_usable (@f0 W) /\ 2 + 2 - 2 < length w_signed.
Proof. split; [discriminate|]. split; [exact w_signed_ok|]. split; [split; [reflexivity|discriminate]|cbn; lia]. Qed.

(** ** C41: extrema *)
Theorem C41_global_minimum {N : FOps} {usable : F -> Prop} (O : orderly N usable) xs : xs <> [] ->
  exists out sf s0, call GlobalMinimum (scalars xs) None true = Ok (scalars out, sf, s0) /\
    length out = length xs /\
    forall n, n < length xs -> (exists i, i <= n /\ nth n out f0 = nth i xs f0) /\
                               (forall i, i <= n -> flt (nth i xs f0) (nth n out f0) = false).
Proof. exact (global_min_positions O xs). Qed.
Print Assumptions C41_global_minimum.
Theorem C41_global_maximum {N : FOps} {usable : F -> Prop} (O : orderly N usable) xs : xs <> [] ->
  exists out sf s0, call GlobalMaximum (scalars xs) None true = Ok (scalars out, sf, s0) /\
    length out = length xs /\
    forall n, n < length xs -> (exists i, i <= n /\ nth n out f0 = nth i xs f0) /\
                               (forall i, i <= n -> flt (nth n out f0) (nth i xs f0) = false).
Proof. exact (global_max_positions O xs). Qed.
Print Assumptions C41_global_maximum.
Theorem C41_local_minimum {N : FOps} {usable : F -> Prop} (O : orderly N usable) p xs :
  p >= 1 -> (Z.of_nat p < 2147483648)%Z -> xs <> [] -> short (rev xs) -> Forall usable xs ->
  exists out sf s0, call (LocalMinimum (Z.of_nat p)) (scalars xs) None true = Ok (scalars out, sf, s0) /\
    length out = length xs /\
    forall n, n < length xs -> (exists i, i <= n /\ n < i + p /\ nth n out f0 = nth i xs f0) /\
                               (forall i, i <= n -> n < i + p -> flt (nth i xs f0) (nth n out f0) = false).
Proof. exact (local_min_positions O p xs). Qed.
Print Assumptions C41_local_minimum.
Theorem C41_local_maximum {N : FOps} {usable : F -> Prop} (O : orderly N usable) p xs :
  p >= 1 -> (Z.of_nat p < 2147483648)%Z -> xs <> [] -> short (rev xs) -> Forall usable xs ->
  exists out sf s0, call (LocalMaximum (Z.of_nat p)) (scalars xs) None true = Ok (scalars out, sf, s0) /\
    length out = length xs /\
    forall n, n < length xs -> (exists i, i <= n /\ n < i + p /\ nth n out f0 = nth i xs f0) /\
                               (forall i, i <= n -> n < i + p -> flt (nth n out f0) (nth i xs f0) = false).
Proof. exact (local_max_positions O p xs). Qed.
Print Assumptions C41_local_maximum.
(** Also when the stream is resumed. *)
Theorem C41_extrema_history {N : FOps} p : p >= 1 -> (Z.of_nat p < 2147483648)%Z ->
  streams GlobalMinimum (fun _ => True) scalars (fun hs => scalars (map (running flt) hs)) /\
  streams GlobalMaximum (fun _ => True) scalars (fun hs => scalars (map (running fgt) hs)) /\
  streams (LocalMinimum (Z.of_nat p)) short scalars (fun hs => scalars (map (fun h => frmin (firstn p h)) hs)) /\
  streams (LocalMaximum (Z.of_nat p)) short scalars (fun hs => scalars (map (fun h => frmax (firstn p h)) hs)).
Proof. exact (extrema_streams p). Qed.
Print Assumptions C41_extrema_history.
Example C41_met : w_numbers <> [] /\ short (rev w_numbers) /\ Forall b32_usable w_numbers.
Proof. split; [discriminate|]. split; [exact w_numbers_ok|exact w_numbers_usable]. Qed.
