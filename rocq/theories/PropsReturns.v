(** * PropsReturns: properties C22 to C25 and C36 — returns, momentum, MACD, crossover, volatility.
    Vocabulary: Series.v, Positions.v ([number xs j n]: number [j] of the tensor at position [n]),
    Formulas.v. [feq f0 f0 = true] and [fsub f0 f0 = f0] are facts of the arithmetic, true of
    IEEE single precision ([B32]) and of exact arithmetic ([ER]): see [zero_arithmetic]. *)
From Coq Require Import List ZArith Bool Lia.
From Verif Require Import Num Py PyFacts Tensor Streamable Spec Meta Common Finance B32 ER Series Formulas Positions
  ImplBasic ImplScalar ImplComp ReturnFacts ZeroFacts Witness WitnessSeries.
Import ListNotations.

Theorem zero_arithmetic : (forall log32, let N := B32 log32 in feq f0 f0 = true /\ fsub f0 f0 = f0) /\
  (let N := ER in feq f0 f0 = true /\ fsub f0 f0 = f0).
Proof. exact zero_facts. Qed.
Print Assumptions zero_arithmetic.

(** ** C22: Return and LogarithmicReturn *)
Theorem C22_return {N : FOps} p xs : p >= 1 -> feq f0 f0 = true -> xs <> [] -> short (rev xs) ->
  exists out sf s0, call (Return (Z.of_nat p)) (scalars xs) None true = Ok (scalars out, sf, s0) /\
    length out = length xs /\
    forall n, n < length xs ->
      nth n out f0 = if (n <? p) || feq (nth (n - p) xs f0) f0 then f0
                     else fsub (fdiv (nth n xs f0) (nth (n - p) xs f0)) f1.
Proof. exact (ret_positions p xs). Qed.
Print Assumptions C22_return.
Theorem C22_logarithmic_return {N : FOps} p xs : p >= 1 -> feq f0 f0 = true -> xs <> [] -> short (rev xs) ->
  exists out sf s0, call (LogarithmicReturn (Z.of_nat p)) (scalars xs) None true = Ok (scalars out, sf, s0) /\
    length out = length xs /\
    forall n, n < length xs ->
      nth n out f0 = if (n <? p) || feq (nth (n - p) xs f0) f0 then f0
                     else flog (fdiv (nth n xs f0) (nth (n - p) xs f0)).
Proof. exact (log_ret_positions p xs). Qed.
Print Assumptions C22_logarithmic_return.
(** Also when the stream is resumed. *)
Theorem C22_return_history {N : FOps} p : p >= 1 -> feq f0 f0 = true ->
  streams (Return (Z.of_nat p)) short scalars (fun hs => scalars (map (ret p) hs)).
Proof. exact (ret_streams p). Qed.
Print Assumptions C22_return_history.
Theorem C22_logarithmic_return_history {N : FOps} p : p >= 1 -> feq f0 f0 = true ->
  streams (LogarithmicReturn (Z.of_nat p)) short scalars (fun hs => scalars (map (log_ret p) hs)).
Proof. exact (log_ret_streams p). Qed.
Print Assumptions C22_logarithmic_return_history.

(** ** C23: Momentum *)
Theorem C23_momentum {N : FOps} s p xs : p >= 1 -> xs <> [] -> ok_rows s (rev xs) ->
  exists out sf s0, call (Momentum (Z.of_nat p)) (tensors s xs) None true = Ok (tensors s out, sf, s0) /\
    length out = length xs /\
    forall n j, n < length xs -> j < prod s ->
      number out j n = if n <? p then f0 else fsub (number xs j n) (number xs j (n - p)).
Proof. exact (momentum_positions s p xs). Qed.
Print Assumptions C23_momentum.
Theorem C23_momentum_history {N : FOps} s p : p >= 1 ->
  streams (Momentum (Z.of_nat p)) (ok_rows s) (tensors s) (fun hs => tensors s (map (each s (momentum p)) hs)).
Proof. exact (momentum_streams s p). Qed.
Print Assumptions C23_momentum_history.

(** ** C24: MACD.  The averages are those of [ExponentialMovingAverage] (C18) streamed alone, and
    the signal is that of [ExponentialMovingAverage m] streamed over the MACD values from position
    slow - 1 on. *)
Theorem C24_macd {N : FOps} s slow fast m xs : slow >= 1 -> fast >= 1 -> m >= 1 -> xs <> [] -> ok_rows s (rev xs) ->
  exists eslow efast macd signal hist sf s0 sf1 s01 sf2 s02,
    call (MovingAverageConvergenceDivergence (Z.of_nat slow) (Z.of_nat fast) (Z.of_nat m)) (tensors s xs) None true =
      Ok (Tup [tensors s eslow; tensors s efast; tensors s macd; tensors s signal; tensors s hist], sf, s0) /\
    call (ExponentialMovingAverage (Z.of_nat slow)) (tensors s xs) None true = Ok (tensors s eslow, sf1, s01) /\
    call (ExponentialMovingAverage (Z.of_nat fast)) (tensors s xs) None true = Ok (tensors s efast, sf2, s02) /\
    length macd = length xs /\ length signal = length xs /\ length hist = length xs /\
    (slow <= length xs -> exists smooth sf3 s03,
      call (ExponentialMovingAverage (Z.of_nat m)) (tensors s (skipn (slow - 1) macd)) None true = Ok (tensors s smooth, sf3, s03) /\
      forall n j, slow <= n + 1 -> n < length xs -> j < prod s -> number signal j n = number smooth j (n - (slow - 1))) /\
    forall n j, n < length xs -> j < prod s ->
      number macd j n = (if n + 1 <? slow then f0 else fsub (number efast j n) (number eslow j n)) /\
      (n + 1 < slow -> number signal j n = f0) /\
      number hist j n = if n + 2 <? slow + m then f0 else fsub (number macd j n) (number signal j n).
Proof. exact (macd_positions s slow fast m xs). Qed.
Print Assumptions C24_macd.
Theorem C24_macd_history {N : FOps} s slow fast m : slow >= 1 -> fast >= 1 -> m >= 1 ->
  streams (MovingAverageConvergenceDivergence (Z.of_nat slow) (Z.of_nat fast) (Z.of_nat m)) (ok_rows s) (tensors s) (fun hs =>
    Tup [tensors s (map (each s (ema slow)) hs);
         tensors s (map (each s (ema fast)) hs);
         tensors s (map (each s (macd slow fast)) hs);
         tensors s (map (each s (macd_signal slow fast m)) hs);
         tensors s (map (each s (macd_histogram slow fast m)) hs)]).
Proof. exact (macd_streams s slow fast m). Qed.
Print Assumptions C24_macd_history.

(** ** C25: SimpleMovingAverageCrossover *)
Theorem C25_crossover {N : FOps} s slow fast xs : fsub f0 f0 = f0 -> slow >= 1 -> fast >= 1 -> xs <> [] -> ok_rows s (rev xs) ->
  exists out mslow mfast sf s0 sf1 s01 sf2 s02,
    call (SimpleMovingAverageCrossover (Z.of_nat slow) (Z.of_nat fast)) (tensors s xs) None true = Ok (tensors s out, sf, s0) /\
    call (SimpleMovingAverage (Z.of_nat slow)) (tensors s xs) None true = Ok (tensors s mslow, sf1, s01) /\
    call (SimpleMovingAverage (Z.of_nat fast)) (tensors s xs) None true = Ok (tensors s mfast, sf2, s02) /\
    length out = length xs /\
    forall n j, n < length xs -> j < prod s ->
      number out j n = if n + 1 <? slow then f0 else fsub (number mfast j n) (number mslow j n).
Proof. exact (crossover_zero s slow fast xs). Qed.
Print Assumptions C25_crossover.
Theorem C25_crossover_history {N : FOps} s slow fast : slow >= 1 -> fast >= 1 ->
  streams (SimpleMovingAverageCrossover (Z.of_nat slow) (Z.of_nat fast)) (ok_rows s) (tensors s)
    (fun hs => tensors s (map (each s (fun h => fsub (if length h <? slow then f0 else sma fast h) (sma slow h))) hs)).
Proof. exact (crossover_streams s slow fast). Qed.
Print Assumptions C25_crossover_history.

(** ** C36: Volatility *)
Theorem C36_volatility {N : FOps} m r xs : m >= 1 -> r >= 1 -> feq f0 f0 = true -> xs <> [] -> short (rev xs) ->
  exists out lr sf s0 sf1 s01,
    call (Volatility (Z.of_nat m) (Z.of_nat r)) (scalars xs) None true = Ok (scalars out, sf, s0) /\
    call (LogarithmicReturn (Z.of_nat r)) (scalars xs) None true = Ok (scalars lr, sf1, s01) /\
    length out = length xs /\
    forall n, n < length xs ->
      nth n out f0 = if n <? Nat.max m r then f0 else fsqrt (fvar (map (fun i => nth (n - i) lr f0) (seq 0 m))).
Proof. exact (volatility_positions m r xs). Qed.
Print Assumptions C36_volatility.
(** With r = 1 the window holds returns only... *)
Theorem C36_defined_returns {N : FOps} m xs : m >= 1 -> feq f0 f0 = true -> short (rev xs) -> xs <> [] ->
  exists out sf s0, call (Volatility (Z.of_nat m) 1) (scalars xs) None true = Ok (scalars out, sf, s0) /\
    length out = length xs /\
    forall n, n < length xs -> nth n out f0 = if n <? m then f0
      else fsqrt (fvar (map (fun i => if feq (nth (n - i - 1) xs f0) f0 then f0
                                      else flog (fdiv (nth (n - i) xs f0) (nth (n - i - 1) xs f0))) (seq 0 m))).
Proof. exact (volatility_defined m xs). Qed.
Print Assumptions C36_defined_returns.
(** ... and with r >= 2 and m >= 2 the first window after the warm-up still holds a placeholder. *)
Theorem C36_placeholders {N : FOps} m r xs : m >= 2 -> r >= 2 -> feq f0 f0 = true -> short (rev xs) -> Nat.max m r < length xs ->
  exists out lr sf s0 sf1 s01 i,
    call (Volatility (Z.of_nat m) (Z.of_nat r)) (scalars xs) None true = Ok (scalars out, sf, s0) /\
    call (LogarithmicReturn (Z.of_nat r)) (scalars xs) None true = Ok (scalars lr, sf1, s01) /\
    nth (Nat.max m r) out f0 = fsqrt (fvar (map (fun i => nth (Nat.max m r - i) lr f0) (seq 0 m))) /\
    i < m /\ Nat.max m r - i < r /\ nth (Nat.max m r - i) lr f0 = f0.
Proof. exact (volatility_placeholders m r xs). Qed.
Print Assumptions C36_placeholders.
Theorem C36_volatility_history {N : FOps} m r : m >= 1 -> r >= 1 -> feq f0 f0 = true ->
  streams (Volatility (Z.of_nat m) (Z.of_nat r)) short scalars (fun hs => scalars (map (volatility m r) hs)).
Proof. exact (volatility_streams m r). Qed.
Print Assumptions C36_volatility_history.

Example C22_to_C36_met : (w_numbers <> [] /\ short (rev w_numbers) /\ Nat.max 2 2 < length w_numbers) /\
  (w_rows <> [] /\ ok_rows [2] (rev w_rows) /\ 2 <= length w_rows).
Proof.
  split; (split; [discriminate|]); (split; [first [exact w_numbers_ok|exact w_rows_ok]|cbn [length w_numbers w_rows map Nat.max]; lia]).
Qed.
