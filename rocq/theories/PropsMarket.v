(** * PropsMarket: properties C28 to C32 — RSI, average true range, Supertrend, Heikin-Ashi, drawdown.
    Vocabulary: Series.v, Formulas.v ([candle], [trend], [next_trend], [calm]).
    [bars xs]: the series of closes, lows and highs; [candles xs]: of opens, highs, lows and closes;
    [drawdowns out]: of drawdowns and under-water counts.  [true_range] and [no_candle]: MarketFacts.v. *)
From Coq Require Import List ZArith Bool Lia.
From Verif Require Import Num Py PyFacts Tensor Streamable Spec Meta Common Finance B32 Series Formulas Positions
  ImplMarket MarketFacts WitnessMarket Witness WitnessSeries.
Import ListNotations.

(** ** C28: RelativeStrengthIndex *)
Theorem C28_rsi {N : FOps} p xs : p >= 1 -> xs <> [] -> short (rev xs) ->
  exists out gain loss sf s0, call (RelativeStrengthIndex (Z.of_nat p)) (scalars xs) None true = Ok (scalars out, sf, s0) /\
    length out = length xs /\
    (forall n, n < length xs -> nth n out f0 = if n <? p then f0
       else fsub (f_of_Z 100) (fdiv (f_of_Z 100) (fadd (f_of_Z 1) (fdiv (gain n) (loss n))))) /\
    let d i := fsub (nth i xs f0) (nth (i - 1) xs f0) in
    (p < length xs ->
       gain p = fmean (map (fun i => if flt f0 (d (p - i)) then d (p - i) else f0) (seq 0 p)) /\
       loss p = fneg (fmean (map (fun i => if flt (d (p - i)) f0 then d (p - i) else f0) (seq 0 p)))) /\
    (forall n, p < n -> n < length xs ->
       gain n = fdiv (fadd (fmul (gain (n - 1)) (f_of_Z (Z.of_nat p - 1))) (fmax f0 (d n))) (f_of_Z (Z.of_nat p)) /\
       loss n = fdiv (fadd (fmul (loss (n - 1)) (f_of_Z (Z.of_nat p - 1))) (fneg (fmin f0 (d n)))) (f_of_Z (Z.of_nat p))).
Proof. exact (rsi_positions p xs). Qed.
Print Assumptions C28_rsi.
Theorem C28_rsi_history {N : FOps} p : p >= 1 ->
  streams (RelativeStrengthIndex (Z.of_nat p)) short scalars (fun hs => scalars (map (rsi p) hs)).
Proof. exact (rsi_streams p). Qed.
Print Assumptions C28_rsi_history.

(** ** C29: AverageTrueRange *)
Theorem C29_average_true_range {N : FOps} p xs : p >= 1 -> xs <> [] -> short (rev xs) ->
  exists out sf s0 sf' s0', call (AverageTrueRange (Z.of_nat p)) (bars xs) None true = Ok (scalars out, sf, s0) /\
    call (RollingMovingAverage (Z.of_nat p)) (scalars (map (true_range xs) (seq 0 (length xs)))) None true = Ok (scalars out, sf', s0').
Proof. exact (atr_positions p xs). Qed.
Print Assumptions C29_average_true_range.
Theorem C29_average_true_range_history {N : FOps} p : p >= 1 ->
  streams (AverageTrueRange (Z.of_nat p)) short bars (fun hs => scalars (map (atr p) hs)).
Proof. exact (atr_streams p). Qed.
Print Assumptions C29_average_true_range_history.

(** ** C30: Supertrend *)
(** A successful call emits 0 while the average true range is 0 and otherwise one of the two lines; the
    lines follow [next_trend] (Formulas.v). *)
Theorem C30_supertrend_lines {N : FOps} p factor xs r : p >= 1 -> xs <> [] -> short (rev xs) ->
  call (Supertrend (Z.of_nat p) factor) (bars xs) None true = Ok r ->
  exists out a (T : nat -> trend) sf s0 sf' s0', r = (scalars out, sf, s0) /\
    call (AverageTrueRange (Z.of_nat p)) (bars xs) None true = Ok (scalars a, sf', s0') /\
    length out = length xs /\
    forall n, n < length xs ->
      let c := nth n xs no_candle in
      let before := if n =? 0 then no_trend else T (n - 1) in
      let prev_close := if n =? 0 then f0 else c_close (nth (n - 1) xs no_candle) in
      (feq (nth n a f0) f0 = true -> nth n out f0 = f0 /\ T n = no_trend) /\
      (feq (nth n a f0) f0 = false ->
         T n = next_trend (num factor) (nth n a f0) c prev_close before /\
         nth n out f0 = if Z.eqb (t_dir (T n)) 1 then t_up (T n) else t_down (T n)).
Proof. exact (super_cases p factor xs r). Qed.
Print Assumptions C30_supertrend_lines.
(** It succeeds exactly when no close is above the down line and below the up line at once. *)
Theorem C30_supertrend_succeeds_iff_calm {N : FOps} p factor xs : p >= 1 -> xs <> [] -> short (rev xs) ->
  (exists r, call (Supertrend (Z.of_nat p) factor) (bars xs) None true = Ok r) <-> calm p (num factor) (rev xs).
Proof. exact (super_total p factor xs). Qed.
Print Assumptions C30_supertrend_succeeds_iff_calm.
Theorem C30_supertrend_history {N : FOps} p factor : p >= 1 ->
  streams (Supertrend (Z.of_nat p) factor) (calm_short p (num factor)) bars
    (fun hs => scalars (map (fun h => t_line (supertrend p (num factor) h)) hs)).
Proof. exact (super_streams p factor). Qed.
Print Assumptions C30_supertrend_history.
(** Well-formed prices on which it aborts. *)
Theorem C30_supertrend_total_refuted log32 :
  let N := B32 log32 in
  exists xs, forallb (well_formed log32) xs = true /\ call (Supertrend 10 (PyInt 3)) (bars xs) None true = Err EAssert.
Proof. exact (supertrend_aborts log32). Qed.
Print Assumptions C30_supertrend_total_refuted.
Example C30_met log32 : let N := B32 log32 in
  (rising log32 <> [] /\ short (rev (rising log32))) /\ exists r, call (Supertrend 10 (PyInt 3)) (bars (rising log32)) None true = Ok r.
Proof. exact (conj (rising_short log32) (rising_succeeds log32)). Qed.

(** ** C31: HeikinAshi *)
Theorem C31_heikin_ashi {N : FOps} xs : xs <> [] -> feq f0 f0 = true ->
  exists out sf s0, call HeikinAshi (candles xs) None true = Ok (candles out, sf, s0) /\
    length out = length xs /\
    forall n, n < length xs ->
      let c := nth n xs no_candle in
      let b := nth (n - 1) xs no_candle in
      let close := fdiv (fsum [c_close c; c_low c; c_high c; c_open c]) (f_of_Z 4) in
      let open := fdiv (fadd (c_open b) (c_close b)) (f_of_Z 2) in
      nth n out no_candle = if (n =? 0) || feq (c_open b) f0 then c
        else Candle open (frmax [c_high c; close; open]) (frmin [c_low c; close; open]) close.
Proof. exact (ha_positions xs). Qed.
Print Assumptions C31_heikin_ashi.
Theorem C31_heikin_ashi_history {N : FOps} :
  streams HeikinAshi (fun _ => True) candles (fun hs => candles (map heikin_ashi hs)).
Proof. exact ha_streams. Qed.
Print Assumptions C31_heikin_ashi_history.

(** ** C32: Drawdown *)
Theorem C32_drawdown {N : FOps} xs : xs <> [] -> below31 (rev xs) ->
  exists out (top : nat -> F) sf s0, call Drawdown (scalars xs) None true = Ok (drawdowns out, sf, s0) /\
    length out = length xs /\
    top 0 = f0 /\
    forall n, n < length xs ->
      top (S n) = fmax (nth n xs f0) (top n) /\
      fst (nth n out (f0, 0%Z)) = (if flt (fabs (top n)) tolerance then f0 else fmin f0 (fsub (fdiv (nth n xs f0) (top n)) f1)) /\
      snd (nth n out (f0, 0%Z)) = if flt tolerance (fabs (fsub (top (S n)) (top n))) then 0%Z
                                  else Z.add (if n =? 0 then 0%Z else snd (nth (n - 1) out (f0, 0%Z))) 1.
Proof. exact (drawdown_positions xs). Qed.
Print Assumptions C32_drawdown.
Theorem C32_drawdown_history {N : FOps} :
  streams Drawdown below31 scalars (fun hs => drawdowns (map (fun h => (drawdown h, under_water h)) hs)).
Proof. exact drawdown_streams. Qed.
Print Assumptions C32_drawdown_history.

Example C28_to_C32_met : (w_numbers <> [] /\ short (rev w_numbers) /\ below31 (rev w_numbers)) /\ (w_candles <> [] /\ short (rev w_candles)).
Proof.
  split; [split; [discriminate|split; [exact w_numbers_ok|unfold below31; cbn [rev app length w_numbers map]; lia]]|].
  split; [discriminate|exact w_candles_ok].
Qed.
