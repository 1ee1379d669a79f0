(** * PropsSigns: properties C56 (which signs, bounds and orders survive rounding to float32, and which do not) and C57
    (averages are monotone in float32).

    Everything here is about the bit-exact float32 of B32.v (any logarithm).  A comparison with NaN is false,
    so "not below" says nothing about NaN. *)
From Coq Require Import Reals Lia List ZArith Bool.
From Coq Require Import Floats.SpecFloat.
From Verif Require Import Num Py Tensor Streamable Meta Common Finance Series Formulas Positions
  B32 Rounding ImplBasic ImplComp ImplMarket ImplCorr MovingFacts MarketFacts RoundIeee SignMain SignPos MonoPos.
Import ListNotations.

(** A number of the format (NaN and infinities included); an order that NaN never violates. *)
Definition float32 (x : spec_float) : Prop := valid_binary prec32 emax32 x = true.
Definition not_above (a b : spec_float) : Prop := SFltb b a = false.
Notation zero := (b32_of_Z 0).

Section Float32.
Context (log32 : spec_float -> spec_float).
Notation N := (B32 log32).
(** Averages of numbers that are not negative are not negative. *)
Theorem C56_averages s p xs op : 1 <= p -> (Z.of_nat p <= 2 ^ 20)%Z -> xs <> [] -> @ok_rows N s (rev xs) ->
  In op [@SimpleMovingAverage N (Z.of_nat p); @ExponentialMovingAverage N (Z.of_nat p); @RollingMovingAverage N (Z.of_nat p)] ->
  Forall (Forall (not_above zero)) xs ->
  exists o sf s0, @call N op (@tensors N s xs) None true = Ok (@tensors N s o, sf, s0) /\ length o = length xs /\
    forall n j, n < length xs -> j < prod s -> not_above zero (@number N o j n).
Proof. exact (averages_nn log32 s p xs op). Qed.
(** A deviation is never negative, whatever the input. *)
Theorem C56_deviation s p xs : 1 <= p -> xs <> [] -> @ok_rows N s (rev xs) ->
  exists o sf s0, @call N (@MovingStandardDeviation N (Z.of_nat p)) (@tensors N s xs) None true = Ok (@tensors N s o, sf, s0) /\
    length o = length xs /\ forall n j, n < length xs -> j < prod s -> not_above zero (@number N o j n).
Proof. exact (deviation_nn log32 s p xs). Qed.
(** The bands are in order. *)
Theorem C56_bands s p k xs : 1 <= p -> not_above zero (@num N k) -> xs <> [] -> @ok_rows N s (rev xs) -> Forall (Forall float32) xs ->
  exists lower middle upper sf s0, @call N (@BollingerBands N (Z.of_nat p) k) (@tensors N s xs) None true =
      Ok (Tup [@tensors N s lower; @tensors N s middle; @tensors N s upper], sf, s0) /\
    length lower = length xs /\ length middle = length xs /\ length upper = length xs /\
    forall n j, n < length xs -> j < prod s ->
      not_above (@number N lower j n) (@number N middle j n) /\ not_above (@number N middle j n) (@number N upper j n).
Proof. exact (bands_ordered log32 s p k xs). Qed.
(** The relative strength index is NaN or between 0 and 100. *)
Theorem C56_relative_strength p xs : 1 <= p -> xs <> [] -> short (rev xs) -> Forall float32 xs ->
  exists o sf s0, @call N (@RelativeStrengthIndex N (Z.of_nat p)) (@scalars N xs) None true = Ok (@scalars N o, sf, s0) /\
    length o = length xs /\ forall n, n < length xs -> not_above zero (nth n o zero) /\ not_above (nth n o zero) (b32_of_Z 100).
Proof. exact (rsi_between log32 p xs). Qed.
(** The average true range of finite prices is not negative, however they are ordered. *)
Theorem C56_true_range p xs : 1 <= p -> xs <> [] -> short (rev xs) ->
  Forall (fun c => b32_finite (@c_high N c) /\ b32_finite (@c_low N c) /\ b32_finite (@c_close N c)) xs ->
  exists o sf s0, @call N (@AverageTrueRange N (Z.of_nat p)) (@bars N xs) None true = Ok (@scalars N o, sf, s0) /\
    length o = length xs /\ forall n, n < length xs -> not_above zero (nth n o zero).
Proof. exact (atr_positive log32 p xs). Qed.
(** A drawdown is never positive nor NaN, whatever the input; and at least -1 when no input is negative. *)
Theorem C56_drawdown xs : xs <> [] -> below31 (rev xs) ->
  exists o sf s0, @call N (@Drawdown N) (@scalars N xs) None true = Ok (@drawdowns N o, sf, s0) /\ length o = length xs /\
    forall n, n < length xs -> SFleb (fst (nth n o (zero, 0%Z))) zero = true /\
      (Forall float32 xs -> Forall (not_above zero) xs -> not_above (b32_of_Z (-1)) (fst (nth n o (zero, 0%Z)))).
Proof. exact (drawdown_between log32 xs). Qed.
(** From the second candle on (and after an open different from 0), a Heikin-Ashi candle contains its open, its close and the range
    of the candle it comes from, whatever the input. *)
Theorem C56_heikin_ashi xs : xs <> [] ->
  exists o sf s0, @call N (@HeikinAshi N) (@candles N xs) None true = Ok (@candles N o, sf, s0) /\ length o = length xs /\
    forall n, S n < length xs -> let c := nth (S n) xs (@no_candle N) in let b := nth n xs (@no_candle N) in
      let a := nth (S n) o (@no_candle N) in
      SFeqb (@c_open N b) zero = false ->
      Forall (fun x => not_above x (@c_high N a)) [@c_open N a; @c_close N a; @c_high N c] /\
      Forall (not_above (@c_low N a)) [@c_open N a; @c_close N a; @c_low N c].
Proof. exact (ha_contains log32 xs). Qed.
End Float32.
Print Assumptions C56_averages.
Print Assumptions C56_deviation.
Print Assumptions C56_bands.
Print Assumptions C56_relative_strength.
Print Assumptions C56_true_range.
Print Assumptions C56_drawdown.
Print Assumptions C56_heikin_ashi.

(** What does not survive: in float32 (integers below 2^24 are exact) the simple average of a constant series can be below it, the
    exponential average above it, the deviation of a constant series 1 instead of 0, and the correlation of a series with itself
    above 1. *)
Theorem C56_constant_refuted log32 : let N := B32 log32 in
  let a := b32_of_Z 8388610 in let b := b32_of_Z 8388613 in
  (exists o sf s0, @call N (@SimpleMovingAverage N 6) (@scalars N (repeat a 6)) None true = Ok (@scalars N o, sf, s0) /\
     nth 5 o a = b32_of_Z 8388609 /\ SFltb (nth 5 o a) a = true) /\
  (exists o sf s0, @call N (@ExponentialMovingAverage N 2) (@scalars N (repeat b 3)) None true = Ok (@scalars N o, sf, s0) /\
     nth 2 o b = b32_of_Z 8388614 /\ SFltb b (nth 2 o b) = true) /\
  (exists o sf s0, @call N (@MovingStandardDeviation N 6) (@scalars N (repeat a 6)) None true = Ok (@scalars N o, sf, s0) /\
     nth 5 o a = b32_of_Z 1).
Proof. exact (constant_not_kept log32). Qed.
Print Assumptions C56_constant_refuted.
Theorem C56_correlation_refuted log32 : let N := B32 log32 in
  let u := [b32_of_Z 0; b32_of_Z 1; b32_of_Z 0; b32_of_Z 0] in
  exists o sf s0, @call N (@Correlation N 3) (Tup [@scalars N u; @scalars N u]) None true = Ok (@scalars N o, sf, s0) /\
     SFltb (b32_of_Z 1) (nth 3 o zero) = true.
Proof. exact (correlation_above_one log32). Qed.
Print Assumptions C56_correlation_refuted.

(** Prices 0.1, 12.5, 7 and the candle (open 1, high 3, low 1, close 2) twice: the theorems apply to them. *)
Definition quotes32 : list spec_float :=
  [S754_finite false 13421773 (-27); S754_finite false 13107200 (-20); S754_finite false 14680064 (-21)].
Definition candle32 log32 : @candle (B32 log32) := @Candle (B32 log32) (b32_of_Z 1) (b32_of_Z 3) (b32_of_Z 1) (b32_of_Z 2).
Example C56_met log32 : let N := B32 log32 in let rows := map (fun x => [x]) quotes32 in let cs := [candle32 log32; candle32 log32] in
  (rows <> [] /\ @ok_rows N [1] (rev rows) /\ Forall (Forall (not_above zero)) rows /\ Forall (Forall float32) rows /\
   not_above zero (@num N (PyInt 2))) /\
  (quotes32 <> [] /\ below31 (rev quotes32) /\ short (rev quotes32) /\ Forall float32 quotes32 /\ Forall (not_above zero) quotes32) /\
  (cs <> [] /\ short (rev cs) /\ 1 < length cs /\ SFeqb (@c_open N (nth 0 cs (@no_candle N))) zero = false /\
   Forall (fun c => b32_finite (@c_high N c) /\ b32_finite (@c_low N c) /\ b32_finite (@c_close N c)) cs).
Proof.
  cbv zeta. split; [|split].
  - split; [discriminate|]. split; [split; [repeat (constructor; [reflexivity|]); constructor|unfold short; cbn; lia]|].
    split; [|split]; [..|reflexivity]; cbn [map quotes32]; repeat match goal with |- Forall _ _ => constructor end; reflexivity.
  - split; [discriminate|]. split; [unfold below31; cbn; lia|]. split; [unfold short; cbn; lia|].
    split; unfold quotes32; repeat match goal with |- Forall _ _ => constructor end; reflexivity.
  - split; [discriminate|]. split; [unfold short; cbn; lia|]. split; [cbn; lia|]. split; [reflexivity|].
    repeat match goal with |- Forall _ _ => constructor end; repeat split.
Qed.

(** C57: the averages of a series of finite float32 numbers that is nowhere above another one are nowhere above the averages of the
    other one, with rounding and overflow (an average may be infinite; it is never NaN). *)
Theorem C57_averages log32 s p xs ys op : let N := B32 log32 in 1 <= p -> (Z.of_nat p <= 2 ^ 20)%Z ->
  In op [@SimpleMovingAverage N (Z.of_nat p); @ExponentialMovingAverage N (Z.of_nat p); @RollingMovingAverage N (Z.of_nat p)] ->
  xs <> [] -> @ok_rows N s (rev xs) -> @ok_rows N s (rev ys) -> length ys = length xs ->
  (forall n j, n < length xs -> j < prod s ->
     b32_finite (@number N xs j n) /\ b32_finite (@number N ys j n) /\ SFleb (@number N xs j n) (@number N ys j n) = true) ->
  exists o sf s0 o' sf' s0',
    @call N op (@tensors N s xs) None true = Ok (@tensors N s o, sf, s0) /\
    @call N op (@tensors N s ys) None true = Ok (@tensors N s o', sf', s0') /\
    length o = length xs /\ length o' = length ys /\
    forall n j, n < length xs -> j < prod s -> SFleb (@number N o j n) (@number N o' j n) = true.
Proof. exact (averages_mono log32 s p xs ys op). Qed.
Print Assumptions C57_averages.
(** Two series, one below the other. *)
Example C57_met log32 : let N := B32 log32 in let xs := map (fun x => [x]) quotes32 in let ys := repeat [b32_of_Z 13] 3 in
  xs <> [] /\ @ok_rows N [1] (rev xs) /\ @ok_rows N [1] (rev ys) /\ length ys = length xs /\
  forall n j, n < length xs -> j < prod [1] ->
     b32_finite (@number N xs j n) /\ b32_finite (@number N ys j n) /\ SFleb (@number N xs j n) (@number N ys j n) = true.
Proof.
  cbv zeta. split; [discriminate|]. split; [split; [repeat (constructor; [reflexivity|]); constructor|unfold short; cbn; lia]|].
  split; [split; [repeat (constructor; [reflexivity|]); constructor|unfold short; cbn; lia]|]. split; [reflexivity|].
  intros [|[|[|n]]] [|j] Hn Hj; cbn in Hn, Hj; try lia; repeat split.
Qed.
