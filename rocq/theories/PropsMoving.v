(** * PropsMoving: properties C15 to C21 — lag, overriding, moving averages, deviation, bands.
    Vocabulary: Series.v ([streams], [tensors], [each]), Positions.v ([number xs j n]: number [j]
    of the tensor at position [n]), Formulas.v (the textbook formulas). *)
From Coq Require Import List ZArith Bool Lia.
From Verif Require Import Num Py PyFacts Tensor Streamable Spec Meta Common Finance Series Formulas Positions
  ImplBasic  MovingFacts Witness WitnessSeries.
Import ListNotations.

(** ** C15: Lag *)
Theorem C15_lag {N : FOps} d s p xs : p >= 1 -> xs <> [] -> shaped s (rev xs) ->
  exists out sf s0, call (Lag (Z.of_nat p)) (series_of d s xs) None true = Ok (series_of d s out, sf, s0) /\
    length out = length xs /\
    forall n, n < length xs -> nth n out [] = if n <? p then repeat (zero_of d) (prod s) else nth (n - p) xs [].
Proof. exact (lag_positions d s p xs). Qed.
Print Assumptions C15_lag.
(** Also when the stream is resumed. *)
Theorem C15_lag_history {N : FOps} d s p : p >= 1 ->
  streams (Lag (Z.of_nat p)) (shaped s) (series_of d s)
    (fun hs => series_of d s (map (fun h => nth p h (repeat (zero_of d) (prod s))) hs)).
Proof. exact (lag_streams d s p). Qed.
Print Assumptions C15_lag_history.
Example C15_met : w_rows <> [] /\ shaped [2] (rev w_rows) /\
  shaped (A := Z) [] (rev [[1]; [2]; [3]]%Z) /\ shaped (A := bool) [3] (rev [[true; false; true]]).
Proof. repeat split; try discriminate; repeat constructor. Qed.

(** ** C16: SetDuring *)
Theorem C16_set_during {N : FOps} d (a : elt d) p k n v st :
  genuine v -> is_series n v -> n > 0 -> Forall (fun t => dtype_of t = d) (leaves v) ->
  (Z.of_nat (k + n) <= 2147483648)%Z ->
  st = Some (Tup [Leaf (isc (Z.of_nat k))]) \/ st = None /\ k = 0 ->
  exists o sf, call (SetDuring (mkT [] (mkD d [a])) (Z.of_nat p)) v st true =
      Ok (o, sf, Tup [Leaf (isc (Z.of_nat k))]) /\
    genuine o /\ is_series n o /\
    forall i, i < n -> row i o =
      if k + i <? p then vmap (fun t => mkT (sh t) (mkD d (repeat a (prod (sh t))))) (row i v) else row i v.
Proof. exact (setduring_series d a p k n v st). Qed.
Print Assumptions C16_set_during.
Example C16_met : let v := Tup [ser [1; 2; 3]%Z; Lst [mser 2 [[1; 2]; [3; 4]; [5; 6]]%Z]] in
  genuine v /\ is_series 3 v /\ Forall (fun t => dtype_of t = F32) (leaves v).
Proof.
  cbv zeta. split; [gen|]. split; [|repeat constructor]. split; [discriminate|].
  repeat constructor; eexists; reflexivity.
Qed.

(** ** C17: SimpleMovingAverage *)
Theorem C17_simple_moving_average {N : FOps} s p xs : p >= 1 -> xs <> [] -> ok_rows s (rev xs) ->
  exists out sf s0, call (SimpleMovingAverage (Z.of_nat p)) (tensors s xs) None true = Ok (tensors s out, sf, s0) /\
    length out = length xs /\
    forall n j, n < length xs -> j < prod s ->
      number out j n = if n + 1 <? p then f0
        else fdiv (fsum (map (fun i => number xs j (n - i)) (seq 0 p))) (f_of_Z (Z.of_nat p)).
Proof. exact (sma_positions s p xs). Qed.
Print Assumptions C17_simple_moving_average.
Theorem C17_simple_moving_average_history {N : FOps} s p : p >= 1 ->
  streams (SimpleMovingAverage (Z.of_nat p)) (ok_rows s) (tensors s) (fun hs => tensors s (map (each s (sma p)) hs)).
Proof. exact (sma_streams s p). Qed.
Print Assumptions C17_simple_moving_average_history.
Example C17_met : w_rows <> [] /\ ok_rows [2] (rev w_rows).
Proof. split; [exact w_rows_ne|exact w_rows_ok]. Qed.

(** ** C18: ExponentialMovingAverage *)
Theorem C18_recurrence {N : FOps} s p xs : p >= 1 -> xs <> [] -> ok_rows s (rev xs) ->
  exists out mean sf s0 sf' s0',
    call (ExponentialMovingAverage (Z.of_nat p)) (tensors s xs) None true = Ok (tensors s out, sf, s0) /\
    call (SimpleMovingAverage (Z.of_nat p)) (tensors s xs) None true = Ok (tensors s mean, sf', s0') /\
    length out = length xs /\
    forall n j, n < length xs -> j < prod s ->
      number out j n = if n + 1 <=? p then number mean j n
        else fadd (fmul (number xs j n) (f_of_D (ema_factor p)))
                  (fmul (number out j (n - 1)) (f_of_D (dsub (d_of_Z 1) (ema_factor p)))).
Proof. exact (ema_positions s p xs). Qed.
Print Assumptions C18_recurrence.
Theorem C18_history {N : FOps} s p : p >= 1 ->
  streams (ExponentialMovingAverage (Z.of_nat p)) (ok_rows s) (tensors s) (fun hs => tensors s (map (each s (ema p)) hs)).
Proof. exact (ema_streams s p). Qed.
Print Assumptions C18_history.

(** ** C19: RollingMovingAverage *)
Theorem C19_recurrence {N : FOps} s p xs : p >= 1 -> xs <> [] -> ok_rows s (rev xs) ->
  exists out mean sf s0 sf' s0',
    call (RollingMovingAverage (Z.of_nat p)) (tensors s xs) None true = Ok (tensors s out, sf, s0) /\
    call (SimpleMovingAverage (Z.of_nat p)) (tensors s xs) None true = Ok (tensors s mean, sf', s0') /\
    length out = length xs /\
    forall n j, n < length xs -> j < prod s ->
      number out j n = if n + 1 <=? p then number mean j n
        else fdiv (fadd (fmul (number out j (n - 1)) (f_of_Z (Z.of_nat p - 1))) (number xs j n)) (f_of_Z (Z.of_nat p)).
Proof. exact (rma_positions s p xs). Qed.
Print Assumptions C19_recurrence.
Theorem C19_history {N : FOps} s p : p >= 1 ->
  streams (RollingMovingAverage (Z.of_nat p)) (ok_rows s) (tensors s) (fun hs => tensors s (map (each s (rma p)) hs)).
Proof. exact (rma_streams s p). Qed.
Print Assumptions C19_history.

(** ** C20: MovingStandardDeviation *)
Theorem C20_deviation {N : FOps} s p xs : p >= 1 -> xs <> [] -> ok_rows s (rev xs) ->
  exists out sf s0, call (MovingStandardDeviation (Z.of_nat p)) (tensors s xs) None true = Ok (tensors s out, sf, s0) /\
    length out = length xs /\
    forall n j, n < length xs -> j < prod s ->
      number out j n = if n + 1 <? p then f0
        else fsqrt (fvar (map (fun i => number xs j (n - i)) (seq 0 p))).
Proof. exact (msd_positions s p xs). Qed.
Print Assumptions C20_deviation.
Theorem C20_history {N : FOps} s p : p >= 1 ->
  streams (MovingStandardDeviation (Z.of_nat p)) (ok_rows s) (tensors s) (fun hs => tensors s (map (each s (msd p)) hs)).
Proof. exact (msd_streams s p). Qed.
Print Assumptions C20_history.

(** ** C21: BollingerBands *)
Theorem C21_bands {N : FOps} s n k xs : n >= 1 -> xs <> [] -> ok_rows s (rev xs) ->
  exists lower middle upper dev sf s0 sf1 s01 sf2 s02,
    call (BollingerBands (Z.of_nat n) k) (tensors s xs) None true =
      Ok (Tup [tensors s lower; tensors s middle; tensors s upper], sf, s0) /\
    call (SimpleMovingAverage (Z.of_nat n)) (tensors s xs) None true = Ok (tensors s middle, sf1, s01) /\
    call (MovingStandardDeviation (Z.of_nat n)) (tensors s xs) None true = Ok (tensors s dev, sf2, s02) /\
    length lower = length xs /\ length middle = length xs /\ length upper = length xs /\
    forall i j, i < length xs -> j < prod s ->
      number lower j i = fsub (number middle j i) (fmul (number dev j i) (num k)) /\
      number upper j i = fadd (number middle j i) (fmul (number dev j i) (num k)).
Proof. exact (bollinger_positions s n k xs). Qed.
Print Assumptions C21_bands.
Theorem C21_history {N : FOps} s n k : n >= 1 ->
  streams (BollingerBands (Z.of_nat n) k) (ok_rows s) (tensors s) (fun hs =>
    Tup [tensors s (map (each s (fun c => fsub (sma n c) (fmul (msd n c) (num k)))) hs);
         tensors s (map (each s (sma n)) hs);
         tensors s (map (each s (fun c => fadd (sma n c) (fmul (msd n c) (num k)))) hs)]).
Proof. exact (bollinger_streams s n k). Qed.
Print Assumptions C21_history.
Example C18_to_C21_met : w_rows <> [] /\ ok_rows [2] (rev w_rows).
Proof. split; [exact w_rows_ne|exact w_rows_ok]. Qed.
