(** * PropsSwapped: property C76 — crossovers and MACD whose two periods are given in the wrong order.
    Both take the period of the slow average first: [SimpleMovingAverageCrossover(slow, fast)], [MovingAverageConvergenceDivergence(slow, fast, macd)].
    Vocabulary: Agree.v ([outputs op xs out]: streaming [op] over the numbers [xs] gives the numbers [out]; [at_pos l n]: the number at position [n];
    [countable xs]: at least one number and fewer than 2^31); Line.v ([line a b len], [countably len]); Series.v ([reals], [ints]: series of numbers). *)
From Coq Require Import List ZArith Bool Reals Lra Lia.
From Verif Require Import Num Py Tensor Streamable Common Finance Series ER Linear RealMarket Agree Line SwappedFacts.
Import ListNotations.
Local Open Scope R_scope.

(** Once both averages exist the swapped crossover is the proper one with the sign changed; before that it is minus the level of the series. *)
Theorem C76_crossover short long xs : (1 <= short < long)%nat -> countable xs ->
  exists proper swapped average,
    outputs (SimpleMovingAverageCrossover (Z.of_nat long) (Z.of_nat short)) xs proper /\
    outputs (SimpleMovingAverageCrossover (Z.of_nat short) (Z.of_nat long)) xs swapped /\
    outputs (SimpleMovingAverage (Z.of_nat short)) xs average /\
    forall n, (n < length xs)%nat ->
      ((n + 1 < short)%nat -> at_pos swapped n = 0) /\
      ((short <= n + 1 < long)%nat -> at_pos swapped n = - at_pos average n) /\
      ((long <= n + 1)%nat -> at_pos swapped n = - at_pos proper n).
Proof. exact (crossover_swapped short long xs). Qed.
Print Assumptions C76_crossover.
(** The signal of the swapped crossover on positive numbers: its first value that may differ from 0 says on which side the averages start, not that they cross. *)
Theorem C76_signal short long xs : (1 <= short < long)%nat -> countable xs -> Forall (fun x => 0 < x) xs ->
  exists signals low high sf s0,
    call (SimpleMovingAverageCrossoverSignal (Z.of_nat short) (Z.of_nat long)) (reals xs) None true = Ok (@ints ER signals, sf, s0) /\ length signals = length xs /\
    outputs (SimpleMovingAverage (Z.of_nat short)) xs low /\ outputs (SimpleMovingAverage (Z.of_nat long)) xs high /\
    (forall n, (n < length xs)%nat -> (n + 1 < long)%nat -> nth n signals 0%Z = 0%Z) /\
    ((long <= length xs)%nat -> nth (long - 1) signals 0%Z = if Rlt_dec (at_pos low (long - 1)) (at_pos high (long - 1)) then 1%Z else 0%Z).
Proof. exact (signal_swapped short long xs). Qed.
Print Assumptions C76_signal.
(** So swapping the periods does not just change the sign of the signals: on every falling line of positive numbers the averages never cross;
    the proper signal stays silent, the swapped one says buy. *)
Theorem C76_signal_refuted short long a b len : (1 <= short < long)%nat -> (long <= len)%nat -> b < 0 -> 0 < a + b * (INR len - 1) -> countably len ->
  exists swapped sf s0 sf' s0',
    call (SimpleMovingAverageCrossoverSignal (Z.of_nat long) (Z.of_nat short)) (reals (line a b len)) None true = Ok (@ints ER (repeat 0%Z len), sf, s0) /\
    call (SimpleMovingAverageCrossoverSignal (Z.of_nat short) (Z.of_nat long)) (reals (line a b len)) None true = Ok (@ints ER swapped, sf', s0') /\
    length swapped = len /\ nth (long - 1) swapped 0%Z = 1%Z.
Proof. exact (signal_swapped_line short long a b len). Qed.
Print Assumptions C76_signal_refuted.
(** The MACD line, likewise, with exponential averages. *)
Theorem C76_macd short long m xs : (1 <= short < long)%nat -> (1 <= m)%nat -> countable xs ->
  exists low high proper swapped s1 h1 s2 h2 sf s0 sf' s0',
    call (MovingAverageConvergenceDivergence (Z.of_nat long) (Z.of_nat short) (Z.of_nat m)) (reals xs) None true =
      Ok (Tup [reals high; reals low; reals proper; s1; h1], sf, s0) /\
    call (MovingAverageConvergenceDivergence (Z.of_nat short) (Z.of_nat long) (Z.of_nat m)) (reals xs) None true =
      Ok (Tup [reals low; reals high; reals swapped; s2; h2], sf', s0') /\
    length low = length xs /\ length high = length xs /\ length proper = length xs /\ length swapped = length xs /\
    forall n, (n < length xs)%nat ->
      ((n + 1 < short)%nat -> at_pos swapped n = 0) /\
      ((short <= n + 1 < long)%nat -> at_pos swapped n = - at_pos low n) /\
      ((long <= n + 1)%nat -> at_pos swapped n = - at_pos proper n).
Proof. exact (macd_swapped short long m xs). Qed.
Print Assumptions C76_macd.
(** But its signal line and histogram have averaged the level of the series and never forget it: on a series that never changes they are never 0 again,
    only smaller by (m - 1) / (m + 1) at every step (with the periods in order they are 0: C74_macd with step 0). *)
Theorem C76_macd_refuted short long m c len : (1 <= short < long)%nat -> (2 <= m)%nat -> c <> 0 -> countably len ->
  exists s f macd signal histogram sf s0,
    call (MovingAverageConvergenceDivergence (Z.of_nat short) (Z.of_nat long) (Z.of_nat m)) (reals (repeat c len)) None true =
      Ok (Tup [s; f; reals macd; reals signal; reals histogram], sf, s0) /\
    length macd = len /\ length signal = len /\ length histogram = len /\
    forall n, (n < len)%nat -> (long <= n + 1)%nat -> (short + m <= n + 2)%nat ->
      at_pos macd n = 0 /\ c * at_pos signal n < 0 /\ at_pos histogram n = - at_pos signal n /\
      ((n + 1 < len)%nat -> at_pos signal (n + 1) = (INR m - 1) / (INR m + 1) * at_pos signal n).
Proof. exact (macd_swapped_flat short long m c len). Qed.
Print Assumptions C76_macd_refuted.

(** A falling line of 40 numbers from 100 and a flat one, the usual periods 12, 26 and 9 in the wrong order. *)
Example C76_met : (1 <= 12 < 26)%nat /\ (26 <= 40)%nat /\ (2 <= 9)%nat /\ countably 40 /\ countable (line 100 (-1) 40) /\ Forall (fun x => 0 < x) (line 100 (-1) 40) /\
  0 < 100 + -1 * (INR 40 - 1) /\ (100 : R) <> 0 /\ (40 > 26 + 9)%nat.
Proof.
  assert (I : INR 40 = 40) by (rewrite INR_IZR_INZ; reflexivity). assert (C : countably 40) by (split; [lia|reflexivity]).
  do 3 (split; [lia|]). split; [exact C|]. split; [now apply LineFacts.line_countable|]. split.
  - apply Forall_forall. intros x Hx. unfold line in Hx. apply in_map_iff in Hx as (i & <- & Hi). apply in_seq in Hi. pose proof (le_INR i 40 ltac:(lia)). lra.
  - rewrite I. split; [lra|]. split; [lra|lia].
Qed.
