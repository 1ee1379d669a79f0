(** * PropsFall: property C82 — what the indicators say while the prices only fall (exact arithmetic).
    Vocabulary: Rise.v ([falling xs]: no number is above the one before it), Agree.v ([outputs op xs out]: streaming [op] over the numbers [xs] gives the numbers [out]; [at_pos]: the number at
    a position). *)
From Coq Require Import Reals Lra List ZArith Bool Lia.
From Verif Require Import Num Py Tensor Streamable Common Finance Series Formulas ER Linear RealMarket Steady Agree Rise FallFacts.
Import ListNotations.
Local Open Scope R_scope.

(** The averages stay above the price, never rise, and the longer the period the further above they are; the rolling average is above the exponential one. *)
Theorem C82_averages p q xs : (1 <= p <= q)%nat -> countable xs -> falling xs ->
  exists sma_p sma_q ema_p ema_q rma_p rma_q,
    outputs (SimpleMovingAverage (Z.of_nat p)) xs sma_p /\ outputs (SimpleMovingAverage (Z.of_nat q)) xs sma_q /\
    outputs (ExponentialMovingAverage (Z.of_nat p)) xs ema_p /\ outputs (ExponentialMovingAverage (Z.of_nat q)) xs ema_q /\
    outputs (RollingMovingAverage (Z.of_nat p)) xs rma_p /\ outputs (RollingMovingAverage (Z.of_nat q)) xs rma_q /\
    forall n, (n < length xs)%nat ->
      ((p <= n + 1)%nat -> at_pos xs n <= at_pos sma_p n /\ at_pos xs n <= at_pos ema_p n <= at_pos rma_p n) /\
      ((q <= n + 1)%nat -> at_pos sma_p n <= at_pos sma_q n /\ at_pos ema_p n <= at_pos ema_q n /\ at_pos rma_p n <= at_pos rma_q n) /\
      ((p <= n + 1)%nat -> (S n < length xs)%nat -> at_pos sma_p (S n) <= at_pos sma_p n /\ at_pos ema_p (S n) <= at_pos ema_p n /\ at_pos rma_p (S n) <= at_pos rma_p n).
Proof. exact (averages_fall p q xs). Qed.
Print Assumptions C82_averages.
(** So the crossover line, the MACD and its signal line are never positive, and the crossover signal says sell at most once: when the line leaves 0 for the first time, if that is after the warm-up. *)
Theorem C82_crossovers slow fast m xs : (1 <= fast <= slow)%nat -> (1 <= m)%nat -> countable xs -> falling xs ->
  exists cross signals s f macd signal histogram sf s0 sf' s0',
    outputs (SimpleMovingAverageCrossover (Z.of_nat slow) (Z.of_nat fast)) xs cross /\
    call (SimpleMovingAverageCrossoverSignal (Z.of_nat slow) (Z.of_nat fast)) (reals xs) None true = Ok (@ints ER signals, sf, s0) /\ length signals = length xs /\
    call (MovingAverageConvergenceDivergence (Z.of_nat slow) (Z.of_nat fast) (Z.of_nat m)) (reals xs) None true =
      Ok (Tup [reals s; reals f; reals macd; reals signal; reals histogram], sf', s0') /\ length macd = length xs /\ length signal = length xs /\
    forall n, (n < length xs)%nat -> at_pos cross n <= 0 /\ at_pos macd n <= 0 /\ at_pos signal n <= 0 /\
      (nth n signals 0%Z = 0%Z \/ nth n signals 0%Z = (-1)%Z) /\
      (nth n signals 0%Z = (-1)%Z <-> (slow <= n)%nat /\ at_pos cross n < 0 /\ forall k, (k < n)%nat -> at_pos cross k = 0).
Proof. exact (crossovers_fall slow fast m xs). Qed.
Print Assumptions C82_crossovers.
(** The mirrored prices do not give the mirrored signals: a fall that follows a pause is signalled, a rise that follows a pause is not (C80). *)
Theorem C82_mirrored_signals_refuted : exists sf s0 sf' s0',
  call (@SimpleMovingAverageCrossoverSignal ER 2 1) (reals [5; 5; 5; 4]) None true = Ok (@ints ER [0; 0; 0; -1]%Z, sf, s0) /\
  call (@SimpleMovingAverageCrossoverSignal ER 2 1) (reals [-5; -5; -5; -4]) None true = Ok (@ints ER [0; 0; 0; 0]%Z, sf', s0').
Proof. exact signals_not_mirrored. Qed.
Print Assumptions C82_mirrored_signals_refuted.
(** The minima are the last price, the global maximum is the first one and the local maximum the oldest of the window (all there is, at the start); the momentum is never positive. *)
Theorem C82_extrema p xs : (1 <= p)%nat -> (Z.of_nat p < 2147483648)%Z -> countable xs -> falling xs ->
  exists gmin gmax lmin lmax mom,
    outputs GlobalMinimum xs gmin /\ outputs GlobalMaximum xs gmax /\ outputs (LocalMinimum (Z.of_nat p)) xs lmin /\ outputs (LocalMaximum (Z.of_nat p)) xs lmax /\
    outputs (Momentum (Z.of_nat p)) xs mom /\
    forall n, (n < length xs)%nat ->
      at_pos gmin n = at_pos xs n /\ at_pos gmax n = at_pos xs 0 /\ at_pos lmin n = at_pos xs n /\ at_pos lmax n = at_pos xs (n + 1 - p) /\ at_pos mom n <= 0.
Proof. exact (extrema_fall p xs). Qed.
Print Assumptions C82_extrema.
(** The drawdown is what was lost since the first price, and the count of positions under water is the position. *)
Theorem C82_drawdown xs : countable xs -> falling xs -> 1 / 10000 < at_pos xs 0 ->
  exists depths sf s0, call Drawdown (reals xs) None true = Ok (drawdown_reals depths, sf, s0) /\ length depths = length xs /\
    forall n, (n < length xs)%nat -> nth n depths (0, 0%Z) = (at_pos xs n / at_pos xs 0 - 1, Z.of_nat n).
Proof. exact (drawdown_fall xs). Qed.
Print Assumptions C82_drawdown.
(** The relative strength index is 0 as soon as the series has fallen at all, and not a number before. *)
Theorem C82_strength p xs : (2 <= p)%nat -> countable xs -> falling xs ->
  exists (index : list ext) sf s0, call (RelativeStrengthIndex (Z.of_nat p)) (reals xs) None true = Ok (@scalars ER index, sf, s0) /\ length index = length xs /\
    forall n, (p <= n < length xs)%nat -> nth n index NaN = if Rlt_dec (at_pos xs n) (at_pos xs 0) then Fin 0 else NaN.
Proof. exact (strength_fall p xs). Qed.
Print Assumptions C82_strength.

(** The hypotheses are met, also by a series that rests and by one that ends below 0. *)
Example C82_met : countable [7; 5; 5; 2; -1; -1] /\ falling [7; 5; 5; 2; -1; -1] /\ (1 <= 2 <= 4)%nat /\ 1 / 10000 < at_pos [7; 5; 5; 2; -1; -1] 0 /\
  at_pos [7; 5; 5; 2; -1; -1] 2 < at_pos [7; 5; 5; 2; -1; -1] 0.
Proof.
  split; [split; [discriminate|cbn; lia]|]. split.
  { intros [|[|[|[|[|[|n]]]]]] H; cbn in H; try lia; unfold at_pos; cbn [nth]; lra. }
  split; [lia|unfold at_pos; cbn [nth]; lra].
Qed.
