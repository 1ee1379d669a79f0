(** * PropsRise: property C80 — what the indicators say while the prices only rise (exact arithmetic).
    Vocabulary: Rise.v ([rising xs]: no number is below the one before it), Agree.v ([outputs op xs out]: streaming [op] over the numbers [xs] gives the numbers [out]; [at_pos]: the number at
    a position). *)
From Coq Require Import Reals Lra List ZArith Bool Lia.
From Verif Require Import Num Py Tensor Streamable Common Finance Series Formulas ER Linear RealMarket Steady Agree Rise RiseFacts.
Import ListNotations.
Local Open Scope R_scope.

(** The averages run behind the price, never fall, and the longer the period the further behind they are; the rolling average is behind the exponential one. *)
Theorem C80_averages p q xs : (1 <= p <= q)%nat -> countable xs -> rising xs ->
  exists sma_p sma_q ema_p ema_q rma_p rma_q,
    outputs (SimpleMovingAverage (Z.of_nat p)) xs sma_p /\ outputs (SimpleMovingAverage (Z.of_nat q)) xs sma_q /\
    outputs (ExponentialMovingAverage (Z.of_nat p)) xs ema_p /\ outputs (ExponentialMovingAverage (Z.of_nat q)) xs ema_q /\
    outputs (RollingMovingAverage (Z.of_nat p)) xs rma_p /\ outputs (RollingMovingAverage (Z.of_nat q)) xs rma_q /\
    forall n, (n < length xs)%nat ->
      ((p <= n + 1)%nat -> at_pos sma_p n <= at_pos xs n /\ at_pos rma_p n <= at_pos ema_p n <= at_pos xs n) /\
      ((q <= n + 1)%nat -> at_pos sma_q n <= at_pos sma_p n /\ at_pos ema_q n <= at_pos ema_p n /\ at_pos rma_q n <= at_pos rma_p n) /\
      ((p <= n + 1)%nat -> (S n < length xs)%nat -> at_pos sma_p n <= at_pos sma_p (S n) /\ at_pos ema_p n <= at_pos ema_p (S n) /\ at_pos rma_p n <= at_pos rma_p (S n)).
Proof. exact (averages_rise p q xs). Qed.
Print Assumptions C80_averages.
(** So the crossover line, the MACD and its signal line are never negative, and the crossover signal is silent. *)
Theorem C80_crossovers slow fast m xs : (1 <= fast <= slow)%nat -> (1 <= m)%nat -> countable xs -> rising xs ->
  exists cross signals s f macd signal histogram sf s0 sf' s0',
    outputs (SimpleMovingAverageCrossover (Z.of_nat slow) (Z.of_nat fast)) xs cross /\
    call (SimpleMovingAverageCrossoverSignal (Z.of_nat slow) (Z.of_nat fast)) (reals xs) None true = Ok (@ints ER signals, sf, s0) /\ length signals = length xs /\
    call (MovingAverageConvergenceDivergence (Z.of_nat slow) (Z.of_nat fast) (Z.of_nat m)) (reals xs) None true =
      Ok (Tup [reals s; reals f; reals macd; reals signal; reals histogram], sf', s0') /\ length macd = length xs /\ length signal = length xs /\
    forall n, (n < length xs)%nat -> 0 <= at_pos cross n /\ nth n signals 0%Z = 0%Z /\ 0 <= at_pos macd n /\ 0 <= at_pos signal n.
Proof. exact (crossovers_rise slow fast m xs). Qed.
Print Assumptions C80_crossovers.
(** The maxima are the last price, the global minimum is the first one and the local minimum the oldest of the window (all there is, at the start); the momentum is never negative. *)
Theorem C80_extrema p xs : (1 <= p)%nat -> (Z.of_nat p < 2147483648)%Z -> countable xs -> rising xs ->
  exists gmin gmax lmin lmax mom,
    outputs GlobalMinimum xs gmin /\ outputs GlobalMaximum xs gmax /\ outputs (LocalMinimum (Z.of_nat p)) xs lmin /\ outputs (LocalMaximum (Z.of_nat p)) xs lmax /\
    outputs (Momentum (Z.of_nat p)) xs mom /\
    forall n, (n < length xs)%nat ->
      at_pos gmin n = at_pos xs 0 /\ at_pos gmax n = at_pos xs n /\ at_pos lmin n = at_pos xs (n + 1 - p) /\ at_pos lmax n = at_pos xs n /\ 0 <= at_pos mom n.
Proof. exact (extrema_rise p xs). Qed.
Print Assumptions C80_extrema.
(** There is no drawdown. *)
Theorem C80_drawdown xs : countable xs -> rising xs ->
  exists depths sf s0, call Drawdown (reals xs) None true = Ok (drawdown_reals depths, sf, s0) /\ length depths = length xs /\
    forall n, (n < length xs)%nat -> fst (nth n depths (0, 0%Z)) = 0.
Proof. exact (drawdown_rise xs). Qed.
Print Assumptions C80_drawdown.
(** The relative strength index is 100 as soon as the series has risen at all, and not a number before. *)
Theorem C80_strength p xs : (2 <= p)%nat -> countable xs -> rising xs ->
  exists (index : list ext) sf s0, call (RelativeStrengthIndex (Z.of_nat p)) (reals xs) None true = Ok (@scalars ER index, sf, s0) /\ length index = length xs /\
    forall n, (p <= n < length xs)%nat -> nth n index NaN = if Rlt_dec (at_pos xs 0) (at_pos xs n) then Fin 100 else NaN.
Proof. exact (strength_rise p xs). Qed.
Print Assumptions C80_strength.

(** The hypotheses are met, also by a series that rests and by one that starts below 0. *)
Example C80_met : countable [-1; -1; 2; 5; 5; 7] /\ rising [-1; -1; 2; 5; 5; 7] /\ (1 <= 2 <= 4)%nat /\
  at_pos [-1; -1; 2; 5; 5; 7] 0 < at_pos [-1; -1; 2; 5; 5; 7] 2.
Proof.
  split; [split; [discriminate|cbn; lia]|]. split.
  { intros [|[|[|[|[|[|n]]]]]] H; cbn in H; try lia; unfold at_pos; cbn [nth]; lra. }
  split; [lia|unfold at_pos; cbn [nth]; lra].
Qed.
