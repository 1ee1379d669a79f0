(** * PropsAgree: property C68 — the indicators of one series agree with each other (exact arithmetic).
    Vocabulary: Agree.v ([outputs op xs out]: streaming [op] over the numbers [xs] gives the numbers [out]; [at_pos]: the number at a position;
    [last_numbers p n xs]: the [p] numbers ending at position [n]; [outside lo hi l]: how many of the numbers [l] are below [lo] or above [hi]). *)
From Coq Require Import Reals Lra List ZArith Bool Lia.
From Verif Require Import Num Py Tensor Streamable Common Finance Series Formulas ER Linear RealMarket Steady Agree AgreeFacts.
Import ListNotations.
Local Open Scope R_scope.

(** The lowest number so far, the lowest of the last [p], the number itself, the highest of the last [p] and the highest so far are in this
    order; the simple average lies between the extrema of its window, the other averages between the extrema so far; and the extrema so far only move outwards. *)
Theorem C68_order p xs : (1 <= p)%nat -> (Z.of_nat p < 2147483648)%Z -> countable xs ->
  exists gmin lmin sma ema rma lmax gmax,
    outputs GlobalMinimum xs gmin /\ outputs (LocalMinimum (Z.of_nat p)) xs lmin /\ outputs (SimpleMovingAverage (Z.of_nat p)) xs sma /\
    outputs (ExponentialMovingAverage (Z.of_nat p)) xs ema /\ outputs (RollingMovingAverage (Z.of_nat p)) xs rma /\
    outputs (LocalMaximum (Z.of_nat p)) xs lmax /\ outputs GlobalMaximum xs gmax /\
    forall n, (n < length xs)%nat ->
      at_pos gmin n <= at_pos lmin n <= at_pos xs n /\ at_pos xs n <= at_pos lmax n <= at_pos gmax n /\
      ((p <= n + 1)%nat -> at_pos lmin n <= at_pos sma n <= at_pos lmax n /\ at_pos gmin n <= at_pos ema n <= at_pos gmax n /\ at_pos gmin n <= at_pos rma n <= at_pos gmax n) /\
      ((n + 1 < length xs)%nat -> at_pos gmin (n + 1) <= at_pos gmin n /\ at_pos gmax n <= at_pos gmax (n + 1)).
Proof. exact (order_agrees p xs). Qed.
Print Assumptions C68_order.
(** A longer window has a lower minimum and a higher maximum. *)
Theorem C68_windows p q xs : (1 <= p)%nat -> (p <= q)%nat -> (Z.of_nat q < 2147483648)%Z -> countable xs ->
  exists low_p low_q high_p high_q,
    outputs (LocalMinimum (Z.of_nat p)) xs low_p /\ outputs (LocalMinimum (Z.of_nat q)) xs low_q /\
    outputs (LocalMaximum (Z.of_nat p)) xs high_p /\ outputs (LocalMaximum (Z.of_nat q)) xs high_q /\
    forall n, (n < length xs)%nat -> at_pos low_q n <= at_pos low_p n /\ at_pos high_p n <= at_pos high_q n.
Proof. exact (windows_nest p q xs). Qed.
Print Assumptions C68_windows.
(** The simple average moves by a [p]-th of the momentum, which is at most the extent of the last [p + 1] numbers. *)
Theorem C68_momentum p xs : (1 <= p)%nat -> (Z.of_nat p < 2147483647)%Z -> countable xs ->
  exists sma mom low high,
    outputs (SimpleMovingAverage (Z.of_nat p)) xs sma /\ outputs (Momentum (Z.of_nat p)) xs mom /\
    outputs (LocalMinimum (Z.of_nat (p + 1))) xs low /\ outputs (LocalMaximum (Z.of_nat (p + 1))) xs high /\
    forall n, (p <= n < length xs)%nat ->
      at_pos sma n - at_pos sma (n - 1) = at_pos mom n / INR p /\ Rabs (at_pos mom n) <= at_pos high n - at_pos low n.
Proof. exact (momentum_agrees p xs). Qed.
Print Assumptions C68_momentum.
(** The deviation is at most half the extent of the window; average² + deviation² is the average of the squares. *)
Theorem C68_spread p xs : (1 <= p)%nat -> (Z.of_nat p < 2147483648)%Z -> countable xs ->
  exists sma msd low high squares,
    outputs (SimpleMovingAverage (Z.of_nat p)) xs sma /\ outputs (MovingStandardDeviation (Z.of_nat p)) xs msd /\
    outputs (LocalMinimum (Z.of_nat p)) xs low /\ outputs (LocalMaximum (Z.of_nat p)) xs high /\
    outputs (SimpleMovingAverage (Z.of_nat p)) (map (fun x => x * x) xs) squares /\
    forall n, (n < length xs)%nat -> (p <= n + 1)%nat ->
      0 <= at_pos msd n <= (at_pos high n - at_pos low n) / 2 /\ at_pos sma n * at_pos sma n + at_pos msd n * at_pos msd n = at_pos squares n.
Proof. exact (spread_agrees p xs). Qed.
Print Assumptions C68_spread.
(** The bands of factor [k] are the average and [k] deviations on both sides.  At most a part 1 / k² of the window lies outside them, and none of it where p - 1 <= k². *)
Theorem C68_bands p factor k xs : (1 <= p)%nat -> @Series.num ER factor = Fin k -> 0 <= k -> countable xs ->
  exists sma msd lower middle upper sf s0,
    outputs (SimpleMovingAverage (Z.of_nat p)) xs sma /\ outputs (MovingStandardDeviation (Z.of_nat p)) xs msd /\
    call (BollingerBands (Z.of_nat p) factor) (reals xs) None true = Ok (Tup [reals lower; reals middle; reals upper], sf, s0) /\
    length lower = length xs /\ length middle = length xs /\ length upper = length xs /\
    forall n, (n < length xs)%nat ->
      at_pos middle n = at_pos sma n /\ at_pos lower n = at_pos sma n - k * at_pos msd n /\ at_pos upper n = at_pos sma n + k * at_pos msd n /\
      ((p <= n + 1)%nat ->
        INR (outside (at_pos lower n) (at_pos upper n) (last_numbers p n xs)) * (k * k) <= INR p /\
        (INR p - 1 <= k * k -> outside (at_pos lower n) (at_pos upper n) (last_numbers p n xs) = 0%nat)).
Proof. exact (bands_agree p factor k xs). Qed.
Print Assumptions C68_bands.
(** For smaller factors a number above its own band exists. *)
Theorem C68_bands_sharp p factor k : (1 <= p)%nat -> (Z.of_nat p < 2147483648)%Z -> @Series.num ER factor = Fin k -> 0 <= k -> k * k < INR p - 1 ->
  exists xs lower middle upper sf s0, length xs = p /\
    call (BollingerBands (Z.of_nat p) factor) (reals xs) None true = Ok (Tup [reals lower; reals middle; reals upper], sf, s0) /\
    at_pos upper (p - 1) < at_pos xs (p - 1).
Proof. exact (bands_sharp p factor k). Qed.
Print Assumptions C68_bands_sharp.
(** The relative strength index is 50 (1 + a / b), where a and b are the rolling averages of the steps and of their absolute values. *)
Theorem C68_strength p xs : (1 <= p)%nat -> (p < length xs)%nat -> countable xs ->
  exists steps up_down moves (index : list ext) sf s0,
    outputs (Momentum 1) xs steps /\ outputs (RollingMovingAverage (Z.of_nat p)) (tl steps) up_down /\
    outputs (RollingMovingAverage (Z.of_nat p)) (map Rabs (tl steps)) moves /\
    call (RelativeStrengthIndex (Z.of_nat p)) (reals xs) None true = Ok (@scalars ER index, sf, s0) /\ length index = length xs /\
    forall n, (p <= n < length xs)%nat -> 0 < at_pos moves (n - 1) ->
      nth n index (Fin 0) = Fin (50 + 50 * (at_pos up_down (n - 1) / at_pos moves (n - 1))).
Proof. exact (strength_agrees p xs). Qed.
Print Assumptions C68_strength.
(** The depth of a drawdown is the relative distance to the highest number so far, if the first number is at least 0.0001. *)
Theorem C68_drawdown x0 r : let xs := x0 :: r in (Z.of_nat (length xs) < 2147483648)%Z -> 1 / 10000 <= x0 ->
  exists peaks depths sf s0,
    outputs GlobalMaximum xs peaks /\ call Drawdown (reals xs) None true = Ok (drawdown_reals depths, sf, s0) /\ length depths = length xs /\
    forall n, (n < length xs)%nat -> x0 <= at_pos peaks n /\ fst (nth n depths (0, 0%Z)) = at_pos xs n / at_pos peaks n - 1.
Proof. exact (drawdown_agrees x0 r). Qed.
Print Assumptions C68_drawdown.
(** A rolling average of period [p] and an exponential one of period 2 p - 1 weigh new numbers alike: their difference shrinks by the factor (p - 1) / p at each step, whatever the numbers. *)
Theorem C68_memories p xs : (1 <= p)%nat -> countable xs ->
  exists ema rma, outputs (ExponentialMovingAverage (Z.of_nat (2 * p - 1))) xs ema /\ outputs (RollingMovingAverage (Z.of_nat p)) xs rma /\
    forall n m, (2 * p - 1 <= n + 1)%nat -> (n + m < length xs)%nat ->
      at_pos ema (n + m) - at_pos rma (n + m) = ((INR p - 1) / INR p) ^ m * (at_pos ema n - at_pos rma n).
Proof. exact (memories_agree p xs). Qed.
Print Assumptions C68_memories.
(** The average true range is at least the rolling average of high - low. *)
Theorem C68_ranges p cs : (1 <= p)%nat -> cs <> [] -> (Z.of_nat (length cs) < 2147483648)%Z ->
  exists atr spread sf s0, call (AverageTrueRange (Z.of_nat p)) (bars_of cs) None true = Ok (reals atr, sf, s0) /\ length atr = length cs /\
    outputs (RollingMovingAverage (Z.of_nat p)) (map (fun c => r_high c - r_low c) cs) spread /\
    forall n, (n < length cs)%nat -> at_pos spread n <= at_pos atr n.
Proof. exact (ranges_agree p cs). Qed.
Print Assumptions C68_ranges.

(** A series of six numbers; windows of 2 and 3. *)
Example C68_met : countable [3; 1; 4; 1; 5; 9] /\ (1 <= 2 <= 3)%nat /\ 1 / 10000 <= 3 /\ last_numbers 3 4 [3; 1; 4; 1; 5; 9] = [4; 1; 5] /\ outside 2 4 [4; 1; 5] = 2%nat.
Proof.
  split; [split; [discriminate|cbn; lia]|]. split; [lia|]. split; [lra|]. split; [reflexivity|].
  unfold outside. cbn [filter]. repeat (match goal with |- context [Rlt_dec ?a ?b] => destruct (Rlt_dec a b); [try lra|try lra] end). reflexivity.
Qed.
(** With the usual factor 2, no number can leave the bands of a period of at most 5, and one can leave those of a period of 6. *)
Example C68_bands_met : @Series.num ER (PyInt 2) = Fin 2 /\ (forall p, (p <= 5)%nat -> INR p - 1 <= 2 * 2) /\ 2 * 2 < INR 6 - 1.
Proof.
  split; [reflexivity|]. split; [intros p H; apply le_INR in H; cbn in H; lra|cbn; lra].
Qed.
(** Steps that are not all zero: the rolling average of their absolute values is positive. *)
Example C68_strength_met : exists moves, outputs (RollingMovingAverage 2) (map Rabs [-2; 3; -3]) moves /\ 0 < at_pos moves 1 /\ 0 < at_pos moves 2.
Proof.
  assert (C : countable (map Rabs [-2; 3; -3])) by (split; [discriminate|cbn; lia]).
  eexists. split; [exact (rma_outputs _ C 2 ltac:(lia))|]. rewrite !run_at by (cbn; lia). unfold Positions.upto. cbn -[INR Rabs].
  unfold RealLinear.rsma, RealFacts.rmean, RealFacts.rsum. cbn. unfold Rabs. repeat destruct (Rcase_abs _); lra.
Qed.
