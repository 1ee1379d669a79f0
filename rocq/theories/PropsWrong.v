(** * PropsWrong: property C84 — what one wrong number does (exact arithmetic).
    Vocabulary: Wrong.v ([one_wrong xs ys n e]: [ys] is [xs] but for the number at position [n], which is off by [e]; [ema_error p n e m]: the error of an exponential average at position [m]),
    Agree.v ([outputs op xs out]: streaming [op] over the numbers [xs] gives the numbers [out]; [countable]; [at_pos]: the number at a position). *)
From Coq Require Import Reals Lra List ZArith Bool Lia.
From Verif Require Import Num Py Tensor Streamable Common Finance Series Formulas ER RealFacts Linear Steady Agree AgreeFacts Wrong WrongFacts WrongExtrema.
Import ListNotations.
Local Open Scope R_scope.

(** The simple average is off by [e / p] while the wrong number is in its window; the exponential average by [2 e / (p + 1)] at first and (p - 1) / (p + 1) of the previous error from then on,
    the rolling one by [e / p] at first and (p - 1) / p of it from then on.  A wrong number among the first [p] does its harm, [e / p] for all three, at position [p - 1]. *)
Theorem C84_averages p xs ys n e : (1 <= p)%nat -> countable xs -> one_wrong xs ys n e ->
  exists sma sma' ema ema' rma rma', outputs (SimpleMovingAverage (Z.of_nat p)) xs sma /\ outputs (SimpleMovingAverage (Z.of_nat p)) ys sma' /\
    outputs (ExponentialMovingAverage (Z.of_nat p)) xs ema /\ outputs (ExponentialMovingAverage (Z.of_nat p)) ys ema' /\
    outputs (RollingMovingAverage (Z.of_nat p)) xs rma /\ outputs (RollingMovingAverage (Z.of_nat p)) ys rma' /\
    forall m, (m < length xs)%nat ->
      at_pos sma' m - at_pos sma m = (if ((m <? n) || (m + 1 <? p) || (n + p <=? m))%nat then 0 else e / INR p) /\
      at_pos ema' m - at_pos ema m = ema_error p n e m /\
      at_pos rma' m - at_pos rma m = (if ((m <? n) || (m + 1 <? p))%nat then 0 else ((INR p - 1) / INR p) ^ (m - Nat.max n (p - 1)) * (e / INR p)).
Proof. exact (averages_wrong p xs ys n e). Qed.
Print Assumptions C84_averages.
(** Momentum is wrong twice: by [e] at once and by [- e] [p] positions later. *)
Theorem C84_momentum p xs ys n e : (1 <= p)%nat -> countable xs -> one_wrong xs ys n e ->
  exists mom mom', outputs (Momentum (Z.of_nat p)) xs mom /\ outputs (Momentum (Z.of_nat p)) ys mom' /\
    forall m, (m < length xs)%nat -> at_pos mom' m - at_pos mom m = if (m <? p)%nat then 0 else if (m =? n)%nat then e else if (m =? n + p)%nat then - e else 0.
Proof. exact (momentum_wrong p xs ys n e). Qed.
Print Assumptions C84_momentum.
(** The MACD line is off by the difference of the errors of its two averages, wherever the wrong number is, once there are [slow] numbers; before, it is 0. *)
Theorem C84_macd slow fast q xs ys n e : (1 <= slow)%nat -> (1 <= fast)%nat -> (1 <= q)%nat -> countable xs -> one_wrong xs ys n e ->
  exists s f macd signal histogram s' f' macd' signal' histogram' sf s0 sf' s0',
    call (MovingAverageConvergenceDivergence (Z.of_nat slow) (Z.of_nat fast) (Z.of_nat q)) (reals xs) None true = Ok (Tup [reals s; reals f; reals macd; reals signal; reals histogram], sf, s0) /\
    call (MovingAverageConvergenceDivergence (Z.of_nat slow) (Z.of_nat fast) (Z.of_nat q)) (reals ys) None true = Ok (Tup [reals s'; reals f'; reals macd'; reals signal'; reals histogram'], sf', s0') /\
    length macd = length xs /\ length macd' = length ys /\
    forall m, (m < length xs)%nat ->
      at_pos macd' m - at_pos macd m = if (m + 1 <? slow)%nat then 0 else ema_error fast n e m - ema_error slow n e m.
Proof. exact (macd_wrong slow fast q xs ys n e). Qed.
Print Assumptions C84_macd.

(** A number too high is the maximum so far until a higher one comes, and the maximum of the last [p] while it is among them; a number too low likewise for the minima.
    The local extrema are right again [p] positions later, whatever the error; the global ones need not be, ever. *)
Theorem C84_extrema p xs ys n e : (1 <= p)%nat -> (Z.of_nat p < 2147483648)%Z -> countable xs -> one_wrong xs ys n e ->
  exists high high' low low' top top' bottom bottom',
    outputs GlobalMaximum xs high /\ outputs GlobalMaximum ys high' /\ outputs GlobalMinimum xs low /\ outputs GlobalMinimum ys low' /\
    outputs (LocalMaximum (Z.of_nat p)) xs top /\ outputs (LocalMaximum (Z.of_nat p)) ys top' /\ outputs (LocalMinimum (Z.of_nat p)) xs bottom /\ outputs (LocalMinimum (Z.of_nat p)) ys bottom' /\
    forall m, (m < length xs)%nat ->
      ((m < n)%nat -> at_pos high' m = at_pos high m /\ at_pos low' m = at_pos low m) /\
      ((m < n \/ n + p <= m)%nat -> at_pos top' m = at_pos top m /\ at_pos bottom' m = at_pos bottom m) /\
      ((n <= m)%nat -> 0 <= e -> at_pos high' m = Rmax (at_pos high m) (at_pos ys n)) /\
      ((n <= m)%nat -> e <= 0 -> at_pos low' m = Rmin (at_pos low m) (at_pos ys n)) /\
      ((n <= m < n + p)%nat -> 0 <= e -> at_pos top' m = Rmax (at_pos top m) (at_pos ys n)) /\
      ((n <= m < n + p)%nat -> e <= 0 -> at_pos bottom' m = Rmin (at_pos bottom m) (at_pos ys n)).
Proof. exact (extrema_wrong p xs ys n e). Qed.
Print Assumptions C84_extrema.

(** After a price too high every depth is measured from the false peak, until a higher price comes. *)
Theorem C84_drawdown xs ys n e : countable xs -> 1 / 10000 <= at_pos xs 0 -> one_wrong xs ys n e -> 0 <= e ->
  exists peaks depths depths' sf s0 sf' s0', outputs GlobalMaximum xs peaks /\
    call Drawdown (reals xs) None true = Ok (drawdown_reals depths, sf, s0) /\ call Drawdown (reals ys) None true = Ok (drawdown_reals depths', sf', s0') /\
    length depths = length xs /\ length depths' = length ys /\
    forall m, (m < length xs)%nat ->
      ((m < n)%nat -> fst (nth m depths' (0, 0%Z)) = fst (nth m depths (0, 0%Z))) /\
      ((n < m)%nat -> fst (nth m depths (0, 0%Z)) = at_pos xs m / at_pos peaks m - 1 /\ fst (nth m depths' (0, 0%Z)) = at_pos xs m / Rmax (at_pos peaks m) (at_pos ys n) - 1).
Proof. exact (drawdown_wrong xs ys n e). Qed.
Print Assumptions C84_drawdown.

(** The hypotheses are met: the price 3 written as 30. *)
Example C84_met : countable [1; 2; 3; 4] /\ 1 / 10000 <= at_pos [1; 2; 3; 4] 0 /\ one_wrong [1; 2; 3; 4] [1; 2; 30; 4] 2 27.
Proof.
  split; [split; [discriminate|cbn; lia]|]. split; [unfold at_pos; cbn; lra|]. split; [reflexivity|]. split; [cbn; lia|]. intros [|[|[|[|i]]]] Hi; cbn in Hi; try lia; unfold at_pos; cbn; ring.
Qed.
