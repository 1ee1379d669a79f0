(** * PropsMarketReal: properties C28, C29, C31 and C32 in exact arithmetic (instance [ER]).
    [rcandle], [cfin]: candles of real numbers (RealMarket.v); [top_before xs n t]: [t] is the largest of the
    numbers before position [n], at least 0 (MarketReal.v). *)
From Coq Require Import Reals Lra List ZArith Bool Lia.
From Verif Require Import Num Py Tensor Streamable Meta Common Finance Series Formulas Positions
  ImplMarket ER RealFacts RealMarket MovingFacts MarketFacts MarketReal.
Import ListNotations.
Local Open Scope R_scope.

(** In [0, 100], or NaN exactly when no gain and no loss is left in the averages. *)
Theorem C28_exact p xs : (1 <= p)%nat -> xs <> [] -> short (rev xs) ->
  exists out sf s0, call (@RelativeStrengthIndex ER (Z.of_nat p)) (@scalars ER (map Fin xs)) None true = Ok (scalars out, sf, s0) /\
    length out = length xs /\
    forall n, (n < length xs)%nat ->
      (nth n out PInf = NaN \/ exists r, nth n out PInf = Fin r /\ 0 <= r <= 100) /\
      (nth n out PInf = NaN <->
       (p <= n)%nat /\ forall i, (1 <= i <= n)%nat -> (2 <= p)%nat \/ i = n -> nth i xs 0 = nth (i - 1) xs 0).
Proof. exact (rsi_real p xs). Qed.
Print Assumptions C28_exact.
(** Never negative. *)
Theorem C29_exact p xs : (1 <= p)%nat -> xs <> [] -> short (rev xs) ->
  exists out sf s0, call (@AverageTrueRange ER (Z.of_nat p)) (bars (map cfin xs)) None true = Ok (scalars out, sf, s0) /\
    length out = length xs /\
    forall n, (n < length xs)%nat -> exists a, nth n out NaN = Fin a /\ 0 <= a.
Proof. exact (atr_real p xs). Qed.
Print Assumptions C29_exact.
Theorem C31_exact xs : xs <> [] ->
  exists out sf s0, call (@HeikinAshi ER) (candles (map cfin xs)) None true = Ok (candles (map cfin out), sf, s0) /\
    length out = length xs /\
    forall n, (n < length xs)%nat ->
      let c := nth n xs no_rcandle in let b := nth (n - 1) xs no_rcandle in let o := nth n out no_rcandle in
      (n = O \/ r_open b = 0 -> o = c) /\
      (n <> O -> r_open b <> 0 ->
         r_open o = (r_open b + r_close b) / 2 /\
         r_close o = (r_open c + r_high c + r_low c + r_close c) / 4 /\
         r_high o = Rmax (r_high c) (Rmax (r_open o) (r_close o)) /\
         r_low o = Rmin (r_low c) (Rmin (r_open o) (r_close o)) /\
         r_low o <= r_open o <= r_high o /\ r_low o <= r_close o <= r_high o).
Proof. exact (ha_real xs). Qed.
Print Assumptions C31_exact.
Theorem C32_exact xs : xs <> [] -> below31 (rev xs) ->
  exists out (top : nat -> R) sf s0, call (@Drawdown ER) (@scalars ER (map Fin xs)) None true = Ok (drawdowns out, sf, s0) /\
    length out = length xs /\
    (forall n, (n <= length xs)%nat -> top_before xs n (top n)) /\
    forall n, (n < length xs)%nat ->
      fst (nth n out (NaN, 0%Z)) = Fin (if Rlt_dec (top n) (1 / 10000) then 0 else Rmin 0 (nth n xs 0 / top n - 1)) /\
      snd (nth n out (NaN, 0%Z)) = (if Rlt_dec (1 / 10000) (top (S n) - top n) then 0%Z
                                   else Z.add (if Nat.eqb n 0 then 0%Z else snd (nth (n - 1) out (NaN, 0%Z))) 1) /\
      ((forall i, (i <= n)%nat -> 0 <= nth i xs 0) -> exists d, fst (nth n out (NaN, 0%Z)) = Fin d /\ -1 <= d <= 0).
Proof. exact (drawdown_real xs). Qed.
Print Assumptions C32_exact.

Example C28_to_C32_met_real : ([3; 5; 5; 4] <> [] /\ short (rev [3; 5; 5; 4]) /\ below31 (rev [3; 5; 5; 4])) /\
  ([RC 1 3 1 2; RC 0 3 0 2] <> [] /\ short (rev [RC 1 3 1 2; RC 0 3 0 2])).
Proof. repeat split; try discriminate; unfold short, below31; cbn [rev app length]; lia. Qed.
