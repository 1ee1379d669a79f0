(** * PropsRisk: properties C37 and C38 — RiskRatioEvaluator.
    [ticks xs]: the series of lows, highs, closes and input signals.  RiskFacts.v:
    [risk_run ... xs wins bets vols sigs]: the call succeeds with the series [wins] (successful bets), [bets]
    (total bets), [vols] (volatilities: the moving standard deviation of the closes) and [sigs] (signals);
    [zat l n] the element [n], [zbefore l n] the element [n-1], 0 at the start;
    [stop_of], [limit_of]: close - stop factor * volatility, close + limit factor * volatility;
    [bought sigs i n]: 1 was emitted at [i < n] and nothing but 0 between; [idle sigs n]: nothing but 0 was
    emitted before [n], or nothing but 0 since a -1.
    [feq f0 f0 = true]: see [zero_arithmetic] in PropsReturns.v. *)
From Coq Require Import List ZArith Bool Lia.
From Verif Require Import Num Py PyFacts Tensor Streamable Spec Meta Common Finance B32 Series Formulas Positions
  ImplMarket ImplRisk RiskFacts WitnessRisk.
Import ListNotations.

(** What [risk_run] says, in terms of the calls. *)
Example risk_run_is {N : FOps} stop limit p duration xs wins bets vols sigs :
  risk_run stop limit p duration xs wins bets vols sigs <->
  exists sf s0 sf' s0',
    call (RiskRatioEvaluator stop limit (Z.of_nat p) duration) (ticks xs) None true =
      Ok (Tup [ints wins; ints bets; scalars vols; ints sigs], sf, s0) /\
    call (MovingStandardDeviation (Z.of_nat p)) (scalars (map k_close xs)) None true = Ok (scalars vols, sf', s0') /\
    length wins = length xs /\ length bets = length xs /\ length vols = length xs /\ length sigs = length xs.
Proof. exact (iff_refl _). Qed.
Theorem C37_succeeds {N : FOps} stop limit p duration xs : p >= 1 -> feq f0 f0 = true -> xs <> [] -> below31 (rev xs) ->
  exists wins bets vols sigs, risk_run stop limit p duration xs wins bets vols sigs.
Proof. exact (risk_succeeds stop limit p duration xs). Qed.
Print Assumptions C37_succeeds.
Theorem C37_accounting {N : FOps} stop limit p duration xs wins bets vols sigs :
  p >= 1 -> feq f0 f0 = true -> xs <> [] -> below31 (rev xs) -> risk_run stop limit p duration xs wins bets vols sigs ->
  forall n, n < length xs ->
     (zat sigs n = 1 \/ zat sigs n = 0 \/ zat sigs n = -1)%Z /\
     (0 <= zat wins n <= zat bets n)%Z /\
     zat bets n = (zbefore bets n + (if Z.eqb (zat sigs n) (-1) then 1 else 0))%Z /\
     (zbefore wins n <= zat wins n <= zbefore wins n + (if Z.eqb (zat sigs n) (-1) then 1 else 0))%Z.
Proof. exact (risk_accounting stop limit p duration xs wins bets vols sigs). Qed.
Print Assumptions C37_accounting.
(** With no open position it buys exactly when the input signal is 1. *)
Theorem C37_buying {N : FOps} stop limit p duration xs wins bets vols sigs :
  p >= 1 -> feq f0 f0 = true -> xs <> [] -> below31 (rev xs) -> risk_run stop limit p duration xs wins bets vols sigs ->
  forall n, n < length xs -> idle sigs n ->
     zat sigs n = (if Z.eqb (k_signal (nth n xs no_tick)) 1 then 1%Z else 0%Z) /\ zat wins n = zbefore wins n /\ zat bets n = zbefore bets n.
Proof. exact (risk_buying stop limit p duration xs wins bets vols sigs). Qed.
Print Assumptions C37_buying.
(** A position bought at [i] (its stop price not being 0) is sold when the low reaches the stop, else
    with success when the high reaches the limit, else at the maximal duration (with success if the close
    rose), and otherwise kept, whatever the input signal. *)
Theorem C37_selling {N : FOps} stop limit p duration xs wins bets vols sigs :
  p >= 1 -> feq f0 f0 = true -> xs <> [] -> below31 (rev xs) -> risk_run stop limit p duration xs wins bets vols sigs ->
  forall i n, n < length xs -> bought sigs i n -> feq (stop_of stop xs vols i) f0 = false ->
     (zat sigs n, zat wins n) =
       if fle (k_low (nth n xs no_tick)) (stop_of stop xs vols i) then ((-1)%Z, zbefore wins n)
       else if fle (limit_of limit xs vols i) (k_high (nth n xs no_tick)) then ((-1)%Z, (zbefore wins n + 1)%Z)
       else if match duration with None => false | Some m => Z.eqb (Z.of_nat (n - i)) m end
            then ((-1)%Z, if flt (k_close (nth i xs no_tick)) (k_close (nth n xs no_tick)) then (zbefore wins n + 1)%Z else zbefore wins n)
       else (0%Z, zbefore wins n).
Proof. exact (risk_selling stop limit p duration xs wins bets vols sigs). Qed.
Print Assumptions C37_selling.
Theorem C37_history {N : FOps} stop limit p duration : p >= 1 ->
  streams (RiskRatioEvaluator stop limit (Z.of_nat p) duration) below31 ticks
    (fun hs => evaluations (map (fun h => let b := evaluation (num stop) (num limit) p duration h in
                                          (b_wins b, b_bets b, msd p (map k_close h), b_signal b)) hs)).
Proof. exact (risk_streams stop limit p duration). Qed.
Print Assumptions C37_history.
Example C37_met log32 : let N := B32 log32 in
  (feq f0 f0 = true /\ kept log32 <> [] /\ below31 (rev (kept log32))) /\
  exists v sf s0, call (RiskRatioEvaluator (PyInt 1) (PyInt 1) 2 None) (ticks (kept log32)) None true =
    Ok (Tup [ints [0; 0; 0; 1]%Z; ints [0; 0; 0; 1]%Z; scalars v; ints [0; 1; 0; -1]%Z], sf, s0).
Proof. exact (conj (conj eq_refl (proj2 (ticks_ok log32))) (kept_run log32)). Qed.

(** ** C38 *)
(** A position whose stop price is 0 is forgotten: the next step is that of an idle evaluator. *)
Theorem C38_forgotten {N : FOps} stop limit p duration xs wins bets vols sigs :
  p >= 1 -> feq f0 f0 = true -> xs <> [] -> below31 (rev xs) -> risk_run stop limit p duration xs wins bets vols sigs ->
  forall i n, n < length xs -> bought sigs i n -> feq (stop_of stop xs vols i) f0 = true ->
     zat sigs n = (if Z.eqb (k_signal (nth n xs no_tick)) 1 then 1%Z else 0%Z) /\ zat wins n = zbefore wins n /\ zat bets n = zbefore bets n.
Proof. exact (risk_forgotten stop limit p duration xs wins bets vols sigs). Qed.
Print Assumptions C38_forgotten.
(** If that never happens, buys and sells alternate, starting with a buy. *)
Theorem C38_alternate {N : FOps} stop limit p duration xs wins bets vols sigs :
  p >= 1 -> feq f0 f0 = true -> xs <> [] -> below31 (rev xs) -> risk_run stop limit p duration xs wins bets vols sigs ->
  (forall i, i < length xs -> zat sigs i = 1%Z -> feq (stop_of stop xs vols i) f0 = false) ->
  (forall n, n < length xs -> (forall k, k < n -> zat sigs k = 0%Z) -> zat sigs n <> 0%Z -> zat sigs n = 1%Z) /\
  (forall m n, m < n -> n < length xs -> zat sigs m <> 0%Z -> zat sigs n <> 0%Z -> (forall k, m < k < n -> zat sigs k = 0%Z) ->
     zat sigs n = (- zat sigs m)%Z).
Proof. exact (risk_alternate stop limit p duration xs wins bets vols sigs). Qed.
Print Assumptions C38_alternate.
(** It happens: two buys in a row and no bet counted, in single precision. *)
Theorem C38_alternation_refuted log32 : let N := B32 log32 in
  exists xs wins bets vols sigs sf s0,
    call (RiskRatioEvaluator (PyInt 3) (PyInt 3) 2 None) (ticks xs) None true = Ok (Tup [ints wins; ints bets; scalars vols; ints sigs], sf, s0) /\
    sigs = [0; 1; 1]%Z /\ bets = [0; 0; 0]%Z.
Proof. exact (two_buys log32). Qed.
Print Assumptions C38_alternation_refuted.
