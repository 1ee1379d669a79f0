(** * PropsMovingReal: properties C18 to C21 in exact arithmetic (instance [ER]: real numbers,
    infinities and NaN, no rounding).  [fins xs]: the series [xs] of finite numbers. *)
From Coq Require Import Reals Lra List ZArith Bool Lia.
From Verif Require Import Num Py Tensor Streamable Meta Common Finance Series Positions
  ER RealFacts MovingFacts WitnessReal.
Import ListNotations.

(** ** C18: ExponentialMovingAverage *)
(** In exact arithmetic the smoothing factor is 2/(p+1) and the average stays within the
    bounds of the numbers seen. *)
Theorem C18_bounds s p xs : 1 <= p -> xs <> [] -> rshaped s xs ->
  exists out sf s0, call (@ExponentialMovingAverage ER (Z.of_nat p)) (tensors s (fins xs)) None true = Ok (tensors s out, sf, s0) /\
    length out = length xs /\
    forall n j lo hi, n < length xs -> p <= n + 1 -> j < prod s -> seen_between lo hi xs j n ->
      exists e, number out j n = Fin e /\ (lo <= e <= hi)%R.
Proof. exact (ema_between s p xs). Qed.
Print Assumptions C18_bounds.
Example C18_met_real : (w_reals <> [] /\ rshaped [2] w_reals) /\ seen_between 1 4 w_reals 0 2.
Proof.
  split; [split; [exact w_reals_ne|exact w_reals_ok]|]. intros i Hi.
  destruct i as [|[|[|i]]]; [| | |lia]; cbn; Lra.lra.
Qed.

(** ** C19: RollingMovingAverage *)
Theorem C19_bounds s p xs : 1 <= p -> xs <> [] -> rshaped s xs ->
  exists out sf s0, call (@RollingMovingAverage ER (Z.of_nat p)) (tensors s (fins xs)) None true = Ok (tensors s out, sf, s0) /\
    length out = length xs /\
    forall n j lo hi, n < length xs -> p <= n + 1 -> j < prod s -> seen_between lo hi xs j n ->
      exists e, number out j n = Fin e /\ (lo <= e <= hi)%R.
Proof. exact (rma_between s p xs). Qed.
Print Assumptions C19_bounds.
Theorem C19_nonnegative s p xs : 1 <= p -> xs <> [] -> rshaped s xs ->
  (forall i j, (0 <= rnumber xs j i)%R) ->
  exists out sf s0, call (@RollingMovingAverage ER (Z.of_nat p)) (tensors s (fins xs)) None true = Ok (tensors s out, sf, s0) /\
    length out = length xs /\
    forall n j, n < length xs -> j < prod s -> exists e, number out j n = Fin e /\ (0 <= e)%R.
Proof. exact (rma_never_negative s p xs). Qed.
Print Assumptions C19_nonnegative.
Example C19_met_real : rshaped [2] w_reals /\ forall i j, (0 <= rnumber w_reals j i)%R.
Proof.
  split; [exact w_reals_ok|]. intros i j. unfold rnumber.
  destruct i as [|[|[|[|i]]]]; destruct j as [|[|[|j]]]; cbn; Lra.lra.
Qed.

(** ** C20: MovingStandardDeviation *)
(** The root of the mean squared distance from the mean ([rvar], RealFacts.v): never negative, zero exactly on constant windows, unchanged when a
    constant is added to the series. *)
Theorem C20_zero_iff_constant s p xs : 1 <= p -> xs <> [] -> rshaped s xs ->
  exists out sf s0, call (@MovingStandardDeviation ER (Z.of_nat p)) (tensors s (fins xs)) None true = Ok (tensors s out, sf, s0) /\
    length out = length xs /\
    forall n j, n < length xs -> j < prod s ->
      exists e, number out j n = Fin e /\ (0 <= e)%R /\
        (n + 1 < p -> e = 0%R) /\
        (p <= n + 1 -> e = sqrt (rvar (map (fun i => rnumber xs j (n - i)) (seq 0 p)))) /\
        (p <= n + 1 -> e = 0%R <-> constant (map (fun i => rnumber xs j (n - i)) (seq 0 p))).
Proof. exact (msd_laws s p xs). Qed.
Print Assumptions C20_zero_iff_constant.
Theorem C20_translation_invariant s p c xs : 1 <= p -> xs <> [] -> rshaped s xs ->
  exists out sf s0 sf' s0',
    call (@MovingStandardDeviation ER (Z.of_nat p)) (tensors s (fins xs)) None true = Ok (tensors s out, sf, s0) /\
    call (@MovingStandardDeviation ER (Z.of_nat p)) (tensors s (fins (map (map (fun x => x + c)%R) xs))) None true =
      Ok (tensors s out, sf', s0').
Proof. exact (msd_invariant s p c xs). Qed.
Print Assumptions C20_translation_invariant.
Example C20_met_real : w_reals <> [] /\ rshaped [2] w_reals.
Proof. split; [exact w_reals_ne|exact w_reals_ok]. Qed.

(** ** C21: BollingerBands *)
Theorem C21_ordered s p k xs : 1 <= p -> (0 <= k)%R -> xs <> [] -> rshaped s xs ->
  exists lower middle upper sf s0,
    call (@BollingerBands ER (Z.of_nat p) (@PyFloat ER k)) (tensors s (fins xs)) None true =
      Ok (Tup [tensors s lower; tensors s middle; tensors s upper], sf, s0) /\
    length lower = length xs /\ length middle = length xs /\ length upper = length xs /\
    forall n j, n < length xs -> j < prod s ->
      exists l m u, number lower j n = Fin l /\ number middle j n = Fin m /\ number upper j n = Fin u /\ (l <= m <= u)%R.
Proof. exact (bollinger_order s p k xs). Qed.
Print Assumptions C21_ordered.
Example C21_met_real : (0 <= 2)%R /\ w_reals <> [] /\ rshaped [2] w_reals.
Proof. split; [Lra.lra|]. split; [exact w_reals_ne|exact w_reals_ok]. Qed.
