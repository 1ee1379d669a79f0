(** * PropsCompound: property C62 — changes over several periods are made of the changes of one period.
    Exact arithmetic (instance [ER]); [reals xs]: the series of the real numbers [xs] (Linear.v); [product], [total]:
    of a list (Compound.v); outputs are newest first in [map (fun i => ... (n - i) ...) (seq 0 p)]. *)
From Coq Require Import Reals Lra Lia List ZArith Bool.
From Coq Require Import Floats.SpecFloat.
From Verif Require Import Num Py Tensor Streamable Meta Common Finance Series Formulas Positions B32 ER Linear MovingFacts Compound.
Import ListNotations.
Local Open Scope R_scope.

(** Compounding the p last one-period returns gives the p-period return, and compounding all of them gives the price back. *)
Theorem C62_returns p xs : (1 <= p)%nat -> xs <> [] -> short xs -> Forall (fun r => r <> 0) xs ->
  exists rp r1 sf s0 sf' s0',
    call (@Return ER (Z.of_nat p)) (reals xs) None true = Ok (reals rp, sf, s0) /\
    call (@Return ER 1) (reals xs) None true = Ok (reals r1, sf', s0') /\ length rp = length xs /\ length r1 = length xs /\
    forall n, (n < length xs)%nat ->
      nth n xs 0 = nth 0 xs 0 * product (map (fun i => 1 + nth (n - i) r1 0) (seq 0 n)) /\
      (if (n <? p)%nat then nth n rp 0 = 0 else 1 + nth n rp 0 = product (map (fun i => 1 + nth (n - i) r1 0) (seq 0 p))).
Proof. exact (returns_compound p xs). Qed.
Print Assumptions C62_returns.
(** Logarithmic returns add up, and are the logarithms of 1 + the returns. *)
Theorem C62_logarithmic_returns p xs : (1 <= p)%nat -> xs <> [] -> short xs -> Forall (fun r => 0 < r) xs ->
  exists lp l1 rp sf s0 sf' s0' sf'' s0'',
    call (@LogarithmicReturn ER (Z.of_nat p)) (reals xs) None true = Ok (reals lp, sf, s0) /\
    call (@LogarithmicReturn ER 1) (reals xs) None true = Ok (reals l1, sf', s0') /\
    call (@Return ER (Z.of_nat p)) (reals xs) None true = Ok (reals rp, sf'', s0'') /\
    length lp = length xs /\ length l1 = length xs /\ length rp = length xs /\
    forall n, (n < length xs)%nat -> 1 + nth n rp 0 = exp (nth n lp 0) /\
      (if (n <? p)%nat then nth n lp 0 = 0 else nth n lp 0 = total (map (fun i => nth (n - i) l1 0) (seq 0 p))).
Proof. exact (log_returns_add p xs). Qed.
Print Assumptions C62_logarithmic_returns.
Theorem C62_momentum s p xs : (1 <= p)%nat -> xs <> [] -> rshaped s xs ->
  exists mp m1 sf s0 sf' s0',
    call (@Momentum ER (Z.of_nat p)) (tensors s (fins xs)) None true = Ok (tensors s mp, sf, s0) /\
    call (@Momentum ER 1) (tensors s (fins xs)) None true = Ok (tensors s m1, sf', s0') /\ length mp = length xs /\ length m1 = length xs /\
    forall n j, (n < length xs)%nat -> (j < prod s)%nat -> exists v w,
      number mp j n = Fin v /\ (forall i, (i < length xs)%nat -> number m1 j i = Fin (w i)) /\
      (if (n <? p)%nat then v = 0 else v = total (map (fun i => w (n - i)%nat) (seq 0 p))).
Proof. exact (momentum_adds s p xs). Qed.
Print Assumptions C62_momentum.
(** Not in float32: for 0, 1, 2^24 + 2 the momentum over two periods is 2^24 + 2, but the momenta over one period are 1 and (rounded)
    2^24, and float32 addition gives 2^24. *)
Theorem C62_float32_refuted log32 : let N := B32 log32 in let xs := [b32_of_Z 0; b32_of_Z 1; b32_of_Z 16777218] in
  exists m2 m1 sf s0 sf' s0',
    @call N (@Momentum N 2) (@scalars N xs) None true = Ok (@scalars N m2, sf, s0) /\
    @call N (@Momentum N 1) (@scalars N xs) None true = Ok (@scalars N m1, sf', s0') /\
    nth 2 m2 (b32_of_Z 0) = b32_of_Z 16777218 /\ @fadd N (nth 2 m1 (b32_of_Z 0)) (nth 1 m1 (b32_of_Z 0)) = b32_of_Z 16777216.
Proof. exact (momenta_do_not_add log32). Qed.
Print Assumptions C62_float32_refuted.
(** Prices 100, 110, 99, 99: returns 10%, -10%, 0%. *)
Example C62_met : [100; 110; 99; 99] <> [] /\ short [100; 110; 99; 99] /\ Forall (fun r => r <> 0) [100; 110; 99; 99] /\
  Forall (fun r => 0 < r) [100; 110; 99; 99] /\ rshaped [1%nat] [[100]; [110]; [99]; [99]].
Proof.
  split; [discriminate|]. split; [unfold short; cbn; lia|]. split; [repeat constructor; lra|]. split; [repeat constructor; lra|].
  split; [repeat constructor|unfold short; cbn; lia].
Qed.
