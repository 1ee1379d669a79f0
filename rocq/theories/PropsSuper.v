(** * PropsSuper: property C66 — Supertrend follows the trend.
    Vocabulary: Super.v ([direction_after p factor xs n d]: after bar [n] the state returned by Supertrend says [d] — 1 up, -1 down,
    0 none; [middle]: half of high plus low; [picking]: what is asked of the comparisons; [sound]: a possible bar). *)
From Coq Require Import Reals Lra List ZArith Bool Lia.
From Coq Require Import Floats.SpecFloat.
From Verif Require Import Num Py Tensor Streamable Spec Finance Series Formulas Positions ImplMarket MarketFacts B32 ER RealMarket Order WitnessMarket Super SuperFacts SuperNum.
Import ListNotations.

Theorem C66_float32 log32 : picking (B32 log32) b32_usable.
Proof. exact (b32_picking log32). Qed.
Print Assumptions C66_float32.
Theorem C66_exact : picking ER er_usable.
Proof. exact er_picking. Qed.
Print Assumptions C66_exact.
(** There is no trend exactly where the average true range [a] is 0.  An up trend ends exactly at a close below the emitted line, a down trend
    exactly at a close above it; a new trend is up unless the close is negative. *)
Theorem C66_turns {N : FOps} p factor xs r : p >= 1 -> xs <> [] -> short (rev xs) ->
  call (Supertrend (Z.of_nat p) factor) (bars xs) None true = Ok r ->
  exists out a dir sf s0 sf' s0', r = (scalars out, sf, s0) /\ call (AverageTrueRange (Z.of_nat p)) (bars xs) None true = Ok (scalars a, sf', s0') /\
    length out = length xs /\
    forall n, n < length xs -> let close := c_close (nth n xs no_candle) in
      direction_after p factor xs n (dir n) /\
      (feq (nth n a f0) f0 = true -> dir n = 0%Z /\ nth n out f0 = f0) /\
      (feq (nth n a f0) f0 = false -> dir n = 1%Z \/ dir n = (-1)%Z) /\
      (feq (nth n a f0) f0 = false -> n = 0 \/ dir (n - 1) = 0%Z -> (dir n = (-1)%Z <-> flt f0 close = false /\ flt close f0 = true)) /\
      (feq (nth n a f0) f0 = false -> 0 < n -> dir (n - 1) = 1%Z -> (dir n = (-1)%Z <-> flt close (nth (n - 1) out f0) = true)) /\
      (feq (nth n a f0) f0 = false -> 0 < n -> dir (n - 1) = (-1)%Z -> (dir n = 1%Z <-> flt (nth (n - 1) out f0) close = true)).
Proof. exact (fun Hp NE OK => super_turns p factor xs Hp NE OK r). Qed.
Print Assumptions C66_turns.
(** What is emitted while a trend lasts. *)
Theorem C66_moves {N : FOps} p factor xs r : p >= 1 -> xs <> [] -> short (rev xs) ->
  call (Supertrend (Z.of_nat p) factor) (bars xs) None true = Ok r ->
  exists out a sf s0 sf' s0', r = (scalars out, sf, s0) /\ call (AverageTrueRange (Z.of_nat p)) (bars xs) None true = Ok (scalars a, sf', s0') /\
    length out = length xs /\
    forall n, 0 < n < length xs ->
      let m := middle (nth n xs no_candle) in let reach := fmul (num factor) (nth n a f0) in
      let close := c_close (nth (n - 1) xs no_candle) in let line := nth (n - 1) out f0 in
      (direction_after p factor xs (n - 1) 1 -> direction_after p factor xs n 1 ->
         nth n out f0 = if flt line close then fmax (fsub m reach) line else fsub m reach) /\
      (direction_after p factor xs (n - 1) (-1) -> direction_after p factor xs n (-1) ->
         nth n out f0 = if flt close line then fmin (fadd m reach) line else fadd m reach).
Proof. exact (fun Hp NE OK => super_moves p factor xs Hp NE OK r). Qed.
Print Assumptions C66_moves.
(** A trailing stop: in an up trend the line never falls while the close is above it, in a down trend it never rises while the close is below it. *)
Theorem C66_trailing {N : FOps} {usable} (P : picking N usable) p factor xs r : p >= 1 -> xs <> [] -> short (rev xs) ->
  call (Supertrend (Z.of_nat p) factor) (bars xs) None true = Ok r ->
  exists out sf s0, r = (scalars out, sf, s0) /\ length out = length xs /\
    forall n, 0 < n < length xs -> let close := c_close (nth (n - 1) xs no_candle) in let line := nth (n - 1) out f0 in
      (direction_after p factor xs (n - 1) 1 -> direction_after p factor xs n 1 -> flt line close = true -> flt (nth n out f0) line = false) /\
      (direction_after p factor xs (n - 1) (-1) -> direction_after p factor xs n (-1) -> flt close line = true -> flt line (nth n out f0) = false).
Proof. exact (super_trailing P p factor xs r). Qed.
Print Assumptions C66_trailing.
(** It cannot abort on a series where the middle of every bar is within the factor times the average true range of the close before it. *)
Theorem C66_never_aborts {N : FOps} {usable} (P : picking N usable) p factor xs a sf' s0' : p >= 1 -> xs <> [] -> short (rev xs) ->
  call (AverageTrueRange (Z.of_nat p)) (bars xs) None true = Ok (scalars a, sf', s0') -> length a = length xs ->
  (forall n, n < length xs -> feq (nth n a f0) f0 = false ->
     let m := middle (nth n xs no_candle) in let reach := fmul (num factor) (nth n a f0) in let close := c_close (nth (n - 1) xs no_candle) in
     if n =? 0 then flt (fadd m reach) (fsub m reach) = false
     else usable close /\ flt close (fsub m reach) = false /\ flt (fadd m reach) close = false) ->
  exists out sf s0, call (Supertrend (Z.of_nat p) factor) (bars xs) None true = Ok (scalars out, sf, s0) /\ length out = length xs.
Proof. exact (super_never_aborts P p factor xs a sf' s0'). Qed.
Print Assumptions C66_never_aborts.
(** In exact arithmetic a factor at least as large as the period is therefore always safe, whatever the prices... *)
Theorem C66_safe_factor p factor k xs : (1 <= p)%nat -> @num ER factor = Fin k -> (INR p <= k)%R -> xs <> [] -> short (rev xs) ->
  Forall (fun c => r_close c <> 0%R) xs ->
  exists out sf s0, call (@Supertrend ER (Z.of_nat p) factor) (bars (map cfin xs)) None true = Ok (scalars out, sf, s0) /\ length out = length xs.
Proof. exact (super_safe_factor p factor k xs). Qed.
Print Assumptions C66_safe_factor.
(** ... and no smaller positive factor is: some series of possible bars makes the program abort.  (The usual 10 and 3 are such.) *)
Theorem C66_smaller_factor_refuted p factor k : (1 <= p)%nat -> (Z.of_nat p + 2 <= 2147483648)%Z -> @num ER factor = Fin k -> (0 < k)%R -> (k < INR p)%R ->
  exists xs, length xs = (p + 2)%nat /\ Forall sound xs /\ forall r, call (@Supertrend ER (Z.of_nat p) factor) (bars (map cfin xs)) None true <> Ok r.
Proof. exact (super_unsafe_factor p factor k). Qed.
Print Assumptions C66_smaller_factor_refuted.

(** Nine bars in float32: no trend, up, down at the fifth bar, up again at the eighth. *)
Definition swings log32 := let N := B32 log32 in map (wcandle log32)
  [(100, 101, 99, 100); (100, 102, 99, 101); (101, 104, 100, 103); (103, 107, 102, 106); (106, 106, 90, 91);
   (91, 92, 80, 82); (82, 84, 78, 80); (80, 110, 80, 109); (109, 115, 108, 114)]%Z.
Definition says {N : FOps} p factor xs n : option Z :=
  match call (Supertrend (Z.of_nat p) factor) (bars (firstn (S n) xs)) None true with Ok (_, sf, _) => direction sf | Err _ => None end.
Example C66_met log32 : let N := B32 log32 in swings log32 <> [] /\ short (rev (swings log32)) /\
  (exists r, call (Supertrend (Z.of_nat 2) (PyInt 2)) (bars (swings log32)) None true = Ok r) /\
  map (says 2 (PyInt 2) (swings log32)) (seq 0 9) = map Some [0; 1; 1; 1; -1; -1; -1; 1; 1]%Z.
Proof.
  split; [discriminate|]. split; [unfold short; rewrite rev_length; discriminate|]. split; [|vm_compute; reflexivity].
  apply succeeds_spec. vm_compute. reflexivity.
Qed.
(** A jumping price that a factor equal to the period survives, and on which the factor 3 aborts (C30_supertrend_total_refuted). *)
Example C66_factor_met : @num ER (PyInt 10) = Fin 10 /\ (INR 10 <= 10)%R /\ Forall (fun c => r_close c <> 0%R) [RC 100 101 99 100; RC 150 151 149 150; RC 115 116 114 115] /\
  @num ER (PyInt 3) = Fin 3 /\ (0 < 3)%R /\ (3 < INR 10)%R.
Proof. repeat split; try reflexivity; cbn; try lra. repeat constructor; cbn; lra. Qed.
