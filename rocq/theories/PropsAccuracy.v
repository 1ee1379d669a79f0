(** * PropsAccuracy: property C60: how far float32 rounding takes deviations, bands, returns, volatility, ranges, candles and drawdowns.
    Vocabulary: Rounding.v ([half_ulp] = 2^-24, [tiny] = 2^-150), Accuracy.v ([root_tiny] = 2^-74). *)
From Coq Require Import Reals Lra Lia List ZArith Bool.
From Coq Require Import Floats.SpecFloat.
From Verif Require Import Num Py Tensor Streamable Meta Common Finance Series Formulas Positions ImplMarket
  B32 ER RealMarket MovingFacts MarketFacts Rounding RoundIeee RoundMain Accuracy AccuracyIeee AccuracyFacts AccuracyMain AccuracyMarket AccuracyLog Index AccuracyIndex IndexIeee.
Import ListNotations.
Local Open Scope R_scope.

(** The float32 of the model and exact arithmetic meet what is asked of an arithmetic here and in C55. *)
Theorem C60_float32 log32 : accurate (B32 log32) b32_finite b32_value /\ ordered (B32 log32) b32_finite b32_value.
Proof. exact (conj (b32_accurate log32) (b32_ordered log32)). Qed.
Print Assumptions C60_float32.
Theorem C60_exact : accurate ER er_finite er_value /\ ordered ER er_finite er_value.
Proof. exact (conj er_accurate er_ordered). Qed.
Print Assumptions C60_exact.

Section Accurate.
Context {N : FOps} {fin : F -> Prop} {val : F -> R} (A : accurate N fin val) (O : ordered N fin val).
(** Numbers of absolute value at most [M], periods up to 2^20; no bound mentions the length of the series. *)
Theorem C60_deviation s p M : 0 <= M <= 2 ^ 50 -> (1 <= p)%nat -> (Z.of_nat p <= 2 ^ 20)%Z ->
  within fin val (10 * (INR p + 1) * (half_ulp * M + tiny) + 2 * root_tiny)
    (MovingStandardDeviation (Z.of_nat p)) (@MovingStandardDeviation ER (Z.of_nat p)) s M.
Proof. intros HM H1 H2. exact (msd_within A O p M H1 H2 HM s). Qed.
(** Lower band, average and upper band, for a whole number of deviations [z]. *)
Theorem C60_bands s p z M : 0 <= M <= 2 ^ 50 -> (1 <= p)%nat -> (Z.of_nat p <= 2 ^ 20)%Z -> (Z.abs z <= 2 ^ 20)%Z ->
  let band := (IZR (Z.abs z) + 1) * (12 * (INR p + 1) * (half_ulp * M + tiny) + 3 * root_tiny) in
  within_all fin val [band; 2 * (INR p + 1) * (half_ulp * M + tiny); band]
    (BollingerBands (Z.of_nat p) (PyInt z)) (@BollingerBands ER (Z.of_nat p) (PyInt z)) s M.
Proof.
  intros HM H1 H2 Hz. destruct (a_of_Z _ _ _ A z) as [Fz Vz]; [eapply Z.le_trans; [exact Hz|]; cbn; lia|]. rewrite abs_IZR, <- Vz.
  apply (bands_within A O p M (PyInt z) (PyInt z) H1 H2 HM Fz); cbn [num]; rewrite Vz; [reflexivity|]. rewrite <- abs_IZR.
  apply (Rle_trans _ 1048576); [apply (IZR_le _ 1048576); exact Hz|lra].
Qed.
(** Any number of deviations [k], whole or not, whose float32 value the exact arithmetic is given too. *)
Theorem C60_bands_any s p k ke M : 0 <= M <= 2 ^ 50 -> (1 <= p)%nat -> (Z.of_nat p <= 2 ^ 20)%Z ->
  fin (num k) -> @num ER ke = Fin (val (num k)) -> Rabs (val (num k)) <= 2 ^ 20 ->
  let band := (Rabs (val (num k)) + 1) * (12 * (INR p + 1) * (half_ulp * M + tiny) + 3 * root_tiny) in
  within_all fin val [band; 2 * (INR p + 1) * (half_ulp * M + tiny); band]
    (BollingerBands (Z.of_nat p) k) (@BollingerBands ER (Z.of_nat p) ke) s M.
Proof. intros HM H1 H2 F1 E1 B1. exact (bands_within A O p M k ke H1 H2 HM F1 E1 B1 s). Qed.
(** Prices between [lo] and [hi]: the error depends on their ratio only. *)
Theorem C60_return p lo hi : 0 < lo <= hi -> hi / lo <= 2 ^ 90 -> (1 <= p)%nat ->
  scalars_within fin val (3 * half_ulp * (hi / lo)) (Return (Z.of_nat p)) (@Return ER (Z.of_nat p))
    scalars (@scalars ER) (fun x => Fin (val x)) (priced fin val lo hi).
Proof. exact (fun H1 H2 => ret_within A O lo hi H1 H2 p). Qed.
(** Given a logarithm off by at most [e] on the ratios that occur. *)
Theorem C60_log_return p lo hi e : 0 < lo <= hi -> hi / lo <= 2 ^ 90 -> 0 <= e <= 1 ->
  log_within fin val e (/ (2 * (hi / lo))) (2 * (hi / lo)) -> (1 <= p)%nat ->
  scalars_within fin val (e + 2 * half_ulp) (LogarithmicReturn (Z.of_nat p)) (@LogarithmicReturn ER (Z.of_nat p))
    scalars (@scalars ER) (fun x => Fin (val x)) (priced fin val lo hi).
Proof. exact (fun H1 H2 H3 H4 => log_ret_within A O lo hi H1 H2 e H3 H4 p). Qed.
Theorem C60_volatility m r lo hi e : 0 < lo <= hi -> hi / lo <= 2 ^ 90 -> 0 <= e <= 1 ->
  log_within fin val e (/ (2 * (hi / lo))) (2 * (hi / lo)) ->
  (1 <= m)%nat -> (Z.of_nat m <= 2 ^ 20)%Z -> (1 <= r)%nat ->
  let D := e + 2 * half_ulp in
  scalars_within fin val (D + (10 * (INR m + 1) * (half_ulp * (ln (hi / lo) + D) + tiny) + 2 * root_tiny))
    (Volatility (Z.of_nat m) (Z.of_nat r)) (@Volatility ER (Z.of_nat m) (Z.of_nat r))
    scalars (@scalars ER) (fun x => Fin (val x)) (priced fin val lo hi).
Proof. exact (fun H1 H2 H3 H4 => volatility_within A O lo hi H1 H2 e H3 H4 m r). Qed.
(** Candles of prices of absolute value at most [M]. *)
Theorem C60_true_range p M : 0 <= M <= 2 ^ 90 -> (1 <= p)%nat -> (Z.of_nat p <= 2 ^ 20)%Z ->
  scalars_within fin val (25 * (INR p + 1) * (half_ulp * M + tiny)) (AverageTrueRange (Z.of_nat p)) (@AverageTrueRange ER (Z.of_nat p))
    bars (@bars ER) (fun c => cfin (real_candle val c)) (sized fin val M).
Proof. exact (fun HM => atr_within A O M HM p). Qed.
Theorem C60_heikin_ashi M xs : 0 <= M <= 2 ^ 90 -> xs <> [] -> Forall (sized fin val M) xs ->
  exists o oe sf s0 sf' s0',
    call HeikinAshi (candles xs) None true = Ok (candles o, sf, s0) /\
    @call ER HeikinAshi (@candles ER (map (fun c => cfin (real_candle val c)) xs)) None true = Ok (@candles ER (map cfin oe), sf', s0') /\
    length o = length xs /\ length oe = length xs /\
    forall n, (n < length xs)%nat -> candle_within fin val (8 * (half_ulp * M + tiny)) (nth n o no_candle) (nth n oe (RC 0 0 0 0)).
Proof. exact (fun HM => ha_within A O M HM xs). Qed.
(** Values from 0 to 2^80, the first one at least 1/1000 (ten times the tolerance below which the code forgets a peak):
    four times [half_ulp], whatever the size of the values.  The second output, the time under water, is not claimed to agree:
    it depends on a comparison that rounding may turn over. *)
Theorem C60_drawdown x xs : below31 (x :: xs) -> Forall (priced fin val 0 (2 ^ 80)) (x :: xs) -> 1 / 1000 <= val x ->
  exists o oe sf s0 sf' s0',
    call Drawdown (scalars (x :: xs)) None true = Ok (drawdowns o, sf, s0) /\
    @call ER Drawdown (@scalars ER (map (fun x => Fin (val x)) (x :: xs))) None true =
      Ok (@drawdowns ER (map (fun q => (Fin (fst q), snd q)) oe), sf', s0') /\
    length o = length (x :: xs) /\ length oe = length (x :: xs) /\
    forall n, (n < length (x :: xs))%nat ->
      fin (fst (nth n o (f0, 0%Z))) /\ Rabs (val (fst (nth n o (f0, 0%Z))) - fst (nth n oe (0, 0%Z))) <= 4 * half_ulp.
Proof. exact (drawdown_within A O xs x). Qed.
End Accurate.
Print Assumptions C60_deviation.
Print Assumptions C60_bands.
Print Assumptions C60_bands_any.
Print Assumptions C60_return.
Print Assumptions C60_log_return.
Print Assumptions C60_volatility.
Print Assumptions C60_true_range.
Print Assumptions C60_heikin_ashi.
Print Assumptions C60_drawdown.

(** Relative strength index: what is asked of an arithmetic beside C60_float32, then the bound.  [V] bounds the steps of the series, [m] is the
    average absolute step of the recent past: the index divides by it, so the error grows as [m] falls towards the rounding errors [E].
    Nothing is claimed of the positions where [m] is below [4 * E]: there the quotient of the two averages has no correct digits. *)
Theorem C60_indexed log32 : indexed (B32 log32) b32_finite b32_value /\ indexed ER er_finite er_value.
Proof. exact (conj (b32_indexed log32) er_indexed). Qed.
Print Assumptions C60_indexed.
Theorem C60_relative_strength {N : FOps} {fin : F -> Prop} {val : F -> R} : accurate N fin val -> ordered N fin val -> indexed N fin val ->
  forall p V xs, (1 <= p)%nat -> (Z.of_nat p <= 2 ^ 20)%Z -> 0 <= V <= 2 ^ 90 ->
  xs <> [] -> short (rev xs) -> Forall fin xs -> moves_within V (map val xs) ->
  let E := 17 * (INR p + 1) * (half_ulp * V + tiny) in
  exists o oe sf s0 sf' s0',
    call (RelativeStrengthIndex (Z.of_nat p)) (scalars xs) None true = Ok (scalars o, sf, s0) /\
    @call ER (@RelativeStrengthIndex ER (Z.of_nat p)) (@scalars ER (map (fun x => Fin (val x)) xs)) None true = Ok (@scalars ER oe, sf', s0') /\
    length o = length xs /\ length oe = length xs /\
    forall n, (n < length xs)%nat ->
      ((n < p)%nat -> nth n o f1 = f0 /\ nth n oe NaN = Fin 0) /\
      ((p <= n)%nat -> let m := average_move p (upto n (map val xs)) in 4 * E <= m ->
        exists r, nth n oe NaN = Fin r /\ fin (nth n o f0) /\ Rabs (val (nth n o f0) - r) <= 600 * half_ulp + 200 * E / m).
Proof. exact (fun A O I p V xs H1 H2 H3 => rsi_within A O I p V H1 H2 H3 xs). Qed.
Print Assumptions C60_relative_strength.

(** A float32 logarithm with an error of at most 2^-15 exists, so the hypothesis on the logarithm can be met. *)
Theorem C60_logarithm : exists log32, @log_within (B32 log32) b32_finite b32_value (/ 2 ^ 15) (/ 2 ^ 100) (2 ^ 100).
Proof. exact (ex_intro _ grid_log grid_log_within). Qed.
Print Assumptions C60_logarithm.

(** The float32 prices 12.5, 0.75 and 100, and the candle open 12.5, high 100, low 0.75, close 12.5. *)
Definition dear : list spec_float := [S754_finite false 13107200 (-20); S754_finite false 12582912 (-24); S754_finite false 13107200 (-17)].
Definition day log32 : @candle (B32 log32) :=
  @Candle (B32 log32) (S754_finite false 13107200 (-20)) (S754_finite false 13107200 (-17)) (S754_finite false 12582912 (-24)) (S754_finite false 13107200 (-20)).
Example C60_met log32 :
  dear <> [] /\ short (rev dear) /\ below31 dear /\ Forall (@priced (B32 log32) b32_finite b32_value (1 / 2) 128) dear /\ 128 / (1 / 2) <= 2 ^ 90 /\
  Forall (@priced (B32 log32) b32_finite b32_value 0 (2 ^ 80)) dear /\ 1 / 1000 <= b32_value (hd (S754_zero false) dear) /\
  @sized (B32 log32) b32_finite b32_value 100 (day log32) /\ 0 <= 100 <= 2 ^ 50 /\
  @log_within (B32 grid_log) b32_finite b32_value (/ 2 ^ 15) (/ (2 * (128 / (1 / 2)))) (2 * (128 / (1 / 2))).
Proof.
  assert (B : 2 ^ 10 <= 2 ^ 50 /\ 2 ^ 10 <= 2 ^ 80 /\ 2 ^ 10 <= 2 ^ 90 /\ 2 ^ 10 <= 2 ^ 100) by (repeat split; (apply Rle_pow; [lra|lia])).
  split; [discriminate|]. split; [unfold short; cbn; lia|]. split; [unfold below31; cbn; lia|].
  assert (P : Forall (@priced (B32 log32) b32_finite b32_value (1 / 2) 128) dear).
  { unfold dear. repeat match goal with |- Forall _ _ => constructor end; (split; [now split|]; unfold b32_value; cbn; unfold Defs.F2R; cbn; lra). }
  split; [exact P|]. split; [lra|]. split; [eapply Forall_impl; [|exact P]; intros a [H1 H2]; split; [exact H1|lra]|].
  split; [unfold b32_value; cbn; unfold Defs.F2R; cbn; lra|]. split.
  - unfold sized, day. repeat match goal with |- Forall _ _ => constructor end; (split; [now split|]; unfold b32_value; cbn; unfold Defs.F2R; cbn; apply Rabs_le; lra).
  - split; [lra|]. intros x Fx Hx. apply grid_log_within; [exact Fx|]. split; [|lra].
    apply (Rle_trans _ (/ 2 ^ 10)); [apply Rinv_le_contravar; lra|lra].
Qed.
(** Two steps of the same series, both large against the rounding errors. *)
Example C60_relative_strength_met :
  dear <> [] /\ short (rev dear) /\ Forall b32_finite dear /\ moves_within 128 (map b32_value dear) /\ 0 <= 128 <= 2 ^ 90 /\
  let E := 17 * (INR 1 + 1) * (half_ulp * 128 + tiny) in
  4 * E <= average_move 1 (upto 1 (map b32_value dear)) /\ 4 * E <= average_move 1 (upto 2 (map b32_value dear)).
Proof.
  assert (X : map b32_value dear = [12.5; 0.75; 100]) by (unfold dear, b32_value; cbn; unfold Defs.F2R; cbn; repeat f_equal; lra).
  assert (U := RoundFacts.ulp_val). assert (T := RoundFacts.tiny_ulp). assert (B : 2 ^ 10 <= 2 ^ 90) by (apply Rle_pow; [lra|lia]).
  split; [discriminate|]. split; [unfold short; cbn; lia|]. split; [repeat constructor|]. rewrite X. split.
  { intros [|[|n]] Hn; cbn in *; [apply Rabs_le; lra..|lia]. }
  split; [lra|]. cbv zeta. unfold average_move, upto. cbn. unfold RealFacts.rmean, RealFacts.rsum, RealLinear.rsma. cbn. unfold RealFacts.rmean, RealFacts.rsum. cbn.
  split; unfold Rabs; repeat destruct (Rcase_abs _); lra.
Qed.
(** Two and a half deviations: a Python float whose float32 value is 2.5. *)
Example C60_bands_met log32 : let k : @pynum (B32 log32) := @PyFloat (B32 log32) (@ddiv (B32 log32) (@d_of_Z (B32 log32) 5) (@d_of_Z (B32 log32) 2)) in
  b32_finite (@num (B32 log32) k) /\ b32_value (@num (B32 log32) k) = 5 / 2 /\ @num ER (@PyFloat ER (5 / 2)) = Fin (b32_value (@num (B32 log32) k)) /\
  Rabs (b32_value (@num (B32 log32) k)) <= 2 ^ 20.
Proof.
  intros k. assert (E : @num (B32 log32) k = S754_finite false 10485760 (-22)) by reflexivity. rewrite E.
  assert (V : b32_value (S754_finite false 10485760 (-22)) = 5 / 2) by (unfold b32_value; cbn; unfold Defs.F2R; cbn; lra). rewrite V.
  split; [split; reflexivity|]. split; [reflexivity|]. split; [reflexivity|]. rewrite Rabs_right; lra.
Qed.
