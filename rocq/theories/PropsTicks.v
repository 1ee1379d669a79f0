(** * PropsTicks: property C69 — prices that are whole numbers of ticks are treated exactly by float32, in whatever order sums are taken.
    Vocabulary: Ticks.v ([tick e] = 2^e; [ticks e M x]: x is finite and a whole number, at most [M] in size, of ticks; [summed l v]: [v] is a sum of
    the numbers [l] in some order; [nearest N fin val rd]: sums, differences and quotients of [N] are the exact ones rounded by [rd] to a nearest
    [representable] number, and its sum of a list is taken in some order; [resum N s]: [N] with lists summed by [s]). *)
From Coq Require Import Reals Lra List ZArith Bool Lia Permutation.
From Coq Require Import Floats.SpecFloat.
From Flocq Require Import Core.
From Verif Require Import Num Py Tensor Streamable Common Finance Series Formulas Positions ImplMarket MovingFacts MarketFacts B32 ER Rounding RoundIeee Accuracy Ticks TickFacts.
Import ListNotations.
Local Open Scope R_scope.

(** float32 is such an arithmetic, also when its sums are taken in another order, and so are the real numbers. *)
Theorem C69_float32 log32 : nearest (B32 log32) b32_finite b32_value nearest32 /\
  (forall s, (forall l, @summed (B32 log32) l (s l)) -> nearest (resum (B32 log32) s) b32_finite b32_value nearest32) /\
  nearest ER er_finite er_value (fun r => r).
Proof. exact (conj (b32_nearest log32) (conj (fun s => resum_nearest _ _ _ _ s (b32_nearest log32)) er_nearest)). Qed.
Print Assumptions C69_float32.
(** All sums of at most 2^24 ticks in all are exact, hence the same in all orders. *)
Theorem C69_sums (N : FOps) fin val rd e M l u v : nearest N fin val rd -> tick_size e -> Forall (ticks fin val e M) l -> (Z.of_nat (length l) * M <= 2 ^ 24)%Z ->
  summed l u -> summed l v -> fin u /\ val u = fold_right Rplus 0 (map val l) /\ val v = val u.
Proof. exact (fun A => sums_agree A e M l u v). Qed.
Print Assumptions C69_sums.
(** Beyond that, two orders may give different sums in float32. *)
Theorem C69_sums_refuted log32 : exists l u v, @summed (B32 log32) l u /\ @summed (B32 log32) l v /\ Forall b32_finite l /\ b32_value v - b32_value u = 2.
Proof. exact (orders_differ log32). Qed.
Print Assumptions C69_sums_refuted.
(** Momentum: the difference itself. *)
Theorem C69_momentum (N : FOps) fin val rd e s p xs : nearest N fin val rd -> tick_size e -> (1 <= p)%nat -> xs <> [] -> ok_rows s (rev xs) -> all_ticks fin val e (2 ^ 23) xs ->
  exists out sf s0, call (Momentum (Z.of_nat p)) (tensors s xs) None true = Ok (tensors s out, sf, s0) /\ length out = length xs /\
    forall n j, (n < length xs)%nat -> (j < prod s)%nat -> fin (number out j n) /\
      val (number out j n) = if (n <? p)%nat then 0 else val (number xs j n) - val (number xs j (n - p)).
Proof. exact (fun A => momentum_ticks A e s p xs). Qed.
Print Assumptions C69_momentum.
(** SimpleMovingAverage: the exact mean, rounded once; no representable number is closer to it, and it is the mean itself where that is representable. *)
Theorem C69_average (N : FOps) fin val rd e M s p xs : nearest N fin val rd -> tick_size e -> (0 <= M)%Z -> (1 <= p)%nat -> (Z.of_nat p * M <= 2 ^ 24)%Z -> (Z.of_nat p <= 2 ^ 24)%Z ->
  xs <> [] -> ok_rows s (rev xs) -> all_ticks fin val e M xs ->
  exists out sf s0, call (SimpleMovingAverage (Z.of_nat p)) (tensors s xs) None true = Ok (tensors s out, sf, s0) /\ length out = length xs /\
    forall n j, (n < length xs)%nat -> (p <= n + 1)%nat -> (j < prod s)%nat -> fin (number out j n) /\ val (number out j n) = rd (true_mean val p xs j n) /\
      (forall y, representable y -> Rabs (val (number out j n) - true_mean val p xs j n) <= Rabs (y - true_mean val p xs j n)) /\
      (representable (true_mean val p xs j n) -> val (number out j n) = true_mean val p xs j n).
Proof. exact (fun A => average_ticks A e M s p xs). Qed.
Print Assumptions C69_average.
(** SimpleMovingAverageCrossover: never on the wrong side of zero. *)
Theorem C69_crossover (N : FOps) fin val rd e M s slow fast xs : nearest N fin val rd -> tick_size e -> (0 <= M <= 2 ^ 23)%Z -> (1 <= slow)%nat -> (1 <= fast)%nat ->
  (Z.of_nat slow * M <= 2 ^ 24)%Z -> (Z.of_nat slow <= 2 ^ 24)%Z -> (Z.of_nat fast * M <= 2 ^ 24)%Z -> (Z.of_nat fast <= 2 ^ 24)%Z ->
  xs <> [] -> ok_rows s (rev xs) -> all_ticks fin val e M xs ->
  exists out sf s0, call (SimpleMovingAverageCrossover (Z.of_nat slow) (Z.of_nat fast)) (tensors s xs) None true = Ok (tensors s out, sf, s0) /\ length out = length xs /\
    forall n j, (n < length xs)%nat -> (slow <= n + 1)%nat -> (fast <= n + 1)%nat -> (j < prod s)%nat -> fin (number out j n) /\
      (true_mean val slow xs j n <= true_mean val fast xs j n -> 0 <= val (number out j n)) /\
      (true_mean val fast xs j n <= true_mean val slow xs j n -> val (number out j n) <= 0).
Proof. exact (fun A => crossover_ticks A e M s slow fast xs). Qed.
Print Assumptions C69_crossover.
(** HeikinAshi: exact candles. *)
Theorem C69_heikin_ashi (N : FOps) fin val rd e xs : nearest N fin val rd -> (-147 <= e <= 103)%Z -> xs <> [] -> Forall (candle_ticks fin val e (2 ^ 22)) xs ->
  exists out sf s0, call HeikinAshi (candles xs) None true = Ok (candles out, sf, s0) /\ length out = length xs /\
    forall n, (n < length xs)%nat -> let c := nth n xs no_candle in let b := nth (n - 1) xs no_candle in let h := nth n out no_candle in
      if ((n =? 0)%nat || feq (c_open b) f0)%bool then h = c else
      val (c_open h) = (val (c_open b) + val (c_close b)) / 2 /\
      val (c_close h) = (val (c_open c) + val (c_high c) + val (c_low c) + val (c_close c)) / 4 /\
      val (c_high h) = Rmax (val (c_high c)) (Rmax (val (c_open h)) (val (c_close h))) /\
      val (c_low h) = Rmin (val (c_low c)) (Rmin (val (c_open h)) (val (c_close h))).
Proof. exact (fun A => heikin_ashi_ticks A e xs). Qed.
Print Assumptions C69_heikin_ashi.
(** The sign of Momentum needs no ticks: it is right for all finite numbers up to half the largest size. *)
Theorem C69_sign (N : FOps) fin val s p xs : accurate N fin val -> (1 <= p)%nat -> xs <> [] -> ok_rows s (rev xs) ->
  Forall (Forall (fun x => fin x /\ Rabs (val x) <= big / 2)) xs ->
  exists out sf s0, call (Momentum (Z.of_nat p)) (tensors s xs) None true = Ok (tensors s out, sf, s0) /\ length out = length xs /\
    forall n j, (p <= n < length xs)%nat -> (j < prod s)%nat -> fin (number out j n) /\
      (0 < val (number out j n) <-> val (number xs j (n - p)) < val (number xs j n)) /\
      (val (number out j n) < 0 <-> val (number xs j n) < val (number xs j (n - p))) /\
      (val (number out j n) = 0 <-> val (number xs j n) = val (number xs j (n - p))).
Proof. exact (momentum_sign N fin val s p xs). Qed.
Print Assumptions C69_sign.

(** Quarters: 100.25, 100.5, 99.75, 101. *)
Definition quarters : list (list spec_float) :=
  [[S754_finite false 13139968 (-17)]; [S754_finite false 13172736 (-17)]; [S754_finite false 13074432 (-17)]; [S754_finite false 13238272 (-17)]].
Definition quarter_candle log32 : @candle (B32 log32) :=
  @Candle (B32 log32) (S754_finite false 13139968 (-17)) (S754_finite false 13238272 (-17)) (S754_finite false 13074432 (-17)) (S754_finite false 13172736 (-17)).
(** Summing from the other end is an order of summation. *)
Definition backwards log32 (l : list spec_float) : spec_float := @fsum (B32 log32) (rev l).
Example C69_met log32 : tick_size (-2) /\ quarters <> [] /\ @ok_rows (B32 log32) [1%nat] (rev quarters) /\ @all_ticks (B32 log32) b32_finite b32_value (-2) 404 quarters /\
  (Z.of_nat 26 * 404 <= 2 ^ 24)%Z /\ @candle_ticks (B32 log32) b32_finite b32_value (-2) 404 (quarter_candle log32) /\
  (forall l, @summed (B32 log32) l (backwards log32 l)).
Proof.
  assert (T : forall m z, (Z.abs z <= 404)%Z -> bounded prec32 emax32 m (-17) = true -> (Zpos m = z * 32768)%Z -> @ticks (B32 log32) b32_finite b32_value (-2) 404 (S754_finite false m (-17))).
  { intros m z Hz B E. split; [split; [exact B|reflexivity]|]. exists z. split; [exact Hz|]. unfold b32_value. cbn -[bpow IZR Z.mul]. unfold F2R. cbn [Fnum Fexp cond_Zopp]. rewrite E, mult_IZR. unfold tick.
    change (-2)%Z with (15 + -17)%Z. rewrite bpow_plus. change (bpow radix2 15) with 32768. ring. }
  assert (T1 := T 13139968%positive 401%Z ltac:(lia) eq_refl eq_refl). assert (T2 := T 13172736%positive 402%Z ltac:(lia) eq_refl eq_refl).
  assert (T3 := T 13074432%positive 399%Z ltac:(lia) eq_refl eq_refl). assert (T4 := T 13238272%positive 404%Z ltac:(lia) eq_refl eq_refl).
  split; [split; lia|]. split; [discriminate|]. split; [split; [repeat (constructor; [reflexivity|]); constructor|unfold short; cbn; lia]|]. split.
  { unfold all_ticks, quarters. do 4 (apply Forall_cons; [apply Forall_cons; [assumption|apply Forall_nil]|]). apply Forall_nil. }
  split; [lia|]. split; [exact (conj T1 (conj T4 (conj T3 T2)))|].
  intros l. assert (P : forall k k' v, Permutation k k' -> @summed (B32 log32) k v -> @summed (B32 log32) k' v).
  { intros k k' v Q S. revert k' Q. induction S as [|x|k a b u w Q1 S1 IH1 S2 IH2]; intros k' Q.
    - apply Permutation_nil in Q. subst. constructor.
    - apply Permutation_length_1_inv in Q. subst. constructor.
    - apply (summed_both k' a b); [|exact S1|exact S2]. eapply Permutation_trans; [apply Permutation_sym; exact Q|exact Q1]. }
  apply (P (rev l)); [apply Permutation_sym, Permutation_rev|]. apply (n_sum _ _ _ _ (b32_nearest log32)).
Qed.
