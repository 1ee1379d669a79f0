(** * PropsUnits: property C53, continued — Supertrend, drawdown, crossovers and their signals in other units, exact arithmetic.
    Vocabulary: Linear.v ([unaffected], [reals], [times], [series_list]), RealScale.v ([affine a c x] = a x + c; [rscale a]: all four prices times [a]),
    Steady.v ([drawdown_reals]: pairs of a depth and a count). *)
From Coq Require Import Reals Lra Lia List ZArith Bool.
From Verif Require Import Num Py Tensor Streamable Meta Common Finance Series Formulas ImplMarket ER RealMarket MovingFacts Linear RealScale RealScale2 Steady UnitsFacts.
Import ListNotations.
Local Open Scope R_scope.

(** Supertrend follows a positive scale, and aborts on the same bars whatever the scale. *)
Theorem C53_supertrend p factor a xs : (1 <= p)%nat -> 0 < a -> xs <> [] -> short xs ->
  ((exists r, call (@Supertrend ER (Z.of_nat p) factor) (bars (map cfin xs)) None true = Ok r) <->
   (exists r, call (@Supertrend ER (Z.of_nat p) factor) (bars (map cfin (map (rscale a) xs))) None true = Ok r)) /\
  forall r, call (@Supertrend ER (Z.of_nat p) factor) (bars (map cfin xs)) None true = Ok r ->
  exists o sx ix sy iy, r = (reals o, sx, ix) /\ length o = length xs /\
    call (@Supertrend ER (Z.of_nat p) factor) (bars (map cfin (map (rscale a) xs))) None true = Ok (reals (map (fun x => a * x) o), sy, iy).
Proof. exact (super_scale p factor a xs). Qed.
Print Assumptions C53_supertrend.
(** A positive scale changes no depth once the first price is at least 0.0001 in both units. *)
Theorem C53_drawdown a x0 r : 0 < a -> 1 / 10000 <= x0 -> 1 / 10000 <= a * x0 -> (Z.of_nat (length (x0 :: r)) < 2147483648)%Z ->
  exists o o' sx ix sy iy,
    call Drawdown (reals (x0 :: r)) None true = Ok (drawdown_reals o, sx, ix) /\
    call Drawdown (reals (map (fun x => a * x) (x0 :: r))) None true = Ok (drawdown_reals o', sy, iy) /\
    map fst o = map fst o' /\ length o = length (x0 :: r).
Proof. exact (drawdown_depths_scale a x0 r). Qed.
Print Assumptions C53_drawdown.
(** It changes neither depths nor counts when, in both units, different prices (and 0) are more than 0.0001 apart. *)
Theorem C53_drawdown_periods a xs : 0 < a -> xs <> [] -> (Z.of_nat (length xs) < 2147483648)%Z ->
  let apart xs := forall x y, In x (0 :: xs) -> In y (0 :: xs) -> x <> y -> 1 / 10000 < Rabs (x - y) in
  apart xs -> apart (map (fun x => a * x) xs) ->
  exists o sx ix sy iy,
    call Drawdown (reals xs) None true = Ok (drawdown_reals o, sx, ix) /\
    call Drawdown (reals (map (fun x => a * x) xs)) None true = Ok (drawdown_reals o, sy, iy).
Proof. exact (drawdown_coarse_scale a xs). Qed.
Print Assumptions C53_drawdown_periods.
(** In general it does: the tolerance is an absolute number, so a price halved from 0.00005 is no drawdown and the same price in another unit is one of 50%. *)
Theorem C53_drawdown_scale_refuted : exists xs a, 0 < a /\ Forall (fun x => 0 < x) xs /\
  (exists sx ix, call Drawdown (reals xs) None true = Ok (drawdown_reals [(0, 1%Z); (0, 2%Z)], sx, ix)) /\
  (exists sy iy, call Drawdown (reals (map (fun x => a * x) xs)) None true = Ok (drawdown_reals [(0, 0%Z); (- (1 / 2), 1%Z)], sy, iy)).
Proof. exact drawdown_units_matter. Qed.
Print Assumptions C53_drawdown_scale_refuted.
(** The difference of two simple averages and the three differences of MACD ignore the origin and follow the scale ... *)
Theorem C53_crossover s slow fast a c xs : (1 <= fast)%nat -> (fast <= slow)%nat -> xs <> [] -> rshaped s xs ->
  exists o sx ix sy iy,
    call (SimpleMovingAverageCrossover (Z.of_nat slow) (Z.of_nat fast)) (tensors s (fins xs)) None true = Ok (tensors s (fins o), sx, ix) /\
    call (SimpleMovingAverageCrossover (Z.of_nat slow) (Z.of_nat fast)) (tensors s (fins (map (map (affine a c)) xs))) None true =
      Ok (tensors s (fins (map (map (fun x => a * x)) o)), sy, iy).
Proof. exact (crossover_affine s slow fast a c xs). Qed.
Print Assumptions C53_crossover.
Theorem C53_macd s slow fast m a c xs : (1 <= fast)%nat -> (fast <= slow)%nat -> (1 <= m)%nat -> xs <> [] -> rshaped s xs ->
  exists e1 e2 e1' e2' o1 o2 o3 sx ix sy iy,
    call (MovingAverageConvergenceDivergence (Z.of_nat slow) (Z.of_nat fast) (Z.of_nat m)) (tensors s (fins xs)) None true =
      Ok (series_list s [e1; e2; o1; o2; o3], sx, ix) /\
    call (MovingAverageConvergenceDivergence (Z.of_nat slow) (Z.of_nat fast) (Z.of_nat m)) (tensors s (fins (map (map (affine a c)) xs))) None true =
      Ok (series_list s [e1'; e2'; times a o1; times a o2; times a o3], sy, iy).
Proof. exact (macd_affine s slow fast m a c xs). Qed.
Print Assumptions C53_macd.
(** ... and their signals ignore both. *)
Theorem C53_signals s slow fast m a c : (1 <= fast)%nat -> (fast <= slow)%nat -> (1 <= m)%nat -> 0 < a ->
  unaffected (SimpleMovingAverageCrossoverSignal (Z.of_nat slow) (Z.of_nat fast)) (rshaped s) (fun xs => @tensors ER s (fins xs)) (map (affine a c)) /\
  unaffected (MovingAverageConvergenceDivergenceSignal (Z.of_nat slow) (Z.of_nat fast) (Z.of_nat m)) (rshaped s) (fun xs => @tensors ER s (fins xs)) (map (affine a c)).
Proof. exact (fun Hf Hs Hm A => conj (crossover_signal_affine s slow fast a c Hf Hs A) (macd_signal_unaffected s slow fast m a c Hf Hs Hm A)). Qed.
Print Assumptions C53_signals.

(** Prices in cents instead of euros: the hypotheses hold. *)
Example C53_units_met : [12; 15; 9; 30] <> [] /\ short [12; 15; 9; 30] /\ 1 / 10000 <= 12 /\ 1 / 10000 <= 100 * 12 /\
  (forall x y, In x [0; 12; 15; 9; 30] -> In y [0; 12; 15; 9; 30] -> x <> y -> 1 / 10000 < Rabs (x - y)) /\
  (1 <= 2)%nat /\ (2 <= 3)%nat /\ rshaped [2%nat] [[1; 2]; [3; 5]].
Proof.
  split; [discriminate|]. split; [unfold short; cbn; lia|]. split; [lra|]. split; [lra|]. split.
  { intros x y X Y D. assert (G : 1 <= Rabs (x - y)); [|lra].
    repeat (destruct X as [X|X]; [subst x|]); try destruct X; repeat (destruct Y as [Y|Y]; [subst y|]); try destruct Y;
      solve [exfalso; apply D; reflexivity | unfold Rabs; destruct (Rcase_abs _); lra]. }
  split; [lia|]. split; [lia|]. split; [repeat (constructor; try reflexivity)|unfold short; cbn; lia].
Qed.
