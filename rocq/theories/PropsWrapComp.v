(** * PropsWrapComp: property C46, continued — the 32-bit counters of MACD, the crossovers, the trading signals, relative strength, volatility
    and the lagged correlations.
    Vocabulary: Spec.v ([genuine]: what TensorFlow can hold), Shapes.v ([sig v]: shape and dtype of every leaf; [row i v]: the i-th element of a
    series; [well_shaped], C49), Series.v and Positions.v ([tensors s xs], [number xs j n]), Wrap.v ([crossover_forever]). *)
From Coq Require Import List ZArith Bool Lia.
From Coq Require Import Floats.SpecFloat.
From Verif Require Import Num Py PyFacts Tensor Streamable Spec Meta Common Finance Shapes Structure Series Formulas Positions SpecHelpers B32 Wrap WrapCross WrapAgain.
Import ListNotations.

(** From position 2^31 on, for the next 2^31 positions: the difference of two simple averages is 0 again, *)
Theorem C46_crossover {N : FOps} s slow fast xs : slow >= 1 -> fast >= 1 -> xs <> [] -> shaped s (rev xs) ->
  exists out sf s0, call (SimpleMovingAverageCrossover (Z.of_nat slow) (Z.of_nat fast)) (tensors s xs) None true = Ok (tensors s out, sf, s0) /\
    length out = length xs /\
    forall n j, n < length xs -> j < prod s -> (2147483648 <= Z.of_nat n < 4294967296)%Z -> number out j n = fsub f0 f0.
Proof. exact (crossover_again s slow fast xs). Qed.
Print Assumptions C46_crossover.
Theorem C46_crossover_history {N : FOps} s slow fast : slow >= 1 -> fast >= 1 ->
  streams (SimpleMovingAverageCrossover (Z.of_nat slow) (Z.of_nat fast)) (shaped s) (tensors s)
    (fun hs => tensors s (map (each s (crossover_forever slow fast)) hs)).
Proof. exact (crossover_streams_forever s slow fast). Qed.
Print Assumptions C46_crossover_history.
(** MACD's line, signal and histogram (its third, fourth and fifth outputs) are 0, *)
Theorem C46_macd {N : FOps} slow fast m s v n : (1 <= slow)%Z -> (1 <= fast)%Z -> (1 <= m)%Z -> n > 0 -> genuine v -> sig v = Leaf (n :: s, F32) ->
  exists out sf s0, call (MovingAverageConvergenceDivergence slow fast m) v None true = Ok (out, sf, s0) /\
    forall i, i < n -> (2147483648 <= Z.of_nat i < 4294967296)%Z ->
      exists a b, let z := Leaf (mkT s (DF (repeat f0 (prod s)))) in row i out = Tup [a; b; z; z; z].
Proof. exact (macd_again slow fast m s v n). Qed.
Print Assumptions C46_macd.
(** both trading signals say hold, *)
Theorem C46_signals {N : FOps} slow fast m s v n : (1 <= slow)%Z -> (1 <= fast)%Z -> (1 <= m)%Z -> n > 0 -> genuine v -> sig v = Leaf (n :: s, F32) ->
  (exists out sf s0, call (SimpleMovingAverageCrossoverSignal slow fast) v None true = Ok (out, sf, s0) /\
     forall i, i < n -> (2147483648 <= Z.of_nat i < 4294967296)%Z -> row i out = Leaf (mkT s (DI (repeat 0%Z (prod s))))) /\
  (exists out sf s0, call (MovingAverageConvergenceDivergenceSignal slow fast m) v None true = Ok (out, sf, s0) /\
     forall i, i < n -> (2147483648 <= Z.of_nat i < 4294967296)%Z -> row i out = Leaf (mkT s (DI (repeat 0%Z (prod s))))).
Proof. exact (signals_again slow fast m s v n). Qed.
Print Assumptions C46_signals.
(** the relative strength index, the volatility and the lagged correlations are 0; *)
Theorem C46_strength {N : FOps} p v n : (1 <= p)%Z -> n > 0 -> genuine v -> sig v = Leaf ([n], F32) ->
  exists out sf s0, call (RelativeStrengthIndex p) v None true = Ok (out, sf, s0) /\
    forall i, i < n -> (2147483648 <= Z.of_nat i < 4294967296)%Z -> row i out = Leaf (fsc f0).
Proof. exact (rsi_again p v n). Qed.
Print Assumptions C46_strength.
Theorem C46_volatility {N : FOps} m r v n : (1 <= m)%Z -> (1 <= r)%Z -> n > 0 -> genuine v -> sig v = Leaf ([n], F32) ->
  exists out sf s0, call (Volatility m r) v None true = Ok (out, sf, s0) /\
    forall i, i < n -> (2147483648 <= Z.of_nat i < 4294967296)%Z -> row i out = Leaf (fsc f0).
Proof. exact (volatility_again m r v n). Qed.
Print Assumptions C46_volatility.
Theorem C46_cross_correlation {N : FOps} p lag s v n : (1 <= p)%Z -> (1 <= lag)%Z -> n > 0 -> genuine v ->
  sig v = Tup [Leaf (n :: s, F32); Leaf (n :: s, F32)] ->
  exists out sf s0, call (CrossCorrelation p lag) v None true = Ok (out, sf, s0) /\
    forall i, i < n -> (2147483648 <= Z.of_nat i < 4294967296)%Z -> row i out = Leaf (mkT s (DF (repeat f0 (prod s)))).
Proof. exact (cross_again p lag s v n). Qed.
Print Assumptions C46_cross_correlation.
Theorem C46_auto_correlation {N : FOps} p lag s v n : (1 <= p)%Z -> (1 <= lag)%Z -> n > 0 -> genuine v -> sig v = Leaf (n :: s, F32) ->
  exists out sf s0, call (AutoCorrelation p lag) v None true = Ok (out, sf, s0) /\
    forall i, i < n -> (2147483648 <= Z.of_nat i < 4294967296)%Z -> row i out = Leaf (mkT s (DF (repeat f0 (prod s)))).
Proof. exact (auto_again p lag s v n). Qed.
Print Assumptions C46_auto_correlation.
(** and any composition whose outermost stage is SetDuring outputs its constant again. *)
Theorem C46_composed {N : FOps} d (a : elt d) p ops zx s zs v n : (0 <= p)%Z ->
  well_shaped (Compose (SetDuring (mkT [] (mkD d [a])) p :: ops)) zx (Leaf (s, d)) zs -> leaves zx <> [] -> n > 0 -> genuine v -> sig v = wide n zx ->
  exists out sf s0, call (Compose (SetDuring (mkT [] (mkD d [a])) p :: ops)) v None true = Ok (out, sf, s0) /\ sig out = Leaf (n :: s, d) /\
    forall i, i < n -> (2147483648 <= Z.of_nat i < 4294967296)%Z -> row i out = Leaf (mkT s (mkD d (repeat a (prod s)))).
Proof. exact (overridden d a p ops zx s zs v n). Qed.
Print Assumptions C46_composed.

(** A series that long exists; and in float32, resumed after 1, 2, 1, 3, 4 with the counter at its lowest value instead of 5, the index at
    5 goes from 94.4 to 0, and MACD's line, signal and histogram from positive to 0. *)
Example C46_composed_met : forall N : FOps, exists (v : val) n, n > 0 /\ genuine v /\ sig v = Leaf ([n], F32) /\
  exists i, i < n /\ (2147483648 <= Z.of_nat i < 4294967296)%Z.
Proof.
  intros N. set (n := Z.to_nat 2147483649). assert (Hn : Z.of_nat n = 2147483649%Z) by (unfold n; now rewrite Z2Nat.id by lia). clearbody n.
  exists (Leaf (mkT [n] (DF (repeat f0 n)))), n. split; [lia|]. split; [apply GenuineBase.genuine_leaf; unfold wf, prod; cbn [dat sh dlen fold_right]; rewrite repeat_length; lia|]. split; [reflexivity|].
  exists (Z.to_nat 2147483648). rewrite Z2Nat.id by lia. lia.
Qed.
Definition f32 : FOps := B32 (fun x => x).
Definition n32 (z : Z) : spec_float := b32_of_Z z.
Definition with_counter (z : Z) (st : @val f32) : @val f32 := match st with Tup (_ :: l) => Tup (Leaf (@isc f32 z) :: l) | _ => st end.
Definition resumed (op : @operator f32) (z : Z) : res (@val f32) :=
  bind (@call f32 op (@scalars f32 (map n32 [1; 2; 1; 3; 4]%Z)) None true) (fun r => let '(_, st, _) := r in
  bind (@call f32 op (Leaf (@fsc f32 (n32 5))) (Some (with_counter z st)) false) (fun r => let '(o, _, _) := r in Ok o)).
Definition real32 (m : positive) (e : Z) : @val f32 := Leaf (@fsc f32 (S754_finite false m e)).
Definition zero32 : @val f32 := Leaf (@fsc f32 (S754_zero false)).
Example C46_strength_met : resumed (@RelativeStrengthIndex f32 2) 5 = Ok (real32 12379022 (-17)) /\ resumed (@RelativeStrengthIndex f32 2) (-2147483648) = Ok zero32.
Proof. split; match goal with |- _ = ?b => vm_cast_no_check (eq_refl b) end. Qed.
Example C46_macd_met :
  resumed (@MovingAverageConvergenceDivergence f32 3 2 2) 5 =
    Ok (Tup [real32 8475990 (-21); real32 9411294 (-21); real32 14964864 (-25); real32 12910863 (-25); real32 16432008 (-28)]) /\
  resumed (@MovingAverageConvergenceDivergence f32 3 2 2) (-2147483648) =
    Ok (Tup [real32 8475990 (-21); real32 9411294 (-21); zero32; zero32; zero32]).
Proof. split; match goal with |- _ = ?b => vm_cast_no_check (eq_refl b) end. Qed.
