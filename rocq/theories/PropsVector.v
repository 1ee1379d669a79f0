(** * PropsVector: property C59 — several assets in one tensor.
    Vocabulary: Vectors.v ([wide_bars], [largest_range], [rejects]), Algebra.v ([vectorised]), Series.v, Shapes.v. *)
From Coq Require Import List ZArith Bool Lia.
From Verif Require Import Num Py PyFacts Tensor Streamable Spec SpecMeta Meta Common Finance Library Series Formulas Shapes
  ShapeFacts ShapeMain Algebra ImplMarket Vectors VectorRange VectorErrors Witness.
Import ListNotations.

(** The average true range of candles of shape [s] is one number: the rolling average of the largest range of all
    the candles. *)
Theorem C59_largest_range {N : FOps} s p xs : p >= 1 -> xs <> [] -> short (rev xs) -> Forall (fun row => length row = prod s) xs ->
  exists out sf s0 sf' s0', call (AverageTrueRange (Z.of_nat p)) (wide_bars s xs) None true = Ok (scalars out, sf, s0) /\
    call (RollingMovingAverage (Z.of_nat p)) (scalars (map (largest_range (prod s) xs) (seq 0 (length xs)))) None true =
      Ok (scalars out, sf', s0').
Proof. exact (wide_positions s p xs). Qed.
Print Assumptions C59_largest_range.
Theorem C59_largest_range_history {N : FOps} s p : p >= 1 ->
  streams (AverageTrueRange (Z.of_nat p)) (even_rows (prod s)) (wide_bars s)
    (fun hs => scalars (map (fun h => rma p (wide_ranges (prod s) h)) hs)).
Proof. exact (wide_streams s p). Qed.
Print Assumptions C59_largest_range_history.
(** So it is never what Map over the columns gives: Map is needed, unlike for the operators of C54. *)
Theorem C59_columns_refuted {N : FOps} n p : n >= 1 -> (1 <= p)%Z -> ~ vectorised (AverageTrueRange p) n (Tup [num; num; num]).
Proof.
  intros Hn Hp H. set (z := Leaf (zeros [1; n] F32) : val). assert (V : vhas (Tup [z; z; z]) (wide 1 (wide n (Tup [num; num; num])))).
  { apply vhas_tup. repeat apply Forall2_cons; try apply Forall2_nil; apply vhas_leaf, has_zeros. }
  destruct V as [G E]. destruct (H 1 _ ltac:(lia) ltac:(lia) G E) as (o & (s & i & A) & (s' & i' & B)).
  assert (W1 : well_shaped (AverageTrueRange p) (Tup [num; num; num]) num (Tup [num; s_ema p []])) by (eapply ws_step; [now apply tk_atr|reflexivity]).
  assert (W2 : well_shaped (AverageTrueRange p) (wide n (Tup [num; num; num])) num (Tup [tf [n]; s_ema p []]))
    by (eapply ws_step; [now apply (tk_atr p [n])|reflexivity]).
  assert (W3 : well_shaped (Map (AverageTrueRange p) n) (wide n (Tup [num; num; num])) (wide n num) (Tup [wide n (Tup [num; s_ema p []])]))
    by (apply ws_map; [exact Hn|discriminate|exact W1]).
  destruct (shaped_stream _ _ _ _ _ None 1 W3 ltac:(discriminate) ltac:(lia) G E I) as (o1 & s1 & i1 & os1 & C1 & _ & Z1 & _).
  destruct (shaped_stream _ _ _ _ _ None 1 W2 ltac:(discriminate) ltac:(lia) G E I) as (o2 & s2 & i2 & os2 & C2 & _ & Z2 & _).
  assert (A' := eq_trans (eq_sym A) C1). assert (B' := eq_trans (eq_sym B) C2). injection A' as -> _ _. injection B' as -> _ _.
  rewrite Z1 in Z2. discriminate Z2.
Qed.
Print Assumptions C59_columns_refuted.
(** Operators that decide on the value of their input accept scalars only: they reject tensors of rank 1 or more. *)
Theorem C59_scalars_only {N : FOps} s d p m : s <> [] ->
  rejects GlobalMinimum (Leaf (s, d)) /\ rejects GlobalMaximum (Leaf (s, d)) /\
  rejects (LocalMinimum p) (Leaf (s, d)) /\ rejects (LocalMaximum p) (Leaf (s, d)) /\
  rejects (Return p) (Leaf (s, d)) /\ rejects (LogarithmicReturn p) (Leaf (s, d)) /\ rejects (Volatility m p) (Leaf (s, d)) /\
  rejects Drawdown (Leaf (s, d)) /\ rejects (Skewness p) (Leaf (s, d)) /\
  rejects (SharpeRatio p) (Tup [Leaf (s, d); Leaf (s, d)]) /\
  rejects HeikinAshi (Tup [Leaf (s, d); Leaf (s, d); Leaf (s, d); Leaf (s, d)]).
Proof. exact (numbers_only s d p m). Qed.
Print Assumptions C59_scalars_only.

(** Two assets, three days. *)
Definition two_assets : list (list candle) :=
  [[Candle (fz 9) (fz 12) (fz 8) (fz 10); Candle (fz 20) (fz 21) (fz 19) (fz 20)];
   [Candle (fz 10) (fz 13) (fz 9) (fz 11); Candle (fz 20) (fz 30) (fz 20) (fz 28)];
   [Candle (fz 11) (fz 12) (fz 4) (fz 5); Candle (fz 28) (fz 29) (fz 27) (fz 28)]].
Example C59_met : two_assets <> [] /\ short (rev two_assets) /\ Forall (fun row => length row = prod [2]) two_assets /\
  map (largest_range 2 two_assets) (seq 0 3) = [fz 4; fz 10; fz 8] /\ [2] <> [] /\
  genuine (mser 2 [[1; 2]; [3; 4]]%Z) /\ sig (mser 2 [[1; 2]; [3; 4]]%Z) = wide 2 (Leaf ([2], F32)).
Proof.
  split; [discriminate|]. split; [vm_compute; discriminate|]. split; [repeat constructor|]. split; [vm_compute; reflexivity|].
  split; [discriminate|]. split; [gen|reflexivity].
Qed.
