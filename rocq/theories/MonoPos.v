(** * MonoPos: monotonicity of the averages at every position of a stream (C57). *)
From Coq Require Import Reals Lra Lia List ZArith Bool.
From Coq Require Import Floats.SpecFloat.
From Flocq Require Import Core.
From Verif Require Import Num Py Tensor Streamable Meta Common Finance Series Formulas Positions
  B32 Rounding ImplBasic ImplComp MovingFacts Ieee RoundIeee SignFacts SignMain MonoFacts.
Import ListNotations.

Section Pos.
Context (log32 : spec_float -> spec_float).
Notation N := (B32 log32).
Lemma columns_le xs ys n j : length ys = length xs -> n < length xs ->
  (forall i, i <= n -> b32_finite (@number N xs j i) /\ b32_finite (@number N ys j i) /\ SFleb (@number N xs j i) (@number N ys j i) = true) ->
  Forall2 le32 (upto n (@numbers N xs j)) (upto n (@numbers N ys j)).
Proof.
  intros E Hn H.
  assert (G : forall i, i <= n -> le32 (nth i (@numbers N xs j) (@f0 N)) (nth i (@numbers N ys j) (@f0 N))).
  { intros i Hi. rewrite !nth_numbers by (change (@F N) with spec_float in *; lia). destruct (H i Hi) as (F1 & F2 & L).
    split; [exact F1|]. split; [exact F2|]. rewrite (sf_le prec32 emax32) in L by assumption.
    destruct (Rle_bool_spec (sval (@number N xs j i)) (sval (@number N ys j i))) as [Z|]; [exact Z|discriminate]. }
  assert (L1 : length (upto n (@numbers N xs j)) = S n) by (apply upto_length; now rewrite numbers_length).
  assert (L2 : length (upto n (@numbers N ys j)) = S n) by (apply upto_length; rewrite numbers_length; change (@F N) with spec_float in *; lia).
  assert (K : forall i, i < S n -> le32 (nth i (upto n (@numbers N xs j)) (@f0 N)) (nth i (upto n (@numbers N ys j)) (@f0 N))).
  { intros i Hi. rewrite !nth_upto; try lia; try (rewrite numbers_length; change (@F N) with spec_float in *; lia). apply G. lia. }
  revert L1 L2 K. generalize (upto n (@numbers N xs j)) (upto n (@numbers N ys j)). clear. generalize (S n). clear n.
  change (@F N) with spec_float.
  intros m. induction m as [|m IH]; intros [|x l] [|y l'] L1 L2 K; try discriminate; constructor; [exact (K 0 (Nat.lt_0_succ m))|].
  apply IH; [now injection L1|now injection L2|]. intros i Hi. apply (K (S i)). lia.
Qed.
Lemma mono_streams s f op xs ys :
  @streams N _ op (@ok_rows N s) (@tensors N s) (fun hs => @tensors N s (map (@each N _ s f) hs)) ->
  (forall h h', Forall2 le32 h h' -> below (f h) (f h')) ->
  xs <> [] -> ys <> [] -> @ok_rows N s (rev xs) -> @ok_rows N s (rev ys) -> length ys = length xs ->
  (forall n j, n < length xs -> j < prod s ->
     b32_finite (@number N xs j n) /\ b32_finite (@number N ys j n) /\ SFleb (@number N xs j n) (@number N ys j n) = true) ->
  exists o sf s0 o' sf' s0',
    @call N op (@tensors N s xs) None true = Ok (@tensors N s o, sf, s0) /\
    @call N op (@tensors N s ys) None true = Ok (@tensors N s o', sf', s0') /\
    length o = length xs /\ length o' = length ys /\
    forall n j, n < length xs -> j < prod s -> SFleb (@number N o j n) (@number N o' j n) = true.
Proof.
  intros ST M NE NE' OK OK' E H. destruct (tensor_positions _ _ _ _ ST xs NE OK) as (o & sf & s0 & C & L & P).
  destruct (tensor_positions _ _ _ _ ST ys NE' OK') as (o' & sf' & s0' & C' & L' & P').
  exists o, sf, s0, o', sf', s0'. split; [exact C|]. split; [exact C'|]. split; [exact L|]. split; [exact L'|]. intros n j Hn Hj.
  rewrite P by assumption. rewrite P' by (try assumption; change (@F N) with spec_float in *; lia).
  destruct (M _ _ (columns_le xs ys n j E Hn (fun i Hi => H i j (Nat.le_lt_trans _ _ _ Hi Hn) Hj))) as (U1 & U2 & Z). now apply le_ev.
Qed.
Lemma averages_mono s p xs ys op : 1 <= p -> (Z.of_nat p <= 2 ^ 20)%Z ->
  In op [@SimpleMovingAverage N (Z.of_nat p); @ExponentialMovingAverage N (Z.of_nat p); @RollingMovingAverage N (Z.of_nat p)] ->
  xs <> [] -> @ok_rows N s (rev xs) -> @ok_rows N s (rev ys) -> length ys = length xs ->
  (forall n j, n < length xs -> j < prod s ->
     b32_finite (@number N xs j n) /\ b32_finite (@number N ys j n) /\ SFleb (@number N xs j n) (@number N ys j n) = true) ->
  exists o sf s0 o' sf' s0',
    @call N op (@tensors N s xs) None true = Ok (@tensors N s o, sf, s0) /\
    @call N op (@tensors N s ys) None true = Ok (@tensors N s o', sf', s0') /\
    length o = length xs /\ length o' = length ys /\
    forall n j, n < length xs -> j < prod s -> SFleb (@number N o j n) (@number N o' j n) = true.
Proof.
  intros H1 H2 I NE OK OK' E H. assert (NE' : ys <> []) by (destruct ys, xs; easy).
  destruct I as [<-|[<-|[<-|[]]]].
  - apply (mono_streams s _ _ xs ys (sma_streams s p H1)); try assumption. intros h h'. now apply sma_below.
  - apply (mono_streams s _ _ xs ys (ema_streams s p H1)); try assumption. intros h h'. now apply ema_below.
  - apply (mono_streams s _ _ xs ys (rma_streams s p H1)); try assumption. intros h h'. now apply rma_below.
Qed.
End Pos.
