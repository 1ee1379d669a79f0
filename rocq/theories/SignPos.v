(** * SignPos: the bounds of SignMain at every position of a stream (C56). *)
From Coq Require Import Reals Lia List ZArith Bool.
From Coq Require Import Floats.SpecFloat.
From Verif Require Import Num Py Tensor Streamable Meta Common Finance Series Formulas Positions
  B32 Rounding ImplBasic ImplComp ImplMarket ImplCorr MovingFacts MarketFacts RoundIeee SignFacts SignMain.
Import ListNotations.

Section Pos.
Context (log32 : spec_float -> spec_float).
Notation N := (B32 log32).
Lemma column_all (P : spec_float -> Prop) s xs n j : Forall (Forall P) xs -> @ok_rows N s (rev xs) -> n < length xs -> j < prod s ->
  Forall P (upto n (@numbers N xs j)).
Proof.
  intros H [W _] Hn Hj. apply Forall_forall. intros x I.
  apply (upto_in n (@numbers N xs j) (@f0 N)) in I as (i & Hi & <-); [|now rewrite numbers_length].
  assert (Hl := Nat.le_lt_trans _ _ _ Hi Hn). rewrite nth_numbers by exact Hl. rewrite Forall_forall in H.
  assert (Ir : In (nth i xs []) xs) by (apply nth_In; exact Hl). specialize (H _ Ir). rewrite Forall_forall in H. apply H.
  unfold number. apply nth_In. apply Forall_rev in W. rewrite rev_involutive in W. rewrite Forall_forall in W. rewrite (W _ Ir). exact Hj.
Qed.
Lemma nth_upto_all {X} (P : X -> Prop) n xs : Forall P xs -> Forall P (upto n xs).
Proof. rewrite !Forall_forall. intros H x I. apply H. now apply in_upto in I. Qed.
Lemma keep (P Q : spec_float -> Prop) op s f :
  @streams N _ op (@ok_rows N s) (@tensors N s) (fun hs => @tensors N s (map (@each N _ s f) hs)) ->
  (forall h, Forall P h -> Q (f h)) ->
  forall xs, xs <> [] -> @ok_rows N s (rev xs) -> Forall (Forall P) xs ->
  exists o sf s0, @call N op (@tensors N s xs) None true = Ok (@tensors N s o, sf, s0) /\ length o = length xs /\
    forall n j, n < length xs -> j < prod s -> Q (@number N o j n).
Proof.
  intros ST K xs NE OK HP. destruct (tensor_positions _ _ _ _ ST xs NE OK) as (o & sf & s0 & E & L & H).
  exists o, sf, s0. split; [exact E|]. split; [exact L|]. intros n j Hn Hj. rewrite H by assumption. apply K. now apply (column_all P s).
Qed.
Lemma nn_not x : SFltb x (b32_of_Z 0) = false <-> nn x.
Proof. exact (flt_nn log32 x). Qed.
Lemma all_nn h : Forall (fun b => SFltb b (b32_of_Z 0) = false) h -> Forall nn h.
Proof. apply Forall_impl. intros x. apply nn_not. Qed.
Lemma averages_nn s p xs op : 1 <= p -> (Z.of_nat p <= 2 ^ 20)%Z -> xs <> [] -> @ok_rows N s (rev xs) ->
  In op [@SimpleMovingAverage N (Z.of_nat p); @ExponentialMovingAverage N (Z.of_nat p); @RollingMovingAverage N (Z.of_nat p)] ->
  Forall (Forall (fun b => SFltb b (b32_of_Z 0) = false)) xs ->
  exists o sf s0, @call N op (@tensors N s xs) None true = Ok (@tensors N s o, sf, s0) /\ length o = length xs /\
    forall n j, n < length xs -> j < prod s -> SFltb (@number N o j n) (b32_of_Z 0) = false.
Proof.
  intros H1 H2 NE OK [<-|[<-|[<-|[]]]] HP; revert xs NE OK HP.
  - apply (keep (fun b => SFltb b (b32_of_Z 0) = false) (fun b => SFltb b (b32_of_Z 0) = false) _ s _ (sma_streams s p H1)). intros h H. apply nn_not. apply sma_nn; [exact H1|now apply all_nn].
  - apply (keep (fun b => SFltb b (b32_of_Z 0) = false) (fun b => SFltb b (b32_of_Z 0) = false) _ s _ (ema_streams s p H1)). intros h H. apply nn_not. apply ema_nn; [exact H1|exact H2|now apply all_nn].
  - apply (keep (fun b => SFltb b (b32_of_Z 0) = false) (fun b => SFltb b (b32_of_Z 0) = false) _ s _ (rma_streams s p H1)). intros h H. apply nn_not. apply rma_nn; [exact H1|now apply all_nn].
Qed.
Lemma deviation_nn s p xs : 1 <= p -> xs <> [] -> @ok_rows N s (rev xs) ->
  exists o sf s0, @call N (@MovingStandardDeviation N (Z.of_nat p)) (@tensors N s xs) None true = Ok (@tensors N s o, sf, s0) /\
    length o = length xs /\ forall n j, n < length xs -> j < prod s -> SFltb (@number N o j n) (b32_of_Z 0) = false.
Proof.
  intros H1 NE OK. apply (keep (fun _ => True) (fun b => SFltb b (b32_of_Z 0) = false) _ s _ (msd_streams s p H1)); auto.
  - intros h _. apply nn_not, msd_nn.
  - apply Forall_forall. intros r _. apply Forall_forall. easy.
Qed.
Lemma bands_ordered s p k xs : 1 <= p -> SFltb (@num N k) (b32_of_Z 0) = false -> xs <> [] -> @ok_rows N s (rev xs) ->
  Forall (Forall (fun x => valid_binary prec32 emax32 x = true)) xs ->
  exists lower middle upper sf s0, @call N (@BollingerBands N (Z.of_nat p) k) (@tensors N s xs) None true =
      Ok (Tup [@tensors N s lower; @tensors N s middle; @tensors N s upper], sf, s0) /\
    length lower = length xs /\ length middle = length xs /\ length upper = length xs /\
    forall n j, n < length xs -> j < prod s ->
      SFltb (@number N middle j n) (@number N lower j n) = false /\ SFltb (@number N upper j n) (@number N middle j n) = false.
Proof.
  intros H1 K NE OK V. destruct (bollinger_streams s p k H1) as (st & H & _).
  do 5 eexists. split; [exact (H xs NE OK)|]. rewrite !map_length, !hists_length. split; [reflexivity|]. split; [reflexivity|].
  split; [reflexivity|]. intros n j Hn Hj. unfold number. rewrite !nth_map_hists, !each_nth, column_upto by assumption.
  apply (bands log32 p k); [now apply (column_all _ s)|now apply nn_not].
Qed.
Lemma rsi_between p xs : 1 <= p -> xs <> [] -> short (rev xs) -> Forall (fun x => valid_binary prec32 emax32 x = true) xs ->
  exists o sf s0, @call N (@RelativeStrengthIndex N (Z.of_nat p)) (@scalars N xs) None true = Ok (@scalars N o, sf, s0) /\
    length o = length xs /\
    forall n, n < length xs -> SFltb (nth n o (b32_of_Z 0)) (b32_of_Z 0) = false /\ SFltb (b32_of_Z 100) (nth n o (b32_of_Z 0)) = false.
Proof.
  intros H1 NE OK V. destruct (@scalar_positions N _ _ _ _ _ (rsi_streams p H1) xs NE OK) as (o & sf & s0 & E & L & H).
  exists o, sf, s0. split; [exact E|]. split; [exact L|]. intros n Hn. rewrite H by exact Hn.
  apply rsi_bounds; [exact H1|]. now apply nth_upto_all.
Qed.
Lemma atr_positive p xs : 1 <= p -> xs <> [] -> short (rev xs) ->
  Forall (fun c => b32_finite (@c_high N c) /\ b32_finite (@c_low N c) /\ b32_finite (@c_close N c)) xs ->
  exists o sf s0, @call N (@AverageTrueRange N (Z.of_nat p)) (@bars N xs) None true = Ok (@scalars N o, sf, s0) /\
    length o = length xs /\ forall n, n < length xs -> SFltb (nth n o (b32_of_Z 0)) (b32_of_Z 0) = false.
Proof.
  intros H1 NE OK V. destruct (@scalar_positions N _ _ _ _ _ (atr_streams p H1) xs NE OK) as (o & sf & s0 & E & L & H).
  exists o, sf, s0. split; [exact E|]. split; [exact L|]. intros n Hn. rewrite H by exact Hn.
  apply nn_not, atr_nn; [exact H1|]. now apply nth_upto_all.
Qed.
Lemma drawdown_between xs : xs <> [] -> below31 (rev xs) ->
  exists o sf s0, @call N (@Drawdown N) (@scalars N xs) None true = Ok (@drawdowns N o, sf, s0) /\ length o = length xs /\
    forall n, n < length xs -> SFleb (fst (nth n o (b32_of_Z 0, 0%Z))) (b32_of_Z 0) = true /\
      (Forall (fun x => valid_binary prec32 emax32 x = true) xs -> Forall (fun b => SFltb b (b32_of_Z 0) = false) xs ->
       SFltb (fst (nth n o (b32_of_Z 0, 0%Z))) (b32_of_Z (-1)) = false).
Proof.
  intros NE OK. destruct (@drawdown_streams N) as (st & H & _). do 3 eexists. split; [exact (H xs NE OK)|].
  split; [now rewrite map_length, hists_length|]. intros n Hn. rewrite nth_map_hists by exact Hn. cbn [fst]. split; [apply drawdown_np|].
  intros V P. apply drawdown_lower; apply nth_upto_all; [exact V|now apply all_nn].
Qed.
Lemma ha_contains xs : xs <> [] ->
  exists o sf s0, @call N (@HeikinAshi N) (@candles N xs) None true = Ok (@candles N o, sf, s0) /\ length o = length xs /\
    forall n, S n < length xs -> let c := nth (S n) xs (@no_candle N) in let b := nth n xs (@no_candle N) in
      let a := nth (S n) o (@no_candle N) in
      SFeqb (@c_open N b) (b32_of_Z 0) = false ->
      Forall (fun x => SFltb (@c_high N a) x = false) [@c_open N a; @c_close N a; @c_high N c] /\
      Forall (fun x => SFltb x (@c_low N a) = false) [@c_open N a; @c_close N a; @c_low N c].
Proof.
  intros NE. destruct (@ha_streams N) as (st & H & _). do 3 eexists. split; [exact (H xs NE I)|].
  split; [now rewrite map_length, hists_length|]. intros n Hn c b a Hb. subst a. rewrite nth_map_hists by exact Hn.
  assert (U : upto (S n) xs = c :: upto n xs).
  { apply (nth_ext _ _ (@no_candle N) (@no_candle N)); [cbn [length]; now rewrite !upto_length by lia|].
    intros i Hi. rewrite upto_length in Hi by lia. destruct i as [|i]; rewrite nth_upto by lia; [reflexivity|].
    cbn [nth]. rewrite nth_upto by lia. f_equal. }
  assert (V : exists r, upto n xs = b :: r).
  { destruct (upto n xs) as [|x r] eqn:E; [apply (f_equal (@length _)) in E; rewrite upto_length in E by lia; discriminate|].
    exists r. f_equal. assert (Z := nth_upto n 0 xs (@no_candle N)). rewrite E in Z. cbn [nth] in Z. rewrite Nat.sub_0_r in Z. apply Z; lia. }
  destruct V as [r V]. rewrite U, V. cbn [heikin_ashi last_open]. 
  change (@feq N (c_open b) (@f0 N)) with (SFeqb (@c_open N b) (b32_of_Z 0)). rewrite Hb. cbn [c_open c_high c_low c_close frmax frmin B32].
  split; repeat match goal with |- Forall _ _ => constructor end; ((apply rmax_above || apply rmin_below); cbn; tauto).
Qed.
End Pos.
Definition state_of {N : FOps} (r : res (val * val * val)) : val := match r with Ok (_, s, _) => s | Err _ => Tup [] end.
Definition start_of {N : FOps} (r : res (val * val * val)) : val := match r with Ok (_, _, s) => s | Err _ => Tup [] end.
Lemma constant_not_kept log32 : let N := B32 log32 in
  let a := b32_of_Z 8388610 in let b := b32_of_Z 8388613 in
  (exists o sf s0, @call N (@SimpleMovingAverage N 6) (@scalars N (repeat a 6)) None true = Ok (@scalars N o, sf, s0) /\
     nth 5 o a = b32_of_Z 8388609 /\ SFltb (nth 5 o a) a = true) /\
  (exists o sf s0, @call N (@ExponentialMovingAverage N 2) (@scalars N (repeat b 3)) None true = Ok (@scalars N o, sf, s0) /\
     nth 2 o b = b32_of_Z 8388614 /\ SFltb b (nth 2 o b) = true) /\
  (exists o sf s0, @call N (@MovingStandardDeviation N 6) (@scalars N (repeat a 6)) None true = Ok (@scalars N o, sf, s0) /\
     nth 5 o a = b32_of_Z 1).
Proof.
  cbv zeta. split; [|split].
  - exists [b32_of_Z 0; b32_of_Z 0; b32_of_Z 0; b32_of_Z 0; b32_of_Z 0; b32_of_Z 8388609].
    set (r := @call _ _ _ _ _). exists (state_of r), (start_of r). split; [vm_cast_no_check (@eq_refl _ r)|split; reflexivity].
  - exists [b32_of_Z 0; b32_of_Z 8388613; b32_of_Z 8388614].
    set (r := @call _ _ _ _ _). exists (state_of r), (start_of r). split; [vm_cast_no_check (@eq_refl _ r)|split; reflexivity].
  - exists [b32_of_Z 0; b32_of_Z 0; b32_of_Z 0; b32_of_Z 0; b32_of_Z 0; b32_of_Z 1].
    set (r := @call _ _ _ _ _). exists (state_of r), (start_of r). split; [vm_cast_no_check (@eq_refl _ r)|reflexivity].
Qed.
Lemma correlation_above_one log32 : let N := B32 log32 in
  let u := [b32_of_Z 0; b32_of_Z 1; b32_of_Z 0; b32_of_Z 0] in
  exists o sf s0, @call N (@Correlation N 3) (Tup [@scalars N u; @scalars N u]) None true = Ok (@scalars N o, sf, s0) /\
     SFltb (b32_of_Z 1) (nth 3 o (b32_of_Z 0)) = true.
Proof.
  cbv zeta. exists [b32_of_Z 0; b32_of_Z 0; b32_of_Z 0; S754_finite false 8388609 (-23)]. 
  set (r := @call _ _ _ _ _). exists (state_of r), (start_of r). split; [vm_cast_no_check (@eq_refl _ r)|reflexivity].
Qed.
