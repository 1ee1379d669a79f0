(** * PeriodZeroAtr: the average true range over no element (C71). *)
From Coq Require Import List ZArith Bool Lia Reals Lra.
From Verif Require Import Num Py PyFacts Tensor TensorFacts Streamable Spec StreamFacts StreamProofs Meta Common Finance
  EvalFacts RunFacts Implements Series Formulas Positions ImplMeta ImplBasic ImplScalar ImplMarket MarketFacts Periods PeriodZero ER RealFacts.
Import ListNotations.

Section ZeroAtr.
Context {N : FOps}.
Definition atr0_st : pyval (list candle -> tensor) :=
  Tup [Leaf (fun h => fsc (last_close h)); vmap (fun g h => g (ranges h)) (zero_st rma0)].
Lemma at_atr0_st h : at_ atr0_st h = Tup [Leaf (fsc (last_close h)); at_ (zero_st rma0) (ranges h)].
Proof. rewrite <- (at_vmap ranges (zero_st rma0) h). reflexivity. Qed.
Lemma atr0_implements : implements (AverageTrueRange 0) short bar_in (Leaf (fun h => fsc (fed rma0 (ranges h)))) atr0_st.
Proof.
  assert (IM := rma0_implements). apply implements_intro.
  - apply short_nil.
  - apply short_tl.
  - ttup; apply typed_fsc.
  - apply typed_fsc.
  - ttup; [apply typed_fsc|]. eapply (typed_pull ranges); [apply IM|]. exact short_ranges.
  - intros x h H. rewrite !at_atr0_st. cbn [forward_step AverageTrueRange].
    set (AT := at_ (zero_st rma0)). cbn [at_ vmap bar_in map app]. subst AT. unfold atr_step. args.
    rewrite true_range_ok. cbn [bind].
    change (Leaf (fsc (range (last_close h) x))) with (at_ (Leaf fsc) (range (last_close h) x)).
    rewrite (im_call _ _ _ _ _ _ _ IM) by (apply (short_ranges (x :: h)), H). reflexivity.
  - intros x H. rewrite !at_atr0_st. cbn [forward_step AverageTrueRange].
    set (AT := at_ (zero_st rma0)). cbn [at_ vmap bar_in map app]. subst AT. unfold atr_step. args.
    rewrite zeros_like_f. change (last_close []) with f0. rewrite true_range_ok. cbn [bind].
    change (Leaf (fsc (range f0 x))) with (at_ (Leaf fsc) (range f0 x)).
    rewrite (im_call0 _ _ _ _ _ _ IM) by (apply (short_ranges [x]), H).
    rewrite (im_call _ _ _ _ _ _ _ IM) by (apply (short_ranges [x]), H). reflexivity.
Qed.
Theorem atr_zero xs : xs <> [] -> short (rev xs) ->
  exists sf s0, call (AverageTrueRange 0) (bars xs) None true =
    Ok (scalars (feedback rma0 f0 (map (true_range xs) (seq 0 (length xs)))), sf, s0).
Proof.
  intros NE H. destruct (bars_streams _ _ _ _ atr0_implements) as (st & S & _). exists (st (rev xs)), (st []). rewrite (S xs NE H).
  do 4 f_equal. rewrite (feedback_hists rma0 (map (true_range xs) (seq 0 (length xs))) [] : feedback rma0 f0 _ = _).
  apply (nth_ext _ _ f0 f0); [rewrite !map_length, !hists_length, map_length, seq_length; reflexivity|].
  intros n Hn. rewrite map_length, hists_length in Hn.
  rewrite !nth_map_hists by (rewrite ?map_length, ?seq_length; exact Hn). now rewrite ranges_upto.
Qed.
End ZeroAtr.
Local Open Scope R_scope.
Lemma never_finite_any xs : forall p k r, (k < length xs)%nat -> nth k (feedback (N := ER) (@rma0 ER) p xs) (Fin 0) <> Fin r.
Proof.
  induction xs as [|x xs IH]; intros p k r Hk; [cbn in Hk; lia|]. cbn [feedback]. cbv zeta. destruct k as [|k].
  - cbn [nth]. unfold rma0. cbn [f_of_Z ER fdiv]. destruct (@fadd ER _ _) as [y| | |]; cbn [e_div]; unfold inf_of; try discriminate;
      repeat match goal with |- context [Rlt_dec ?a ?b] => destruct (Rlt_dec a b) | |- context [Req_EM_T ?a ?b] => destruct (Req_EM_T a b) end; try discriminate; lra.
  - cbn [nth]. apply IH. cbn [length] in Hk. now apply Nat.succ_lt_mono.
Qed.
Theorem atr_zero_never_finite xs : xs <> [] -> (Z.of_nat (length xs) <= 2147483648)%Z ->
  exists out sf s0, @call ER (@AverageTrueRange ER 0) (@bars ER xs) None true = Ok (@scalars ER out, sf, s0) /\ length out = length xs /\
    forall k r, (k < length xs)%nat -> nth k out (Fin 0) <> Fin r.
Proof.
  intros NE Hs. destruct (@atr_zero ER xs NE) as (sf & s0 & E); [unfold short; now rewrite rev_length|].
  eexists _, sf, s0. split; [exact E|]. split.
  - assert (L : forall g p l, length (feedback (N := ER) g p l) = length l) by (intros g p l; revert p; induction l; intros; cbn; auto). now rewrite L, map_length, seq_length.
  - intros k r Hk. apply never_finite_any. now rewrite map_length, seq_length.
Qed.
