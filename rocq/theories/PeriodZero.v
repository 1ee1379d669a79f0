(** * PeriodZero: recursive averages over no element at all are streamed, and are no averages (C71). *)
From Coq Require Import List ZArith Bool Lia Reals Lra.
From Verif Require Import Num Py PyFacts Tensor TensorFacts Streamable Spec StreamFacts StreamProofs Meta Common Finance
  EvalFacts RunFacts Implements Series Formulas Positions ImplMeta ImplBasic ImplScalar Periods ER RealFacts.
Import ListNotations.

Section Zero.
Context {N : FOps}.
Fixpoint fed (g : F -> F -> F) (h : list F) : F := match h with [] => f0 | x :: r => g (fed g r) x end.
Lemma feedback_hists g xs : forall h, feedback g (fed g h) xs = map (fed g) (hists h xs).
Proof. induction xs as [|x xs IH]; intros h; cbn [feedback hists map]; [reflexivity|]. f_equal. apply (IH (x :: h)). Qed.
Definition zero_st (g : F -> F -> F) : pyval (list F -> tensor) :=
  Tup [Leaf cnt; Leaf (fun h => fsc (fed g h)); Tup [Leaf (fun _ => isc 0); Leaf (fun _ => mkT [0] (DF []))]].
Lemma typed_zero_st g : typed short (zero_st g).
Proof.
  ttup; [apply typed_cnt|apply typed_fsc|]. ttup; [apply (typed_isc _ (fun _ => 0%Z))|].
  apply (typed_leaf _ _ ([0], F32)). intros. split; reflexivity.
Qed.
Lemma cnt_not_zero (x : F) h : short (x :: h) -> tless (cnt h) (isc 0) = Ok (bsc false).
Proof. intros H. pose proof (cnt_lt x h 0 H) as E. exact E. Qed.
Definition ema0 (prev x : F) : F := fadd (fmul x (f_of_D (ema_k 0))) (fmul prev (f_of_D (dsub (d_of_Z 1) (ema_k 0)))).
Definition rma0 (prev x : F) : F := fdiv (fadd (fmul prev (f_of_Z (-1))) x) (f_of_Z 0).
Lemma ema0_implements : implements (ExponentialMovingAverage 0) short (Leaf fsc) (Leaf (fun h => fsc (fed ema0 h))) (zero_st ema0).
Proof.
  apply implements_intro.
  - apply short_nil.
  - apply short_tl.
  - apply (typed_fsc _ (fun x => x)).
  - apply typed_fsc.
  - apply typed_zero_st.
  - intros x h H. cbn [forward_step ExponentialMovingAverage at_ vmap zero_st map app]. unfold ema_step. args.
    match goal with |- context [call (SimpleMovingAverage 0) ?a ?b ?c] => let r := eval cbn in (call (SimpleMovingAverage 0) a b c) in change (call (SimpleMovingAverage 0) a b c) with r end.
    cbn [bind]. unfold int_op at 1. change (pyint_like (cnt h) 0) with (Ok (isc 0)). cbn [bind].
    change (pyfloat_like (fsc x) ?k) with (Ok (fsc k)). cbn [bind].
    change (pyfloat_like (fsc ?y) ?k) with (Ok (fsc k)). cbn [bind].
    change (tmul (fsc ?y) (fsc ?k)) with (Ok (fsc (fmul y k))). cbn [bind].
    change (tadd (fsc ?y) (fsc ?k)) with (Ok (fsc (fadd y k))). cbn [bind].
    rewrite (cnt_not_zero x h H). cbn [bind].
    rewrite tf_cond_pick'; [|repeat constructor..|reflexivity]. cbn [bind item nth_error].
    rewrite (cnt_next x h). reflexivity.
  - intros x H. cbn [forward_step ExponentialMovingAverage at_ vmap zero_st map app]. reflexivity.
Qed.
Lemma rma0_implements : implements (RollingMovingAverage 0) short (Leaf fsc) (Leaf (fun h => fsc (fed rma0 h))) (zero_st rma0).
Proof.
  apply implements_intro.
  - apply short_nil.
  - apply short_tl.
  - apply (typed_fsc _ (fun x => x)).
  - apply typed_fsc.
  - apply typed_zero_st.
  - intros x h H. cbn [forward_step RollingMovingAverage at_ vmap zero_st map app]. unfold rma_step. args.
    match goal with |- context [call (SimpleMovingAverage 0) ?a ?b ?c] => let r := eval cbn in (call (SimpleMovingAverage 0) a b c) in change (call (SimpleMovingAverage 0) a b c) with r end.
    cbn [bind]. change (int_op tmul (fsc ?y) (0 - 1)) with (Ok (fsc (fmul y (f_of_Z (-1))))). cbn [bind].
    change (tadd (fsc ?y) (fsc ?k)) with (Ok (fsc (fadd y k))). cbn [bind].
    change (int_op tdiv (fsc ?y) 0) with (Ok (fsc (fdiv y (f_of_Z 0)))). cbn [bind].
    unfold int_op at 1. change (pyint_like (cnt h) 0) with (Ok (isc 0)). cbn [bind].
    rewrite (cnt_not_zero x h H). cbn [bind].
    rewrite tf_cond_pick'; [|repeat constructor..|reflexivity]. cbn [bind item nth_error].
    rewrite (cnt_next x h). reflexivity.
  - intros x H. cbn [forward_step RollingMovingAverage at_ vmap zero_st map app]. reflexivity.
Qed.
Theorem ema_zero xs : xs <> [] -> short (rev xs) ->
  exists sf s0, call (ExponentialMovingAverage 0) (scalars xs) None true = Ok (scalars (feedback ema0 f0 xs), sf, s0).
Proof.
  intros NE H. destruct (scalars_streams _ _ _ _ ema0_implements) as (st & S & _). exists (st (rev xs)), (st []). rewrite (S xs NE H).
  rewrite <- (feedback_hists ema0 xs []). reflexivity.
Qed.
Theorem rma_zero xs : xs <> [] -> short (rev xs) ->
  exists sf s0, call (RollingMovingAverage 0) (scalars xs) None true = Ok (scalars (feedback rma0 f0 xs), sf, s0).
Proof.
  intros NE H. destruct (scalars_streams _ _ _ _ rma0_implements) as (st & S & _). exists (st (rev xs)), (st []). rewrite (S xs NE H).
  rewrite <- (feedback_hists rma0 xs []). reflexivity.
Qed.
End Zero.
Local Open Scope R_scope.
Lemma alternate c n : forall k b, (k < n)%nat -> nth k (feedback (N := ER) (@ema0 ER) (Fin (if b : bool then 2 * c else 0)) (repeat (Fin c) n)) (Fin 0) = Fin (if xorb b (Nat.even k) then 2 * c else 0).
Proof.
  induction n as [|n IH]; intros k b Hk; [lia|]. cbn [repeat feedback]. cbv zeta.
  assert (E : @ema0 ER (Fin (if b then 2 * c else 0)) (Fin c) = Fin (if negb b then 2 * c else 0)).
  { unfold ema0, ema_k. cbn [f_of_D ER d_of_Z ddiv dadd dsub fmul fadd e_mul e_add]. f_equal. destruct b; cbn [negb]; field. }
  rewrite E. destruct k as [|k]; [cbn; now destruct b|]. cbn [nth]. rewrite IH by lia. rewrite Nat.even_succ, <- Nat.negb_even. now destruct b, (Nat.even k).
Qed.
Theorem ema_zero_constant c n : (0 < n)%nat -> (Z.of_nat n <= 2147483648)%Z ->
  exists out sf s0, @call ER (@ExponentialMovingAverage ER 0) (@scalars ER (repeat (Fin c) n)) None true = Ok (@scalars ER out, sf, s0) /\
    forall k, (k < n)%nat -> nth k out (Fin 0) = Fin (if Nat.even k then 2 * c else 0).
Proof.
  intros Hn Hs. destruct (@ema_zero ER (repeat (Fin c) n)) as (sf & s0 & E).
  - destruct n; [lia|discriminate].
  - unfold short. rewrite rev_length, repeat_length. exact Hs.
  - exists (feedback (N := ER) (@ema0 ER) (Fin 0) (repeat (Fin c) n)), sf, s0. split; [exact E|]. intros k Hk. rewrite (alternate c n k false Hk : nth k (feedback (N := ER) (@ema0 ER) (Fin 0) (repeat (Fin c) n)) (Fin 0) = _). now destruct (Nat.even k).
Qed.
Lemma never_finite xs : forall p k r, (k < length xs)%nat -> nth k (feedback (N := ER) (@rma0 ER) p (map Fin xs)) (Fin 0) <> Fin r.
Proof.
  induction xs as [|x xs IH]; intros p k r Hk; [cbn in Hk; lia|]. cbn [map feedback]. cbv zeta. destruct k as [|k].
  - cbn [nth]. unfold rma0. cbn [f_of_Z ER fdiv]. destruct (@fadd ER _ _) as [y| | |]; cbn [e_div]; unfold inf_of; try discriminate;
      repeat match goal with |- context [Rlt_dec ?a ?b] => destruct (Rlt_dec a b) | |- context [Req_EM_T ?a ?b] => destruct (Req_EM_T a b) end; try discriminate; lra.
  - cbn [nth]. apply IH. cbn in Hk. lia.
Qed.
Theorem rma_zero_never_finite xs : xs <> [] -> (Z.of_nat (length xs) <= 2147483648)%Z ->
  exists out sf s0, @call ER (@RollingMovingAverage ER 0) (@scalars ER (map Fin xs)) None true = Ok (@scalars ER out, sf, s0) /\
    forall k r, (k < length xs)%nat -> nth k out (Fin 0) <> Fin r.
Proof.
  intros NE Hs. destruct (@rma_zero ER (map Fin xs)) as (sf & s0 & E).
  - destruct xs; [easy|discriminate].
  - unfold short. rewrite rev_length, map_length. exact Hs.
  - exists (feedback (N := ER) (@rma0 ER) (Fin 0) (map Fin xs)), sf, s0. split; [exact E|]. intros k r Hk. now apply never_finite.
Qed.
