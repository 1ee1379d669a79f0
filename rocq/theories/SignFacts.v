(** * SignFacts: signs, bounds and order in float32 (C56). *)
From Coq Require Import Reals Lra Lia List ZArith Bool.
From Coq Require Import Floats.SpecFloat.
From Flocq Require Import Core BinarySingleNaN.
From Verif Require Import Num Series Formulas B32 ER Rounding Ieee RoundIeee.
Import ListNotations.

(** ** Signs of the operations *)
(** Not negative: -0, +0, positive or NaN. *)
Definition nnb (x : spec_float) : bool := match x with S754_finite true _ _ | S754_infinity true => false | _ => true end.
Definition posb (x : spec_float) : bool := match x with S754_finite false _ _ | S754_infinity false => true | _ => false end.
Lemma nn_lt x s : SFltb x (S754_zero s) = negb (nnb x).
Proof. destruct x as [[]|[]| |[] m e]; reflexivity. Qed.
Lemma zero_lt x s : SFltb (S754_zero s) x = posb x.
Proof. destruct x as [[]|[]| |[] m e]; reflexivity. Qed.
Lemma pos_nn x : posb x = true -> nnb x = true.
Proof. destruct x as [[]|[]| |[] m e]; easy. Qed.

Section Format.
Variables prec emax : Z.
Notation round_aux := (SpecFloat.binary_round_aux prec emax).
Lemma round_aux_sign s m e l : round_aux s m e l = S754_nan \/ sign_SF (round_aux s m e l) = s.
Proof.
  unfold SpecFloat.binary_round_aux. destruct (shr_fexp prec emax m e l) as [mrs' e']. destruct (shr_fexp prec emax _ e' loc_Exact) as [mrs'' e''].
  destruct (shr_m mrs''); [now right| |now left]. right. destruct (Zle_bool e'' (emax - prec)); reflexivity.
Qed.
Lemma sign_nn x : x = S754_nan \/ sign_SF x = false -> nnb x = true.
Proof. intros [->|H]; [reflexivity|]. destruct x as [[]|[]| |[] m e]; easy. Qed.
Lemma sign_np x : x = S754_nan \/ sign_SF x = true -> nnb (SFopp x) = true.
Proof. intros [->|H]; [reflexivity|]. destruct x as [[]|[]| |[] m e]; easy. Qed.
Lemma normalize_nn m e z : (0 <= m)%Z -> nnb (SpecFloat.binary_normalize prec emax m e z) = true.
Proof.
  intros H. destruct m as [|m|m]; [reflexivity| |lia]. cbn. unfold SpecFloat.binary_round. match goal with |- context [let '(_, _) := ?t in _] => destruct t end. apply sign_nn, round_aux_sign.
Qed.
Lemma normalize_np m e z : (m <= 0)%Z -> nnb (SFopp (SpecFloat.binary_normalize prec emax m e z)) = true.
Proof.
  intros H. destruct m as [|m|m]; [reflexivity|lia|]. cbn. unfold SpecFloat.binary_round. match goal with |- context [let '(_, _) := ?t in _] => destruct t end. apply sign_np, round_aux_sign.
Qed.
Lemma add_nn x y : nnb x = true -> nnb y = true -> nnb (SFadd prec emax x y) = true.
Proof.
  intros Hx Hy. destruct x as [sx|[]| |[] mx ex], y as [sy|[]| |[] my ey]; try easy; try (cbn; destruct (Bool.eqb sx sy); reflexivity).
  apply normalize_nn. cbn [cond_Zopp]. lia.
Qed.
Lemma add_np x y : nnb (SFopp x) = true -> nnb (SFopp y) = true -> nnb (SFopp (SFadd prec emax x y)) = true.
Proof.
  intros Hx Hy. destruct x as [sx|[]| |[] mx ex], y as [sy|[]| |[] my ey]; try easy; try (cbn; destruct (Bool.eqb sx sy); reflexivity).
  apply normalize_np. cbn [cond_Zopp]. lia.
Qed.
Lemma mul_nn x y : nnb x = true -> nnb y = true -> nnb (SFmul prec emax x y) = true.
Proof. intros Hx Hy. destruct x as [sx|[]| |[] mx ex], y as [sy|[]| |[] my ey]; try easy. apply sign_nn, round_aux_sign. Qed.
Lemma div_nn x y : nnb x = true -> posb y = true -> nnb (SFdiv prec emax x y) = true.
Proof.
  intros Hx Hy. destruct x as [sx|[]| |[] mx ex], y as [sy|[]| |[] my ey]; try easy. cbn. destruct (SFdiv_core_binary _ _ _ _ _ _) as [[mz ez] lz].
  apply sign_nn, round_aux_sign.
Qed.
Lemma div_np x y : nnb (SFopp x) = true -> posb y = true -> nnb (SFopp (SFdiv prec emax x y)) = true.
Proof.
  intros Hx Hy. destruct x as [sx|[]| |[] mx ex], y as [sy|[]| |[] my ey]; try easy. cbn. destruct (SFdiv_core_binary _ _ _ _ _ _) as [[mz ez] lz].
  apply sign_np, round_aux_sign.
Qed.
Lemma sqrt_nn x : nnb (SFsqrt prec emax x) = true.
Proof. destruct x as [sx|[]| |[] mx ex]; try easy. cbn. destruct (SFsqrt_core_binary _ _ _ _) as [[mz ez] lz]. apply sign_nn, round_aux_sign. Qed.

(** ** The results are numbers of the format *)
Context (Hprec : Prec_gt_0 prec) (Hemax : Prec_lt_emax prec emax).
Notation valid x := (SpecFloat.valid_binary prec emax x = true).
Lemma valid_add x y : valid x -> valid y -> valid (SFadd prec emax x y).
Proof. intros Hx Hy. destruct (lift prec emax x Hx) as [a <-], (lift prec emax y Hy) as [b <-]. rewrite (add_equiv prec emax Hprec Hemax). apply valid_binary_B2SF. Qed.
Lemma valid_sub x y : valid x -> valid y -> valid (SFsub prec emax x y).
Proof. intros Hx Hy. destruct (lift prec emax x Hx) as [a <-], (lift prec emax y Hy) as [b <-]. rewrite (sub_equiv prec emax Hprec Hemax). apply valid_binary_B2SF. Qed.
Lemma valid_mul x y : valid x -> valid y -> valid (SFmul prec emax x y).
Proof. intros Hx Hy. destruct (lift prec emax x Hx) as [a <-], (lift prec emax y Hy) as [b <-]. rewrite (mul_equiv prec emax Hprec Hemax). apply valid_binary_B2SF. Qed.
Lemma valid_div x y : valid x -> valid y -> valid (SFdiv prec emax x y).
Proof. intros Hx Hy. destruct (lift prec emax x Hx) as [a <-], (lift prec emax y Hy) as [b <-]. rewrite (div_equiv prec emax Hprec Hemax). apply valid_binary_B2SF. Qed.
Lemma valid_sqrt x : valid x -> valid (SFsqrt prec emax x).
Proof. intros Hx. destruct (lift prec emax x Hx) as [a <-]. rewrite (sqrt_equiv prec emax Hprec Hemax). apply valid_binary_B2SF. Qed.
Lemma valid_normalize m e z : valid (SpecFloat.binary_normalize prec emax m e z).
Proof. rewrite (normalize_equiv prec emax Hprec Hemax). apply valid_binary_B2SF. Qed.
Lemma valid_opp x : valid x -> valid (SFopp x).
Proof. now destruct x. Qed.
Lemma valid_abs x : valid x -> valid (SFabs x).
Proof. now destruct x. Qed.

(** ** Adding and taking away something not negative *)
Lemma fin_or x : valid x -> sfin prec emax x \/ x = S754_nan \/ exists s, x = S754_infinity s.
Proof. intros H. destruct x as [s|s| |s m e]; [left; now split|right; right; now exists s|right; now left|left; now split]. Qed.
Lemma nn_val x : nnb x = true -> (0 <= sval x)%R.
Proof. destruct x as [s|s| |[] m e]; try easy; intros _; try (cbn; lra). apply (F2R_ge_0 radix2 (Float radix2 (Z.pos m) e)). discriminate. Qed.
Lemma add_above m x : valid m -> valid x -> nnb x = true -> SFltb (SFadd prec emax m x) m = false.
Proof.
  intros Vm Vx Nx. destruct (fin_or m Vm) as [Fm|[->|[s ->]]], (fin_or x Vx) as [Fx|[->|[s' ->]]]; try reflexivity.
  2: destruct m; reflexivity.
  2: destruct s'; [easy|]; destruct m as [a|a| |a b c]; try (destruct Fm as [_ Fm]; discriminate); cbn; try reflexivity; now destruct a.
  2: destruct x as [a|a| |a b c]; try (destruct Fx as [_ Fx]; discriminate); now destruct s.
  2: destruct s'; [easy|]; now destruct s.
  assert (P := nn_val x Nx). assert (G := format_val prec emax m Fm).
  destruct (sf_add prec emax Hprec Hemax m x Fm Fx) as [(R1 & S1 & S2)|(R1 & S1 & S2)].
  - rewrite (sf_lt prec emax) by assumption. apply Rlt_bool_false. rewrite S2. rewrite <- (rnd_id prec emax _ G) at 1.
    apply (rnd_le prec emax Hprec). lra.
  - rewrite S1. destruct (neg_bit m) eqn:B; [|destruct m as [|[]| |[]]; reflexivity]. exfalso. apply R1.
    assert (Z : sval x = 0%R) by (destruct x as [?|?| |[] ? ?]; try discriminate; reflexivity).
    rewrite Z, Rplus_0_r. unfold in_range. rewrite (rnd_id prec emax _ G). exact (val_lt_emax prec emax m Fm).
Qed.
Lemma sub_below m x : valid m -> valid x -> nnb x = true -> SFltb m (SFsub prec emax m x) = false.
Proof.
  intros Vm Vx Nx. destruct (fin_or m Vm) as [Fm|[->|[s ->]]], (fin_or x Vx) as [Fx|[->|[s' ->]]]; try reflexivity.
  2: destruct m; reflexivity.
  2: destruct s'; [easy|]; destruct m as [a|a| |a b c]; try (destruct Fm as [_ Fm]; discriminate); cbn; try reflexivity; now destruct a.
  2: destruct x as [a|a| |a b c]; try (destruct Fx as [_ Fx]; discriminate); now destruct s.
  2: destruct s'; [easy|]; now destruct s.
  assert (P := nn_val x Nx). assert (G := format_val prec emax m Fm).
  destruct (sf_sub prec emax Hprec Hemax m x Fm Fx) as [(R1 & S1 & S2)|(R1 & S1 & S2)].
  - rewrite (sf_lt prec emax) by assumption. apply Rlt_bool_false. rewrite S2. rewrite <- (rnd_id prec emax _ G) at 2.
    apply (rnd_le prec emax Hprec). lra.
  - rewrite S1. destruct (neg_bit m) eqn:B; [destruct m as [|[]| |[]]; reflexivity|]. exfalso. apply R1.
    assert (Z : sval x = 0%R) by (destruct x as [?|?| |[] ? ?]; try discriminate; reflexivity).
    rewrite Z, Rminus_0_r. unfold in_range. rewrite (rnd_id prec emax _ G). exact (val_lt_emax prec emax m Fm).
Qed.
End Format.
