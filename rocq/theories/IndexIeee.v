(** * IndexIeee: float32 and exact arithmetic meet [indexed] (C60). *)
From Coq Require Import Reals Lra Lia List ZArith Bool.
From Coq Require Import Floats.SpecFloat.
From Flocq Require Import Core BinarySingleNaN.
From Verif Require Import Num Formulas B32 ER RealFacts RealMarket Rounding Ieee RoundIeee RoundFacts Accuracy AccuracyIeee AccuracyMain Index.
Import ListNotations.
Local Open Scope R_scope.

Lemma rnd_up a : 0 <= a -> 0 <= rnd32 a.
Proof. intros H. rewrite <- (round_0 radix2 (SpecFloat.fexp prec32 emax32) ZnearestE). apply (rnd_le prec32 emax32 Hp32). exact H. Qed.
Lemma rnd_down a : a <= 0 -> rnd32 a <= 0.
Proof. intros H. rewrite <- (round_0 radix2 (SpecFloat.fexp prec32 emax32) ZnearestE). apply (rnd_le prec32 emax32 Hp32). exact H. Qed.
Lemma rnd_large k a : (2 <= k <= 100)%nat -> 2 ^ k <= a -> 2 ^ (k - 1) <= rnd32 a.
Proof.
  intros Hk H. assert (E := rnd_error prec32 emax32 Hp32 a). rewrite ulp32, tiny32 in E. assert (U := ulp_val). assert (T := tiny_ulp).
  destruct k as [|k]; [lia|]. replace (S k - 1)%nat with k by lia. change (2 ^ S k) with (2 * 2 ^ k) in H. assert (1 <= 2 ^ k) by (apply pow_R1_Rle; lra).
  rewrite (Rabs_right a) in E by lra. assert (half_ulp * a <= 1 / 10 * a) by (apply Rmult_le_compat_r; lra).
  unfold Rabs in E. destruct (Rcase_abs _); lra.
Qed.
Lemma f32_zero x : b32_finite x -> b32_value x = 0 -> exists s, x = S754_zero s.
Proof.
  intros [_ Fx] E. destruct x as [s|s| |s m e]; try discriminate; [now exists s|]. exfalso. unfold b32_value in E. cbn in E.
  apply (eq_0_F2R radix2) in E. now destruct s.
Qed.
Lemma f32_pos x : b32_finite x -> 0 < b32_value x -> exists m e, x = S754_finite false m e.
Proof.
  intros [_ Fx] E. destruct x as [s|s| |[] m e]; try discriminate; [cbn in E; lra| |now exists m, e]. exfalso.
  unfold b32_value in E. cbn [SF2R] in E. assert (Q := F2R_lt_0 radix2 (Float radix2 (cond_Zopp true (Z.pos m)) e) ltac:(cbn; lia)). lra.
Qed.
Notation one32 := (b32_of_Z 1).
Notation cent32 := (b32_of_Z 100).
Lemma div_inf s : SFdiv prec32 emax32 cent32 (SFadd prec32 emax32 one32 (S754_infinity s)) = S754_zero s.
Proof. destruct s; reflexivity. Qed.
Lemma zero_small s : b32_finite (S754_zero s) /\ Rabs (b32_value (S754_zero s)) <= half_ulp.
Proof. split; [now split|]. unfold b32_value. cbn. rewrite Rabs_R0. assert (U := ulp_pos). lra. Qed.
Lemma over32 x y : b32_finite x -> b32_finite y -> 0 < b32_value x -> 0 <= b32_value y -> 2 ^ 100 * b32_value y <= b32_value x ->
  let t := SFdiv prec32 emax32 cent32 (SFadd prec32 emax32 one32 (SFdiv prec32 emax32 x y)) in b32_finite t /\ Rabs (b32_value t) <= half_ulp.
Proof.
  intros Fx Fy Px Py H t. destruct (a_of_Z _ _ _ (b32_accurate (fun x => x)) 1 ltac:(cbn; lia)) as [F1 V1]. destruct (a_of_Z _ _ _ (b32_accurate (fun x => x)) 100 ltac:(cbn; lia)) as [F2 V2].
  change (@f_of_Z (B32 (fun x => x))) with b32_of_Z in *.
  destruct (Req_dec (b32_value y) 0) as [Z|Z].
  - destruct (f32_zero y Fy Z) as [s ->]. destruct (f32_pos x Fx Px) as (m & e & ->). subst t.
    assert (Q : SFdiv prec32 emax32 (S754_finite false m e) (S754_zero s) = S754_infinity s) by now destruct s. rewrite Q, div_inf. apply zero_small.
  - destruct (sf_div prec32 emax32 Hp32 He32 x y Fx Fy Z) as [(_ & Fq & Vq)|(_ & Q)]; [|subst t; rewrite Q, div_inf; apply zero_small].
    fold (b32_finite (SFdiv prec32 emax32 x y)) in Fq. unfold sval in Vq. fold (b32_value (SFdiv prec32 emax32 x y)) (b32_value x) (b32_value y) in Vq.
    set (q := SFdiv prec32 emax32 x y) in *.
    assert (Q1 : 2 ^ 99 <= b32_value q) by (rewrite Vq; apply (rnd_large 100); [lia|]; apply quotient_ge; lra).
    destruct (sf_add prec32 emax32 Hp32 He32 one32 q F1 Fq) as [(_ & Fs & Vs)|(_ & Q & _)].
    2:{ subst t. rewrite Q. destruct (neg_bit one32); [exact (zero_small true)|exact (zero_small false)]. }
    fold (b32_finite (SFadd prec32 emax32 one32 q)) in Fs. unfold sval in Vs. fold (b32_value (SFadd prec32 emax32 one32 q)) (b32_value one32) (b32_value q) in Vs.
    rewrite V1 in Vs. set (s := SFadd prec32 emax32 one32 q) in *.
    assert (Q2 : 2 ^ 98 <= b32_value s) by (rewrite Vs; apply (rnd_large 99); [lia|lra]).
    assert (C : 2 ^ 98 = 2 ^ 24 * 2 ^ 74) by (rewrite <- pow_add; reflexivity). assert (C2 : 2 ^ 10 <= 2 ^ 74) by (apply Rle_pow; [lra|lia]).
    assert (U := ulp_val). assert (U0 := ulp_pos). assert (T := tiny_ulp). assert (T0 := tiny_pos).
    assert (R1 : 100 / b32_value s <= half_ulp / 10).
    { apply quotient_le; [lra|]. apply (Rle_trans _ (half_ulp / 10 * 2 ^ 98)); [|apply Rmult_le_compat_l; lra].
      rewrite C. unfold half_ulp. replace (/ 2 ^ 24 / 10 * (2 ^ 24 * 2 ^ 74)) with (2 ^ 74 / 10) by (field; lra). lra. }
    assert (R0 : 0 <= 100 / b32_value s) by (apply Rle_mult_inv_pos; lra).
    destruct (b32_div cent32 s F2 Fs) as [Ft Et]; [lra|rewrite V2, Rabs_right by lra; unfold big; assert (1 <= 2 ^ 127) by (apply pow_R1_Rle; lra); lra|].
    split; [exact Ft|]. rewrite V2, (Rabs_right (100 / _)) in Et by lra. fold t in Et. assert (Q := abs_sub_le _ _ _ Et). rewrite (Rabs_right (100 / _)) in Q by lra.
    destruct tiny_small as [T1 _]. assert (half_ulp * (100 / b32_value s) <= half_ulp * (1 / 10)) by (apply Rmult_le_compat_l; lra). lra.
Qed.
Theorem b32_indexed log32 : indexed (B32 log32) b32_finite b32_value.
Proof.
  split.
  - intros x [V Fx]. change (@fneg (B32 log32) x) with (SFopp x). destruct x as [s|s| |s m e]; try discriminate; split.
    + now split.
    + unfold b32_value. cbn. ring.
    + now split.
    + unfold b32_value. cbn [SFopp SF2R]. rewrite <- F2R_Zopp. f_equal. f_equal. now destruct s.
  - intros x y Fx Fy Px Py Fq. change (@fmul (B32 log32) x y) with (SFmul prec32 emax32 x y) in *.
    destruct (sf_mul prec32 emax32 Hp32 He32 x y Fx Fy) as [(_ & _ & V)|(_ & Q)]; [|rewrite Q in Fq; destruct Fq; discriminate].
    unfold b32_value. unfold sval in V. rewrite V. apply rnd_up. apply Rmult_le_pos; assumption.
  - intros x y Fx Fy Px Py Fq. change (@fdiv (B32 log32) x y) with (SFdiv prec32 emax32 x y) in *.
    destruct (sf_div prec32 emax32 Hp32 He32 x y Fx Fy) as [(_ & _ & V)|(_ & Q)]; [change (b32_value y <> 0); lra| |rewrite Q in Fq; destruct Fq; discriminate].
    unfold b32_value. unfold sval in V. rewrite V. apply rnd_up. apply Rle_mult_inv_pos; assumption.
  - intros x y Fx Fy Px Py Fq. change (@fdiv (B32 log32) x y) with (SFdiv prec32 emax32 x y) in *.
    destruct (sf_div prec32 emax32 Hp32 He32 x y Fx Fy) as [(_ & _ & V)|(_ & Q)]; [change (b32_value y <> 0); lra| |rewrite Q in Fq; destruct Fq; discriminate].
    unfold b32_value. unfold sval in V. rewrite V. apply rnd_down. fold (b32_value x) (b32_value y).
    assert (0 <= - b32_value x / b32_value y) by (apply Rle_mult_inv_pos; lra). unfold Rdiv in *. lra.
  - exact over32.
Qed.
Theorem er_indexed : indexed ER er_finite er_value.
Proof.
  assert (U0 := ulp_pos). split.
  - intros [x| | |] Hx; try easy.
  - intros [x| | |] [y| | |] Hx Hy; try easy. intros P Q _. cbn in *. now apply Rmult_le_pos.
  - intros [x| | |] [y| | |] Hx Hy; try easy. cbn [er_value]. intros P Q _. change (@fdiv ER) with e_div. rewrite e_div_fin by lra. now apply Rle_mult_inv_pos.
  - intros [x| | |] [y| | |] Hx Hy; try easy. cbn [er_value]. intros P Q _. change (@fdiv ER) with e_div. rewrite e_div_fin by lra. cbn.
    assert (0 <= - x / y) by (apply Rle_mult_inv_pos; lra). unfold Rdiv in *. lra.
  - intros [x| | |] [y| | |] Hx Hy; try easy. cbn [er_value]. intros P Q H. change (@fdiv ER) with e_div. change (@fadd ER) with e_add. cbn [f_of_Z ER].
    destruct (Req_dec y 0) as [->|Z].
    + unfold e_div at 2 4. destruct (Req_EM_T 0 0); [|lra]. unfold inf_of. destruct (Rlt_dec 0 x); [|lra]. cbn. rewrite Rabs_R0. split; [easy|lra].
    + rewrite e_div_fin by exact Z. cbn [e_add]. assert (2 ^ 100 <= x / y) by (apply quotient_ge; lra).
      assert (C : 2 ^ 100 = 2 ^ 24 * 2 ^ 76) by (rewrite <- pow_add; reflexivity). assert (C2 : 2 ^ 10 <= 2 ^ 76) by (apply Rle_pow; [lra|lia]).
      assert (C3 : 1 <= 2 ^ 100) by (apply pow_R1_Rle; lra).
      rewrite e_div_fin by lra. cbn [er_value er_finite]. split; [easy|].
      assert (0 <= 100 / (1 + x / y)) by (apply Rle_mult_inv_pos; lra). rewrite Rabs_right by lra. apply quotient_le; [lra|].
      apply (Rle_trans _ (half_ulp * 2 ^ 100)); [|apply Rmult_le_compat_l; lra].
      rewrite C. unfold half_ulp. rewrite <- Rmult_assoc, Rinv_l by (apply pow_nonzero; lra). lra.
Qed.
