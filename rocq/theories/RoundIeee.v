(** * RoundIeee: float32 and exact arithmetic are accurate (C55). *)
From Coq Require Import Reals Lra Lia List ZArith Bool.
From Coq Require Import Floats.SpecFloat.
From Flocq Require Import Core BinarySingleNaN.
From Verif Require Import Num Formulas B32 ER Rounding Ieee.
Import ListNotations.
Local Open Scope R_scope.


Definition Hp32 : Prec_gt_0 prec32 := eq_refl.
Definition He32 : Prec_lt_emax prec32 emax32 := eq_refl.
Definition Hp64 : Prec_gt_0 prec64 := eq_refl.
Definition He64 : Prec_lt_emax prec64 emax64 := eq_refl.
Notation rnd32 := (round radix2 (SpecFloat.fexp prec32 emax32) ZnearestE).
Notation rnd64 := (round radix2 (SpecFloat.fexp prec64 emax64) ZnearestE).

Lemma bpow_pos k : bpow radix2 (Z.of_nat k) = 2 ^ k.
Proof. rewrite <- IZR_Zpower by lia. rewrite <- (pow_IZR 2). reflexivity. Qed.
Lemma bpow_neg k : bpow radix2 (- Z.of_nat k) = / 2 ^ k.
Proof. rewrite bpow_opp. now rewrite bpow_pos. Qed.
Lemma ulp32 : bpow radix2 (- prec32) = half_ulp.
Proof. exact (bpow_neg 24). Qed.
Lemma tiny32 : bpow radix2 (SpecFloat.emin prec32 emax32 - 1) = tiny.
Proof. exact (bpow_neg 150). Qed.
Lemma big32 : bpow radix2 (emax32 - 1) = big.
Proof. exact (bpow_pos 127). Qed.
Lemma in32 r : Rabs r <= big -> in_range prec32 emax32 r.
Proof. intros H. apply (small_in_range prec32 emax32 Hp32 He32). now rewrite big32. Qed.

Lemma b32_add x y : b32_finite x -> b32_finite y -> Rabs (b32_value x + b32_value y) <= big ->
  b32_finite (SFadd prec32 emax32 x y) /\
  Rabs (b32_value (SFadd prec32 emax32 x y) - (b32_value x + b32_value y)) <= half_ulp * Rabs (b32_value x + b32_value y).
Proof.
  intros Hx Hy B. destruct (sf_add prec32 emax32 Hp32 He32 x y Hx Hy) as [(_ & S1 & S2)|(S1 & _)]; [|destruct (S1 (in32 _ B))].
  split; [exact S1|]. unfold b32_value. unfold sval in S2. rewrite S2. rewrite <- ulp32.
  apply (rnd_add_error prec32 emax32 Hp32); apply (format_val prec32 emax32); assumption.
Qed.
Lemma b32_sub x y : b32_finite x -> b32_finite y -> Rabs (b32_value x - b32_value y) <= big ->
  b32_finite (SFsub prec32 emax32 x y) /\
  Rabs (b32_value (SFsub prec32 emax32 x y) - (b32_value x - b32_value y)) <= half_ulp * Rabs (b32_value x - b32_value y).
Proof.
  intros Hx Hy B. destruct (sf_sub prec32 emax32 Hp32 He32 x y Hx Hy) as [(_ & S1 & S2)|(S1 & _)]; [|destruct (S1 (in32 _ B))].
  split; [exact S1|]. unfold b32_value. unfold sval in S2. rewrite S2. rewrite <- ulp32. unfold Rminus at 2 3 4.
  apply (rnd_add_error prec32 emax32 Hp32); [|apply format_opp]; apply (format_val prec32 emax32); assumption.
Qed.
Lemma b32_mul x y : b32_finite x -> b32_finite y -> Rabs (b32_value x * b32_value y) <= big ->
  b32_finite (SFmul prec32 emax32 x y) /\
  Rabs (b32_value (SFmul prec32 emax32 x y) - b32_value x * b32_value y) <= half_ulp * Rabs (b32_value x * b32_value y) + tiny.
Proof.
  intros Hx Hy B. destruct (sf_mul prec32 emax32 Hp32 He32 x y Hx Hy) as [(_ & S1 & S2)|(S1 & _)]; [|destruct (S1 (in32 _ B))].
  split; [exact S1|]. unfold b32_value. unfold sval in S2. rewrite S2. rewrite <- ulp32, <- tiny32.
  apply (rnd_error prec32 emax32 Hp32).
Qed.
Lemma b32_div x y : b32_finite x -> b32_finite y -> b32_value y <> 0 -> Rabs (b32_value x / b32_value y) <= big ->
  b32_finite (SFdiv prec32 emax32 x y) /\
  Rabs (b32_value (SFdiv prec32 emax32 x y) - b32_value x / b32_value y) <= half_ulp * Rabs (b32_value x / b32_value y) + tiny.
Proof.
  intros Hx Hy NZ B. destruct (sf_div prec32 emax32 Hp32 He32 x y Hx Hy NZ) as [(_ & S1 & S2)|(S1 & _)]; [|destruct (S1 (in32 _ B))].
  split; [exact S1|]. unfold b32_value. unfold sval in S2. rewrite S2. rewrite <- ulp32, <- tiny32.
  apply (rnd_error prec32 emax32 Hp32).
Qed.
(** Integers. *)
Lemma F2R_0 z : F2R (Float radix2 z 0) = IZR z.
Proof. unfold F2R. cbn. ring. Qed.
Lemma b32_int z : (Z.abs z <= 2 ^ 24)%Z -> b32_finite (b32_of_Z z) /\ b32_value (b32_of_Z z) = IZR z.
Proof.
  intros H. destruct (sf_normalize prec32 emax32 Hp32 He32 z 0 false) as [(_ & S1 & S2)|(S1 & _)].
  - split; [exact S1|]. unfold b32_value. unfold sval in S2. unfold b32_of_Z. rewrite S2, F2R_0. apply (rnd_id prec32 emax32 ).
    apply (format_int prec32 emax32 Hp32); [exact H|reflexivity|reflexivity].
  - destruct S1. rewrite F2R_0. apply in32. rewrite <- abs_IZR. rewrite <- big32. 
    change (bpow radix2 (emax32 - 1)) with (IZR (2 ^ 127)). apply IZR_le. eapply Z.le_trans; [exact H|]. now vm_compute.
Qed.
Lemma b64_int z : (Z.abs z <= 2 ^ 53)%Z -> sfin prec64 emax64 (b64_of_Z z) /\ sval (b64_of_Z z) = IZR z.
Proof.
  intros H. destruct (sf_normalize prec64 emax64 Hp64 He64 z 0 false) as [(_ & S1 & S2)|(S1 & _)].
  - split; [exact S1|]. unfold b64_of_Z. rewrite S2, F2R_0. apply (rnd_id prec64 emax64).
    apply (format_int prec64 emax64 Hp64); [exact H|reflexivity|reflexivity].
  - destruct S1. rewrite F2R_0. apply (small_in_range prec64 emax64 Hp64 He64). rewrite <- abs_IZR.
    apply (Rle_trans _ (bpow radix2 53)).
    + change (bpow radix2 53) with (IZR (2 ^ 53)). now apply IZR_le.
    + apply bpow_le. now vm_compute.
Qed.
(** A Python float as a float32. *)
Lemma b32_of_double x : sfin prec64 emax64 x -> Rabs (sval x) <= big ->
  b32_finite (b32_of_b64 x) /\ Rabs (b32_value (b32_of_b64 x) - sval x) <= half_ulp * Rabs (sval x) + tiny.
Proof.
  intros [V Fx] B. assert (U : 0 <= half_ulp) by (unfold half_ulp; lra). assert (T : 0 <= tiny) by (unfold tiny; apply Rlt_le, Rinv_0_lt_compat, pow_lt; lra).
  destruct x as [s|s| |s m e]; try discriminate.
  - cbn. split; [now destruct s|]. unfold b32_value, sval. cbn. rewrite Rminus_eq_0, Rabs_R0. lra.
  - cbn [b32_of_b64]. unfold sval in B. cbn [SF2R] in B. change (sval (S754_finite s m e)) with (F2R (Float radix2 (cond_Zopp s (Z.pos m)) e)).
    destruct (sf_normalize prec32 emax32 Hp32 He32 (cond_Zopp s (Z.pos m)) e s) as [(_ & S1 & S2)|(S1 & _)].
    + split; [exact S1|]. unfold b32_value. unfold sval in S2. rewrite S2, <- ulp32, <- tiny32. apply (rnd_error prec32 emax32 Hp32).
    + destruct S1. apply in32. exact B.
Qed.
(** Sums from left to right. *)
Lemma sum_step u T X acc AA : 0 <= u -> 0 <= T -> forall q, 1 <= q -> Rabs (acc - AA) <= (q - 1) * T -> Rabs AA <= T ->
  forall r, Rabs (r - (acc + X)) <= u * Rabs (acc + X) -> Rabs (r - (AA + X)) <= ((1 + u) * q - 1) * (T + Rabs X).
Proof.
  intros U HT q Hq H HA r Hr. assert (PX := Rabs_pos X).
  assert (S : Rabs (acc + X - (AA + X)) <= (q - 1) * T) by (replace (acc + X - (AA + X)) with (acc - AA) by ring; exact H).
  assert (S2 : Rabs (acc + X) <= q * T + Rabs X).
  { replace (acc + X) with ((acc - AA) + (AA + X)) by ring. eapply Rle_trans; [apply Rabs_triang|]. assert (Z := Rabs_triang AA X). lra. }
  replace (r - (AA + X)) with ((r - (acc + X)) + (acc + X - (AA + X))) by ring. eapply Rle_trans; [apply Rabs_triang|].
  assert (u * Rabs (acc + X) <= u * (q * T + Rabs X)) by (apply Rmult_le_compat_l; lra).
  assert (0 <= u * Rabs X * (q - 1)) by (apply Rmult_le_pos; [apply Rmult_le_pos; lra|lra]).
  assert (0 <= Rabs X * (q - 1)) by (apply Rmult_le_pos; lra). lra.
Qed.
Lemma b32_sum_from l : forall acc AA T k, Forall b32_finite l -> b32_finite acc -> 0 <= T ->
  Rabs (b32_value acc - AA) <= ((1 + half_ulp) ^ k - 1) * T -> Rabs AA <= T ->
  let total := T + fold_right Rplus 0 (map (fun x => Rabs (b32_value x)) l) in
  (1 + half_ulp) ^ (k + length l) * total <= big ->
  b32_finite (fold_left (SFadd prec32 emax32) l acc) /\
  Rabs (b32_value (fold_left (SFadd prec32 emax32) l acc) - (AA + fold_right Rplus 0 (map b32_value l))) <=
    ((1 + half_ulp) ^ (k + length l) - 1) * total.
Proof.
  assert (U : 0 <= half_ulp) by (unfold half_ulp; lra).
  induction l as [|x l IH]; intros acc AA T k Fl Fa HT H HA; cbn zeta; cbn [fold_left map fold_right length].
  - rewrite Nat.add_0_r, !Rplus_0_r. intros _. now split.
  - inversion Fl as [|? ? Fx Fl']; subst. intros B. assert (PX := Rabs_pos (b32_value x)).
    set (rest := fold_right Rplus 0 (map (fun x => Rabs (b32_value x)) l)) in *.
    assert (R0 : 0 <= rest).
    { unfold rest. clear. induction l as [|y l IH]; cbn; [lra|]. assert (P := Rabs_pos (b32_value y)). lra. }
    set (q := (1 + half_ulp) ^ k) in *. assert (Q1 : 1 <= q) by (apply pow_R1_Rle; lra).
    assert (Qn : q <= (1 + half_ulp) ^ (k + S (length l))) by (apply Rle_pow; [lra|lia]).
    assert (S2 : Rabs (b32_value acc + b32_value x) <= q * T + Rabs (b32_value x)).
    { replace (b32_value acc + b32_value x) with ((b32_value acc - AA) + (AA + b32_value x)) by ring. eapply Rle_trans; [apply Rabs_triang|].
      assert (Z := Rabs_triang AA (b32_value x)). lra. }
    destruct (b32_add acc x Fa Fx) as [F1 F2].
    { eapply Rle_trans; [exact S2|]. eapply Rle_trans; [|exact B]. apply (Rle_trans _ (q * (T + (Rabs (b32_value x) + rest)))); [nra|].
      apply Rmult_le_compat_r; lra. }
    assert (E := sum_step half_ulp T (b32_value x) (b32_value acc) AA U HT q Q1 H HA _ F2).
    destruct (IH (SFadd prec32 emax32 acc x) (AA + b32_value x) (T + Rabs (b32_value x)) (S k) Fl' F1) as [G1 G2]; try exact E; try lra.
    + eapply Rle_trans; [apply Rabs_triang|]. lra.
    + cbn zeta. fold rest. replace (S k + length l)%nat with (k + S (length l))%nat by lia. rewrite Rplus_assoc. exact B.
    + split; [exact G1|]. cbn zeta in G2. fold rest in G2. replace (S k + length l)%nat with (k + S (length l))%nat in G2 by lia.
      rewrite !Rplus_assoc in G2. exact G2.
Qed.
(** Coefficients of the exponential average. *)
Lemma b64_round r : Rabs (rnd64 r - r) <= half_ulp / 2 ^ 29 * Rabs r + tiny / 2 ^ 900.
Proof.
  eapply Rle_trans; [apply (rnd_error prec64 emax64 Hp64)|]. apply Rplus_le_compat.
  - apply Rmult_le_compat_r; [apply Rabs_pos|]. right. change (bpow radix2 (- prec64)) with (bpow radix2 (- Z.of_nat 53)). rewrite bpow_neg.
    unfold half_ulp. lra.
  - change (SpecFloat.emin prec64 emax64 - 1)%Z with (- Z.of_nat 1075)%Z. rewrite bpow_neg. unfold tiny, Rdiv. rewrite <- Rinv_mult, <- pow_add.
    apply Rinv_le_contravar; [apply pow_lt; lra|]. apply Rle_pow; [lra|lia].
Qed.
Lemma in64 r : Rabs r <= 2 ^ 30 -> in_range prec64 emax64 r.
Proof.
  intros H. apply (small_in_range prec64 emax64 Hp64 He64). eapply Rle_trans; [exact H|]. rewrite <- bpow_pos. apply bpow_le. now vm_compute.
Qed.
Lemma tiny_small : 0 < tiny <= half_ulp / 1073741824 /\ 0 < tiny / 2 ^ 900 <= tiny.
Proof.
  assert (T : 0 < tiny) by (unfold tiny; apply Rinv_0_lt_compat, pow_lt; lra).
  assert (P : 1 <= 2 ^ 900) by (apply pow_R1_Rle; lra). split; split; try assumption.
  - unfold tiny, half_ulp. replace (/ 2 ^ 24 / 1073741824) with (/ 2 ^ 54) by lra. apply Rinv_le_contravar; [apply pow_lt; lra|]. apply Rle_pow; [lra|lia].
  - apply Rdiv_lt_0_compat; lra.
  - unfold Rdiv. rewrite <- (Rmult_1_r tiny) at 2. apply Rmult_le_compat_l; [lra|]. rewrite <- Rinv_1. apply Rinv_le_contravar; lra.
Qed.
Section Factor.
Variables (log32 : spec_float -> spec_float) (p : nat).
Hypotheses (Hp : (1 <= p)%nat) (Hp20 : (Z.of_nat p <= 2 ^ 20)%Z).
Let k := 2 / (INR p + 1).
Lemma pb : 1 <= INR p <= 1048576.
Proof. split; [apply (le_INR 1); exact Hp|]. rewrite INR_IZR_INZ. apply (IZR_le _ (2 ^ 20)). exact Hp20. Qed.
Lemma kb : / 1048576 <= k <= 1 /\ k * (INR p + 1) = 2.
Proof.
  assert (B := pb). assert (E : k * (INR p + 1) = 2) by (unfold k; field; lra). split; [|exact E]. split.
  - apply (Rmult_le_reg_r (INR p + 1)); [lra|]. rewrite E. lra.
  - apply (Rmult_le_reg_r (INR p + 1)); [lra|]. lra.
Qed.
Lemma factor64 : sfin prec64 emax64 (@ema_factor (B32 log32) p) /\ sval (@ema_factor (B32 log32) p) = rnd64 k.
Proof.
  assert (B := pb). destruct kb as [K1 K2]. unfold ema_factor. cbn [ddiv dadd d_of_Z B32 D].
  destruct (b64_int 2) as [F2 V2]; [now vm_compute|]. destruct (b64_int 1) as [F1 V1]; [now vm_compute|].
  destruct (b64_int (Z.of_nat p)) as [Fp Vp]; [rewrite Z.abs_eq by lia; eapply Z.le_trans; [exact Hp20|now vm_compute]|].
  rewrite <- INR_IZR_INZ in Vp.
  assert (Vs : sfin prec64 emax64 (SFadd prec64 emax64 (b64_of_Z (Z.of_nat p)) (b64_of_Z 1)) /\
               sval (SFadd prec64 emax64 (b64_of_Z (Z.of_nat p)) (b64_of_Z 1)) = INR p + 1).
  { destruct (sf_add prec64 emax64 Hp64 He64 _ _ Fp F1) as [(_ & S1 & S2)|(S1 & _)].
    - split; [exact S1|]. rewrite S2, Vp, V1. apply (rnd_id prec64 emax64). rewrite INR_IZR_INZ, <- plus_IZR. apply (format_int prec64 emax64 Hp64); [|reflexivity|reflexivity].
      rewrite Z.abs_eq by lia. apply (Z.le_trans _ (2 ^ 20 + 1)); [lia|now vm_compute].
    - destruct S1. apply in64. rewrite Vp, V1, Rabs_right by lra. lra. }
  destruct Vs as [Fs Vs].
  destruct (sf_div prec64 emax64 Hp64 He64 _ _ F2 Fs) as [(_ & S1 & S2)|(S1 & _)]; [rewrite Vs; lra| |].
  - split; [exact S1|]. rewrite S2, V2, Vs. reflexivity.
  - destruct S1. apply in64. rewrite V2, Vs. fold k. rewrite Rabs_right by lra. lra.
Qed.
Lemma factor64_error : Rabs (rnd64 k - k) <= k * (half_ulp / 1000).
Proof.
  destruct kb as [K1 K2]. destruct tiny_small as [T1 T2]. assert (V : half_ulp = / 16777216) by (unfold half_ulp; lra). set (u := half_ulp) in *.
  eapply Rle_trans; [apply b64_round|]. rewrite (Rabs_right k) by lra. fold u.
  replace (u / 2 ^ 29) with (u / 536870912) by lra. 
  assert (T3 : tiny / 2 ^ 900 <= u / 1073741824) by lra. assert (T4 : u / 1073741824 <= k * u / 1024).
  { assert (u * / 1048576 <= u * k) by (apply Rmult_le_compat_l; lra). lra. }
  assert (0 <= k * u) by (apply Rmult_le_pos; lra). lra.
Qed.
Lemma factor32 : b32_finite (@f_of_D (B32 log32) (@ema_factor (B32 log32) p)) /\
  Rabs (b32_value (@f_of_D (B32 log32) (@ema_factor (B32 log32) p)) - k) <= 2 * half_ulp * k.
Proof.
  destruct kb as [K1 K2]. destruct tiny_small as [T1 T2]. assert (E := factor64_error). destruct factor64 as [F1 V1].
  assert (V : half_ulp = / 16777216) by (unfold half_ulp; lra).
  assert (A : Rabs (rnd64 k) <= k * (1 + half_ulp / 1000)).
  { replace (rnd64 k) with (k + (rnd64 k - k)) by ring. eapply Rle_trans; [apply Rabs_triang|]. rewrite (Rabs_right k) by lra. lra. }
  destruct (b32_of_double _ F1) as [G1 G2].
  { rewrite V1. apply (Rle_trans _ 2); [rewrite V in A; lra|]. unfold big. rewrite <- (pow_1 2) at 1. apply Rle_pow; [lra|lia]. }
  split; [exact G1|]. rewrite V1 in G2. set (u := half_ulp) in *.
  change (Rabs (b32_value (b32_of_b64 (@ema_factor (B32 log32) p)) - k) <= 2 * u * k).
  replace (b32_value (b32_of_b64 (@ema_factor (B32 log32) p)) - k) with
    ((b32_value (b32_of_b64 (@ema_factor (B32 log32) p)) - rnd64 k) + (rnd64 k - k)) by ring.
  eapply Rle_trans; [apply Rabs_triang|].
  assert (u * Rabs (rnd64 k) <= u * (k * (1 + u / 1000))) by (apply Rmult_le_compat_l; lra).
  assert (T4 : tiny <= k * u / 1024).
  { assert (u * / 1048576 <= u * k) by (apply Rmult_le_compat_l; lra). lra. }
  assert (0 <= k * u) by (apply Rmult_le_pos; lra). assert (u * (k * (1 + u / 1000)) <= k * u * (1 + 1 / 1000)) by (rewrite V; lra). lra.
Qed.
Lemma cofactor32 : b32_finite (@f_of_D (B32 log32) (dsub (d_of_Z 1) (@ema_factor (B32 log32) p))) /\
  Rabs (b32_value (@f_of_D (B32 log32) (dsub (d_of_Z 1) (@ema_factor (B32 log32) p))) - (1 - k)) <= 2 * half_ulp * (1 - k).
Proof.
  assert (V : half_ulp = / 16777216) by (unfold half_ulp; lra).
  destruct (Nat.eq_dec p 1) as [E1|E1].
  { assert (Ek : k = 1) by (unfold k; rewrite E1; cbn; lra). rewrite Ek, E1.
    assert (Z : @f_of_D (B32 log32) (dsub (d_of_Z 1) (@ema_factor (B32 log32) 1)) = S754_zero false) by now vm_compute.
    rewrite Z. split; [now split|]. unfold b32_value. cbn. rewrite Rminus_eq_0, Rminus_0_r, Rabs_R0. lra. }
  assert (P2 : 2 <= INR p) by (apply (le_INR 2); lia).
  destruct kb as [K1 K2]. destruct tiny_small as [T1 T2]. assert (E := factor64_error). destruct factor64 as [F1 V1].
  assert (K3 : k <= 2 / 3) by (apply (Rmult_le_reg_r (INR p + 1)); [lra|]; lra).
  set (k1 := rnd64 k) in *. set (f := @ema_factor (B32 log32) p) in *. set (c := 1 - k) in *. assert (c3 : / 3 <= c <= 1) by (unfold c; lra). set (u := half_ulp) in *.
  assert (D1 : Rabs (1 - k1 - c) <= u / 1000).
  { replace (1 - k1 - c) with (- (k1 - k)) by (unfold c; ring). rewrite Rabs_Ropp. eapply Rle_trans; [exact E|].
    rewrite <- (Rmult_1_l (u / 1000)) at 2. apply Rmult_le_compat_r; lra. }
  assert (D2 : Rabs (1 - k1) <= c + u / 1000).
  { replace (1 - k1) with (c + (1 - k1 - c)) by ring. eapply Rle_trans; [apply Rabs_triang|]. rewrite (Rabs_right c) by lra. lra. }
  destruct (b64_int 1) as [G1 W1]; [now vm_compute|].
  change (@dsub (B32 log32) (d_of_Z 1) f) with (SFsub prec64 emax64 (b64_of_Z 1) f).
  destruct (sf_sub prec64 emax64 Hp64 He64 _ f G1 F1) as [(_ & S1 & S2)|(S1 & _)];
    [|destruct S1; apply in64; rewrite W1, V1; eapply Rle_trans; [exact D2|]; rewrite V; lra].
  rewrite W1, V1 in S2. set (c1 := SFsub prec64 emax64 (b64_of_Z 1) f) in *.
  assert (D3 : Rabs (sval c1 - (1 - k1)) <= u / 1000).
  { rewrite S2. eapply Rle_trans; [apply b64_round|]. fold u.
    assert (u / 2 ^ 29 * Rabs (1 - k1) <= u / 536870912 * (1 + u / 1000)).
    { replace (u / 2 ^ 29) with (u / 536870912) by lra. apply Rmult_le_compat_l; lra. }
    assert (u / 536870912 * (1 + u / 1000) <= u / 10000) by (rewrite V; lra). lra. }
  assert (D4 : Rabs (sval c1 - c) <= u / 500).
  { replace (sval c1 - c) with ((sval c1 - (1 - k1)) + (1 - k1 - c)) by ring. eapply Rle_trans; [apply Rabs_triang|]. lra. }
  assert (D5 : Rabs (sval c1) <= c + u / 500).
  { replace (sval c1) with (c + (sval c1 - c)) by ring. eapply Rle_trans; [apply Rabs_triang|]. rewrite (Rabs_right c) by lra. lra. }
  destruct (b32_of_double c1 S1) as [G2 G3].
  { apply (Rle_trans _ 2); [rewrite V in D5; lra|]. unfold big. rewrite <- (pow_1 2) at 1. apply Rle_pow; [lra|lia]. }
  split; [exact G2|].
  change (Rabs (b32_value (b32_of_b64 c1) - c) <= 2 * u * c).
  replace (b32_value (b32_of_b64 c1) - c) with ((b32_value (b32_of_b64 c1) - sval c1) + (sval c1 - c)) by ring.
  eapply Rle_trans; [apply Rabs_triang|].
  fold u in G3. assert (u * Rabs (sval c1) <= u * (c + u / 500)) by (apply Rmult_le_compat_l; lra).
  assert (0 <= u * c) by (apply Rmult_le_pos; lra). assert (u * / 3 <= u * c) by (apply Rmult_le_compat_l; lra).
  assert (u * (u / 500) <= u / 1000) by (rewrite V; lra). lra.
Qed.
End Factor.

Theorem b32_accurate log32 : accurate (B32 log32) b32_finite b32_value.
Proof.
  split.
  - exact b32_int.
  - exact b32_add.
  - exact b32_sub.
  - exact b32_mul.
  - exact b32_div.
  - intros l Fl total B. destruct (b32_sum_from l (S754_zero false) 0 0 0 Fl) as [G1 G2].
    + now split.
    + lra.
    + unfold b32_value. cbn. rewrite Rminus_eq_0, Rabs_R0. lra.
    + rewrite Rabs_R0. lra.
    + cbn zeta. cbn [Nat.add]. rewrite Rplus_0_l. exact B.
    + split; [exact G1|]. cbn zeta in G2. cbn [Nat.add] in G2. rewrite !Rplus_0_l in G2. exact G2.
  - intros p H1 H2. exact (factor32 log32 p H1 H2).
  - intros p H1 H2. exact (cofactor32 log32 p H1 H2).
Qed.

(** ** Exact arithmetic *)
Lemma er_sum_from l : forall r, Forall er_finite l -> exists s, fold_left e_add l (Fin r) = Fin s /\ s = r + fold_right Rplus 0 (map er_value l).
Proof.
  induction l as [|x l IH]; intros r H; [exists r; split; [reflexivity|cbn; ring]|]. inversion H as [|? ? Hx Hl]; subst. destruct x as [v| | |]; try easy.
  cbn [fold_left]. destruct (IH (r + v) Hl) as (s & E & Es). exists s. split; [exact E|]. rewrite Es. cbn. ring.
Qed.
Lemma er_exact (x y : ext) r : Rabs (r - r) <= half_ulp * Rabs r /\ Rabs (r - r) <= half_ulp * Rabs r + tiny.
Proof.
  assert (U : 0 < half_ulp) by (unfold half_ulp; lra). destruct tiny_small as [T1 _]. assert (P := Rabs_pos r).
  rewrite Rminus_eq_0, Rabs_R0. assert (0 <= half_ulp * Rabs r) by (apply Rmult_le_pos; lra). lra.
Qed.
Theorem er_accurate : accurate ER er_finite er_value.
Proof.
  assert (U : 0 < half_ulp) by (unfold half_ulp; lra).
  split.
  - intros z _. split; [exact I|reflexivity].
  - intros [x| | |] [y| | |] Hx Hy _; try easy. split; [exact I|]. apply (er_exact (Fin x) (Fin y)).
  - intros [x| | |] [y| | |] Hx Hy _; try easy. split; [exact I|]. apply (er_exact (Fin x) (Fin y)).
  - intros [x| | |] [y| | |] Hx Hy _; try easy. split; [exact I|]. apply (er_exact (Fin x) (Fin y)).
  - intros [x| | |] [y| | |] Hx Hy NZ _; try easy. cbn [fdiv ER e_div er_value] in *. destruct (Req_EM_T y 0) as [E|E]; [contradiction|].
    split; [exact I|]. apply (er_exact (Fin x) (Fin y)).
  - intros l H. cbn zeta. intros _. destruct (er_sum_from l 0 H) as (s & E & Es). change (@fsum ER l) with (fold_left e_add l (Fin 0)). rewrite E. split; [exact I|].
    cbn [er_value]. rewrite Es, Rplus_0_l, Rminus_eq_0, Rabs_R0. apply Rmult_le_pos.
    + assert (1 <= (1 + half_ulp) ^ length l) by (apply pow_R1_Rle; lra). lra.
    + clear. induction l as [|y l IH]; [cbn; lra|]. exact (Rplus_le_le_0_compat _ _ (Rabs_pos (er_value y)) IH).
  - intros p H1 H2. cbn zeta. split; [exact I|]. unfold ema_factor. cbn [f_of_D ER ddiv dadd d_of_Z er_value]. rewrite <- INR_IZR_INZ, Rminus_eq_0, Rabs_R0.
    destruct (kb p H1 H2) as [K _]. cbv zeta in K. set (k := 2 / (INR p + 1)) in *. assert (0 < / 1048576) by lra. apply Rmult_le_pos; lra.
  - intros p H1 H2. cbn zeta. split; [exact I|]. unfold ema_factor. cbn [f_of_D ER ddiv dadd dsub d_of_Z er_value]. rewrite <- INR_IZR_INZ, Rminus_eq_0, Rabs_R0.
    destruct (kb p H1 H2) as [K _]. cbv zeta in K. set (k := 2 / (INR p + 1)) in *. assert (0 < / 1048576) by lra. apply Rmult_le_pos; lra.
Qed.
