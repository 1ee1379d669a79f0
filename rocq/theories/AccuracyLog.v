(** * AccuracyLog: there is a float32 logarithm as accurate as C60 asks of the one the code calls. *)
From Coq Require Import Reals Lra Lia List ZArith Bool.
From Coq Require Import Floats.SpecFloat.
From Verif Require Import Num B32 ER Rounding RoundFacts RoundIeee Accuracy AccuracyMain.
Import ListNotations.
Local Open Scope R_scope.

(** The logarithm rounded to a multiple of 2^-16. *)
Definition grid_log (x : spec_float) : spec_float :=
  @fdiv (B32 (fun x => x)) (@f_of_Z (B32 (fun x => x)) (up (ln (b32_value x) * 65536))) (@f_of_Z (B32 (fun x => x)) 65536).
Theorem grid_log_within : @log_within (B32 grid_log) b32_finite b32_value (/ 2 ^ 15) (/ 2 ^ 100) (2 ^ 100).
Proof.
  intros x Fx Hx. assert (A := b32_accurate (fun x => x)). change (@flog (B32 grid_log) x) with (grid_log x). unfold grid_log.
  assert (P : 0 < / 2 ^ 100) by (apply Rinv_0_lt_compat, pow_lt; lra). set (l := ln (b32_value x)).
  assert (LB : Rabs l <= 100).
  { assert (L2 : 0 < ln 2 <= 1) by (split; [rewrite <- ln_1; apply ln_increasing; lra|assert (B := ln_below 2 ltac:(lra)); lra]).
    assert (LP : ln (2 ^ 100) <= 100).
    { rewrite ln_pow, INR_IZR_INZ by lra. apply (Rle_trans _ (IZR (Z.of_nat 100) * 1)); [apply Rmult_le_compat_l; [apply IZR_le; lia|lra]|]. cbn. lra. }
    assert (M : forall a b, 0 < a -> a <= b -> ln a <= ln b) by (intros a b H [K|<-]; [left; now apply ln_increasing|lra]).
    assert (M1 := M (b32_value x) (2 ^ 100) ltac:(lra) ltac:(lra)). assert (M2 := M (/ 2 ^ 100) (b32_value x) P ltac:(lra)).
    rewrite ln_Rinv in M2 by (apply pow_lt; lra). unfold l. apply Rabs_le. lra. }
  assert (LB' : -100 <= l <= 100) by (clear - LB; unfold Rabs in LB; destruct (Rcase_abs l); lra).
  destruct (archimed (l * 65536)) as [U1 U2]. set (m := up (l * 65536)) in *.
  assert (Hm : (Z.abs m <= 2 ^ 24)%Z).
  { apply Z.abs_le. split; apply le_IZR; [change (IZR (- 2 ^ 24)) with (-16777216)|change (IZR (2 ^ 24)) with 16777216]; lra. }
  destruct (a_of_Z _ _ _ A m Hm) as [F1 V1]. destruct (a_of_Z _ _ _ A 65536 ltac:(cbn; lia)) as [F2 V2].
  assert (Q : Rabs (IZR m / 65536) <= 101) by (apply Rabs_le; lra). assert (BG := big_split). assert (C := two100). assert (U := ulp_val). assert (T := tiny_ulp).
  destruct (a_div _ _ _ A _ _ F1 F2) as [F3 E3]; [rewrite V2; lra|rewrite V1, V2, BG; lra|]. rewrite V1, V2 in E3. split; [exact F3|].
  assert (D : Rabs (IZR m / 65536 - l) <= / 65536) by (apply Rabs_le; lra).
  eapply Rle_trans; [exact (abs_via _ _ _ _ _ E3 D)|]. assert (half_ulp * Rabs (IZR m / 65536) <= half_ulp * 101) by (apply Rmult_le_compat_l; [rewrite U; lra|lra]).
  assert (half_ulp * 101 <= 1 / 160000) by (rewrite U; lra). assert (tiny <= 1 / 1000000) by (rewrite U in T; lra). lra.
Qed.
