(** * Ieee: the operations of [SpecFloat] round exact results (through Flocq's formalisation of IEEE 754).
    Nothing here models code of /repo. *)
From Coq Require Import ZArith Reals Lra Lia Bool.
From Coq Require Import Floats.SpecFloat.
From Flocq Require Import Core Relative Plus_error BinarySingleNaN.
Local Open Scope R_scope.

Section Ieee.
Variables prec emax : Z.
Context (Hprec : Prec_gt_0 prec) (Hemax : Prec_lt_emax prec emax).
Notation fexp := (SpecFloat.fexp prec emax).
Notation rnd := (round radix2 fexp ZnearestE).
Notation binary := (BinarySingleNaN.binary_float prec emax).
(** A finite number of the format; its value. *)
Definition sfin (x : spec_float) : Prop := SpecFloat.valid_binary prec emax x = true /\ is_finite_SF x = true.
Definition sval (x : spec_float) : R := SF2R radix2 x.

Lemma rne_equiv s m l : SpecFloat.round_nearest_even m l = choice_mode mode_NE s m l.
Proof. destruct l as [|c]; [reflexivity|]. destruct c; try reflexivity. cbn. unfold Round.cond_incr. now destruct (Z.even m). Qed.
Lemma round_aux_equiv sx mx ex lx :
  SpecFloat.binary_round_aux prec emax sx mx ex lx = BinarySingleNaN.binary_round_aux prec emax mode_NE sx mx ex lx.
Proof.
  unfold SpecFloat.binary_round_aux, BinarySingleNaN.binary_round_aux.
  set (mrse' := shr_fexp _ _ _ _ _). case mrse'; intros mrs' e'; simpl. now rewrite (rne_equiv sx).
Qed.
Lemma round_equiv s m e : SpecFloat.binary_round prec emax s m e = BinarySingleNaN.binary_round prec emax mode_NE s m e.
Proof.
  unfold SpecFloat.binary_round, BinarySingleNaN.binary_round, shl_align_fexp.
  set (mez := SpecFloat.shl_align _ _ _). case mez as [mz ez]. apply round_aux_equiv.
Qed.
Lemma normalize_equiv m e z :
  SpecFloat.binary_normalize prec emax m e z = B2SF (BinarySingleNaN.binary_normalize prec emax Hprec Hemax mode_NE m e z).
Proof. destruct m as [|p|p]; simpl; [reflexivity|rewrite B2SF_SF2B; apply round_equiv..]. Qed.
Lemma add_equiv (x y : binary) : SFadd prec emax (B2SF x) (B2SF y) = B2SF (Bplus mode_NE x y).
Proof.
  destruct x as [sx|sx| |sx mx ex Bx], y as [sy|sy| |sy my ey By]; try (now (trivial || (simpl; case Bool.eqb))).
  apply normalize_equiv.
Qed.
Lemma sub_equiv (x y : binary) : SFsub prec emax (B2SF x) (B2SF y) = B2SF (Bminus mode_NE x y).
Proof.
  destruct x as [sx|sx| |sx mx ex Bx], y as [sy|sy| |sy my ey By]; try (now (trivial || (simpl; case Bool.eqb))).
  simpl. unfold Zminus. rewrite <- cond_Zopp_negb. apply normalize_equiv.
Qed.
Lemma mul_equiv (x y : binary) : SFmul prec emax (B2SF x) (B2SF y) = B2SF (Bmult mode_NE x y).
Proof.
  destruct x as [sx|sx| |sx mx ex Bx], y as [sy|sy| |sy my ey By]; try reflexivity.
  simpl. rewrite B2SF_SF2B. apply round_aux_equiv.
Qed.
Lemma div_equiv (x y : binary) : SFdiv prec emax (B2SF x) (B2SF y) = B2SF (Bdiv mode_NE x y).
Proof.
  destruct x as [sx|sx| |sx mx ex Bx], y as [sy|sy| |sy my ey By]; try reflexivity.
  simpl. rewrite B2SF_SF2B. set (melz := SFdiv_core_binary _ _ _ _ _ _). case melz as [[mz ez] lz]. apply round_aux_equiv.
Qed.
Lemma sqrt_equiv (x : binary) : SFsqrt prec emax (B2SF x) = B2SF (Bsqrt mode_NE x).
Proof.
  destruct x as [sx|sx| |sx mx ex Bx]; try (now (trivial || case sx)). destruct sx; [reflexivity|].
  simpl. rewrite B2SF_SF2B. set (melz := SFsqrt_core_binary _ _ _ _). case melz as [[mz ez] lz]. apply round_aux_equiv.
Qed.

(** Every float of the format. *)
Lemma lift x : SpecFloat.valid_binary prec emax x = true -> exists b : binary, B2SF b = x.
Proof. intros V. exists (SF2B x V). apply B2SF_SF2B. Qed.
Lemma lift_fin x : sfin x -> exists b : binary, B2SF b = x /\ BinarySingleNaN.is_finite b = true /\ B2R b = sval x.
Proof.
  intros [V Fx]. destruct (lift x V) as [b <-]. exists b. split; [reflexivity|]. split; [now rewrite <- is_finite_SF_B2SF|].
  symmetry. apply SF2R_B2SF.
Qed.
Lemma drop_fin (b : binary) : BinarySingleNaN.is_finite b = true -> sfin (B2SF b) /\ sval (B2SF b) = B2R b.
Proof. intros H. split; [split; [apply valid_binary_B2SF|now rewrite is_finite_SF_B2SF]|apply SF2R_B2SF]. Qed.
Definition neg_bit (x : spec_float) : bool := sign_SF x.
Lemma neg_bit_lift (b : binary) : Bsign b = neg_bit (B2SF b).
Proof. now destruct b. Qed.

Definition in_range (r : R) : Prop := Rabs (rnd r) < bpow radix2 emax.
(** Correctly rounded, or an infinity of the right sign. *)
Lemma sf_add x y : sfin x -> sfin y ->
  (in_range (sval x + sval y) /\ sfin (SFadd prec emax x y) /\ sval (SFadd prec emax x y) = rnd (sval x + sval y)) \/
  (~ in_range (sval x + sval y) /\ SFadd prec emax x y = S754_infinity (neg_bit x) /\ neg_bit x = neg_bit y).
Proof.
  intros Hx Hy. destruct (lift_fin x Hx) as (a & <- & Fa & <-), (lift_fin y Hy) as (b & <- & Fb & <-).
  generalize (Bplus_correct prec emax Hprec Hemax mode_NE a b Fa Fb). rewrite add_equiv, <- !neg_bit_lift. unfold in_range. cbn [round_mode].
  case Rlt_bool_spec; intros L.
  - intros (E & Fi & _). left. split; [exact L|]. destruct (drop_fin _ Fi) as [S1 S2]. split; [exact S1|]. now rewrite S2.
  - intros (E & Sg). right. split; [apply Rle_not_lt, L|]. split; [exact E|exact Sg].
Qed.
Lemma sf_sub x y : sfin x -> sfin y ->
  (in_range (sval x - sval y) /\ sfin (SFsub prec emax x y) /\ sval (SFsub prec emax x y) = rnd (sval x - sval y)) \/
  (~ in_range (sval x - sval y) /\ SFsub prec emax x y = S754_infinity (neg_bit x) /\ neg_bit x = negb (neg_bit y)).
Proof.
  intros Hx Hy. destruct (lift_fin x Hx) as (a & <- & Fa & <-), (lift_fin y Hy) as (b & <- & Fb & <-).
  generalize (Bminus_correct prec emax Hprec Hemax mode_NE a b Fa Fb). rewrite sub_equiv, <- !neg_bit_lift. unfold in_range. cbn [round_mode].
  case Rlt_bool_spec; intros L.
  - intros (E & Fi & _). left. split; [exact L|]. destruct (drop_fin _ Fi) as [S1 S2]. split; [exact S1|]. now rewrite S2.
  - intros (E & Sg). right. split; [apply Rle_not_lt, L|]. split; [exact E|exact Sg].
Qed.
Lemma sf_mul x y : sfin x -> sfin y ->
  (in_range (sval x * sval y) /\ sfin (SFmul prec emax x y) /\ sval (SFmul prec emax x y) = rnd (sval x * sval y)) \/
  (~ in_range (sval x * sval y) /\ SFmul prec emax x y = S754_infinity (xorb (neg_bit x) (neg_bit y))).
Proof.
  intros Hx Hy. destruct (lift_fin x Hx) as (a & <- & Fa & <-), (lift_fin y Hy) as (b & <- & Fb & <-).
  generalize (Bmult_correct prec emax Hprec Hemax mode_NE a b). rewrite mul_equiv, <- !neg_bit_lift. unfold in_range. cbn [round_mode].
  case Rlt_bool_spec; intros L.
  - intros (E & Fi & _). rewrite Fa, Fb in Fi. left. split; [exact L|]. destruct (drop_fin _ Fi) as [S1 S2]. split; [exact S1|]. now rewrite S2.
  - intros E. right. split; [apply Rle_not_lt, L|exact E].
Qed.
Lemma sf_div x y : sfin x -> sfin y -> sval y <> 0 ->
  (in_range (sval x / sval y) /\ sfin (SFdiv prec emax x y) /\ sval (SFdiv prec emax x y) = rnd (sval x / sval y)) \/
  (~ in_range (sval x / sval y) /\ SFdiv prec emax x y = S754_infinity (xorb (neg_bit x) (neg_bit y))).
Proof.
  intros Hx Hy. destruct (lift_fin x Hx) as (a & <- & Fa & <-), (lift_fin y Hy) as (b & <- & Fb & <-). intros NZ.
  generalize (Bdiv_correct prec emax Hprec Hemax mode_NE a b NZ). rewrite div_equiv, <- !neg_bit_lift. unfold in_range. cbn [round_mode].
  case Rlt_bool_spec; intros L.
  - intros (E & Fi & _). rewrite Fa in Fi. left. split; [exact L|]. destruct (drop_fin _ Fi) as [S1 S2]. split; [exact S1|]. now rewrite S2.
  - intros E. right. split; [apply Rle_not_lt, L|exact E].
Qed.
Lemma sf_sqrt x : sfin x -> 0 <= sval x -> sfin (SFsqrt prec emax x) /\ sval (SFsqrt prec emax x) = rnd (sqrt (sval x)).
Proof.
  intros Hx. destruct (lift_fin x Hx) as (a & <- & Fa & <-). intros P.
  destruct (Bsqrt_correct prec emax Hprec Hemax mode_NE a) as (E & Fi & _). rewrite sqrt_equiv. cbn [round_mode] in E.
  assert (Fi' : BinarySingleNaN.is_finite (Bsqrt mode_NE a) = true).
  { rewrite Fi. destruct a as [s|s| |s m e B]; try easy. destruct s; [|reflexivity]. exfalso.
    cbn in P. apply (Rlt_not_le _ _ (F2R_lt_0 radix2 (Float radix2 (Z.neg m) e) eq_refl) P). }
  destruct (drop_fin _ Fi') as [S1 S2]. split; [exact S1|]. now rewrite S2.
Qed.
Lemma sf_normalize m e z : 
  let r := F2R (Float radix2 m e) in
  (in_range r /\ sfin (SpecFloat.binary_normalize prec emax m e z) /\ sval (SpecFloat.binary_normalize prec emax m e z) = rnd r) \/
  (~ in_range r /\ SpecFloat.binary_normalize prec emax m e z = S754_infinity (Rlt_bool r 0)).
Proof.
  cbv zeta. generalize (binary_normalize_correct prec emax Hprec Hemax mode_NE m e z). rewrite normalize_equiv. unfold in_range. cbn [round_mode].
  case Rlt_bool_spec; intros L.
  - intros (E & Fi & _). left. split; [exact L|]. destruct (drop_fin _ Fi) as [S1 S2]. split; [exact S1|]. now rewrite S2.
  - intros E. right. split; [apply Rle_not_lt, L|exact E].
Qed.
Lemma format_val x : sfin x -> generic_format radix2 fexp (sval x).
Proof. intros H. destruct (lift_fin x H) as (a & <- & _ & <-). apply generic_format_B2R. Qed.
Lemma val_lt_emax x : sfin x -> Rabs (sval x) < bpow radix2 emax.
Proof. intros H. destruct (lift_fin x H) as (a & <- & _ & <-). apply abs_B2R_lt_emax. Qed.
(** Comparisons of finite numbers. *)
Lemma sf_lt x y : sfin x -> sfin y -> SFltb x y = Rlt_bool (sval x) (sval y).
Proof. intros Hx Hy. destruct (lift_fin x Hx) as (a & <- & Fa & <-), (lift_fin y Hy) as (b & <- & Fb & <-). apply (Bltb_correct prec emax); assumption. Qed.
Lemma sf_le x y : sfin x -> sfin y -> SFleb x y = Rle_bool (sval x) (sval y).
Proof. intros Hx Hy. destruct (lift_fin x Hx) as (a & <- & Fa & <-), (lift_fin y Hy) as (b & <- & Fb & <-). apply (Bleb_correct prec emax); assumption. Qed.
Lemma sf_eq x y : sfin x -> sfin y -> SFeqb x y = Req_bool (sval x) (sval y).
Proof. intros Hx Hy. destruct (lift_fin x Hx) as (a & <- & Fa & <-), (lift_fin y Hy) as (b & <- & Fb & <-). apply (Beqb_correct prec emax); assumption. Qed.

(** Rounding is monotone, and changes no number of the format. *)
Global Instance fexp_valid : Valid_exp fexp := FLT_exp_valid (SpecFloat.emin prec emax) prec.
Lemma rnd_le a b : a <= b -> rnd a <= rnd b.
Proof. intros H. apply round_le; [typeclasses eauto..|exact H]. Qed.
Lemma rnd_id a : generic_format radix2 fexp a -> rnd a = a.
Proof. intros H. apply round_generic; [typeclasses eauto|exact H]. Qed.
(** Error of rounding. *)
Lemma rnd_error a : Rabs (rnd a - a) <= bpow radix2 (- prec) * Rabs a + bpow radix2 (SpecFloat.emin prec emax - 1).
Proof.
  destruct (error_N_FLT radix2 (SpecFloat.emin prec emax) prec Hprec (fun x => negb (Z.even x)) a) as (eps & eta & He & Ht & _ & E).
  replace (rnd a - a) with (a * eps + eta).
  - eapply Rle_trans; [apply Rabs_triang|]. apply Rplus_le_compat.
    + rewrite Rabs_mult, Rmult_comm. apply Rmult_le_compat_r; [apply Rabs_pos|]. eapply Rle_trans; [exact He|].
      rewrite bpow_plus. change (bpow radix2 1) with 2. lra.
    + eapply Rle_trans; [exact Ht|]. unfold Z.sub. rewrite bpow_plus. change (bpow radix2 (- (1))) with (/2). lra.
  - change (rnd a) with (round radix2 (FLT_exp (SpecFloat.emin prec emax) prec) (Znearest (fun x => negb (Z.even x))) a).
    rewrite E. ring.
Qed.
(** Sums of two numbers of the format never underflow. *)
Lemma rnd_add_error a b : generic_format radix2 fexp a -> generic_format radix2 fexp b ->
  Rabs (rnd (a + b) - (a + b)) <= bpow radix2 (- prec) * Rabs (a + b).
Proof.
  intros Ha Hb. destruct (FLT_plus_error_N_ex radix2 (SpecFloat.emin prec emax) prec (fun x => negb (Z.even x)) a b Ha Hb) as (eps & He & E).
  replace (rnd (a + b) - (a + b)) with ((a + b) * eps).
  - rewrite Rabs_mult, Rmult_comm. apply Rmult_le_compat_r; [apply Rabs_pos|]. eapply Rle_trans; [exact He|].
    unfold u_ro. rewrite bpow_plus. change (bpow radix2 1) with 2. assert (P := bpow_gt_0 radix2 (- prec)).
    set (v := bpow radix2 (- prec)) in *. replace (/ 2 * (v * 2)) with v by field.
    apply (Rmult_le_reg_r (1 + v)); [lra|]. unfold Rdiv. rewrite Rmult_assoc, Rinv_l by lra. nra.
  - change (rnd (a + b)) with (round radix2 (FLT_exp (SpecFloat.emin prec emax) prec) (Znearest (fun x => negb (Z.even x))) (a + b)).
    rewrite E. ring.
Qed.
Lemma format_opp a : generic_format radix2 fexp a -> generic_format radix2 fexp (- a).
Proof. apply generic_format_opp. Qed.
(** In range when not beyond the largest power of two. *)
Lemma small_in_range r : Rabs r <= bpow radix2 (emax - 1) -> in_range r.
Proof.
  intros H. unfold in_range. apply (Rle_lt_trans _ (bpow radix2 (emax - 1))); [|apply bpow_lt; lia].
  assert (G : generic_format radix2 fexp (bpow radix2 (emax - 1))).
  { apply generic_format_bpow. unfold SpecFloat.fexp, SpecFloat.emin. unfold Prec_lt_emax in Hemax. unfold Prec_gt_0 in Hprec. lia. }
  apply Rabs_le. apply Rabs_le_inv in H. split.
  - rewrite <- (rnd_id _ (format_opp _ G)). apply rnd_le. apply H.
  - rewrite <- (rnd_id _ G). apply rnd_le. apply H.
Qed.
(** Integers of at most [prec] bits. *)
Lemma format_int z : (Z.abs z <= 2 ^ prec)%Z -> (0 < emax)%Z -> (prec + 1 < emax)%Z -> generic_format radix2 fexp (IZR z).
Proof.
  intros H He He2. unfold Prec_gt_0 in Hprec.
  destruct (Z.eq_dec (Z.abs z) (2 ^ prec)) as [E|E].
  - assert (G : generic_format radix2 fexp (bpow radix2 prec)).
    { apply generic_format_bpow. unfold SpecFloat.fexp, SpecFloat.emin. lia. }
    rewrite <- IZR_Zpower in G by lia. cbn [radix_val radix2] in G. rewrite <- E in G.
    destruct (Z.abs_spec z) as [[_ A]|[_ A]]; rewrite A in G; [exact G|]. rewrite opp_IZR in G. apply format_opp in G. now rewrite Ropp_involutive in G.
  - replace (IZR z) with (F2R (Float radix2 z 0)) by (unfold F2R; cbn; ring).
    apply generic_format_FLT. exists (Float radix2 z 0); [reflexivity|cbn; change (Z.pow_pos 2) with (fun p => Z.pow 2 (Z.pos p)); lia|].
    cbn. unfold SpecFloat.emin. lia.
Qed.
End Ieee.
