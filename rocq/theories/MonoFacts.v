(** * MonoFacts: the averages are monotone in float32 (C57). *)
From Coq Require Import Reals Lra Lia List ZArith Bool.
From Coq Require Import Floats.SpecFloat.
From Flocq Require Import Core BinarySingleNaN.
From Verif Require Import Num Series Formulas B32 Order Rounding Ieee RoundIeee SignFacts SignMain.
Import ListNotations.
Local Open Scope R_scope.

Notation fin32 := (sfin prec32 emax32).
Definition top : R := bpow radix2 emax32.
Arguments top : simpl never.
Notation add32 := (SFadd prec32 emax32).
Notation mul32 := (SFmul prec32 emax32).
Notation div32 := (SFdiv prec32 emax32).
(** Value, infinities being +-2^128. *)
Definition ev (x : spec_float) : R := match x with S754_infinity s => if s then - top else top | _ => sval x end.
Definition usable (x : spec_float) : Prop := v32 x /\ x <> S754_nan.
Definition clip (r : R) : R := Rmax (- top) (Rmin top r).
Lemma top_pos : 0 < top. Proof. apply bpow_gt_0. Qed.
Lemma val_top x : fin32 x -> Rabs (sval x) < top. Proof. apply (val_lt_emax prec32 emax32). Qed.
Lemma clip_mono a b : a <= b -> clip a <= clip b.
Proof. intros H. unfold clip. apply Rle_max_compat_l. unfold Rmin. destruct (Rle_dec top a), (Rle_dec top b); lra. Qed.
Lemma clip_bounds a : - top <= clip a <= top.
Proof. assert (P := top_pos). unfold clip, Rmax, Rmin. destruct (Rle_dec top a); destruct (Rle_dec (- top) _); lra. Qed.
Lemma clip_id a : Rabs a < top -> clip a = a.
Proof. intros H. apply Rabs_lt_inv in H. unfold clip, Rmax, Rmin. destruct (Rle_dec top a); destruct (Rle_dec (- top) _); lra. Qed.
Lemma clip_high a : top <= a -> clip a = top.
Proof. assert (P := top_pos). intros H. unfold clip, Rmax, Rmin. destruct (Rle_dec top a); destruct (Rle_dec (- top) _); lra. Qed.
Lemma clip_low a : a <= - top -> clip a = - top.
Proof. assert (P := top_pos). intros H. unfold clip, Rmax, Rmin. destruct (Rle_dec top a); destruct (Rle_dec (- top) _); lra. Qed.
Lemma ev_fin x : fin32 x -> ev x = sval x.
Proof. intros [_ H]. now destruct x. Qed.
Lemma fin_usable x : fin32 x -> usable x.
Proof. intros [V H]. split; [exact V|]. intros ->. discriminate. Qed.
Lemma usable_cases x : usable x -> fin32 x \/ exists s, x = S754_infinity s.
Proof. intros [V H]. destruct (fin_or prec32 emax32 x V) as [F|[->|I]]; [now left|easy|now right]. Qed.
Lemma ev_bounds x : usable x -> - top <= ev x <= top.
Proof.
  assert (P := top_pos). intros U. destruct (usable_cases x U) as [F|[[] ->]]; cbn; try lra.
  rewrite (ev_fin x F). assert (H := val_top x F). apply Rabs_lt_inv in H. lra.
Qed.
Lemma le_inf x s : fin32 x -> SFleb x (S754_infinity s) = negb s /\ SFleb (S754_infinity s) x = s.
Proof. intros [_ H]. destruct x as [[]|a| |[] m e], s; try discriminate; now split. Qed.
Lemma le_ev x y : usable x -> usable y -> (SFleb x y = true <-> ev x <= ev y).
Proof.
  intros Ux Uy. assert (P := top_pos).
  destruct (usable_cases x Ux) as [Fx|[sx ->]], (usable_cases y Uy) as [Fy|[sy ->]].
  - rewrite (sf_le prec32 emax32) by assumption. rewrite !ev_fin by assumption. destruct (Rle_bool_spec (sval x) (sval y)); split; try easy; lra.
  - assert (H := val_top x Fx). apply Rabs_lt_inv in H. rewrite (ev_fin x Fx). rewrite (proj1 (le_inf x sy Fx)).
    destruct sy; cbn [ev negb]; split; intros Z; try easy; lra.
  - assert (H := val_top y Fy). apply Rabs_lt_inv in H. rewrite (ev_fin y Fy). rewrite (proj2 (le_inf y sx Fy)).
    destruct sx; cbn [ev]; split; intros Z; try easy; lra.
  - destruct sx, sy; cbn [ev]; split; intros Z; try easy; lra.
Qed.

(** ** Rounded results, infinities included *)
Lemma out_of_range r : ~ in_range prec32 emax32 r -> (0 <= r -> clip (rnd32 r) = top) /\ (r <= 0 -> clip (rnd32 r) = - top).
Proof.
  intros H. unfold in_range in H. apply Rnot_lt_le in H. fold top in H.
  assert (I0 : rnd32 0 = 0) by (apply round_0; typeclasses eauto). split; intros S.
  - assert (Z := rnd_le prec32 emax32 Hp32 0 r S). rewrite I0 in Z. rewrite Rabs_pos_eq in H by exact Z. now apply clip_high.
  - assert (Z := rnd_le prec32 emax32 Hp32 r 0 S). rewrite I0 in Z. rewrite Rabs_left1 in H by exact Z. apply clip_low. lra.
Qed.
Lemma neg_val x : fin32 x -> if neg_bit x then sval x <= 0 else 0 <= sval x.
Proof.
  intros [_ H]. destruct x as [s|s| |[] m e]; try discriminate; unfold neg_bit; cbn.
  - destruct s; lra.
  - apply Rlt_le, (F2R_lt_0 radix2 (Float radix2 (Z.neg m) e)). reflexivity.
  - apply Rlt_le, (F2R_gt_0 radix2 (Float radix2 (Z.pos m) e)). reflexivity.
Qed.
Lemma in_clip r : in_range prec32 emax32 r -> clip (rnd32 r) = rnd32 r.
Proof. apply clip_id. Qed.
Lemma inf_usable s : usable (S754_infinity s). Proof. now split. Qed.
Lemma ev_add x y : fin32 x -> fin32 y -> usable (add32 x y) /\ ev (add32 x y) = clip (rnd32 (sval x + sval y)).
Proof.
  intros Fx Fy. destruct (sf_add prec32 emax32 Hp32 He32 x y Fx Fy) as [(R1 & S1 & S2)|(R1 & S1 & S2)].
  - split; [now apply fin_usable|]. now rewrite (ev_fin _ S1), in_clip.
  - rewrite S1. split; [apply inf_usable|]. assert (Nx := neg_val x Fx). assert (Ny := neg_val y Fy). rewrite <- S2 in Ny.
    destruct (out_of_range _ R1) as [O1 O2]. destruct (neg_bit x); cbn [ev]; symmetry; [apply O2|apply O1]; lra.
Qed.
Lemma ev_mul x c : fin32 x -> fin32 c -> nn c -> usable (mul32 x c) /\ ev (mul32 x c) = clip (rnd32 (sval x * sval c)).
Proof.
  intros Fx Fc Nc. assert (Pc := nn_val c Nc). destruct (sf_mul prec32 emax32 Hp32 He32 x c Fx Fc) as [(R1 & S1 & S2)|(R1 & S1)].
  - split; [now apply fin_usable|]. now rewrite (ev_fin _ S1), in_clip.
  - rewrite S1. split; [apply inf_usable|]. assert (Nx := neg_val x Fx). destruct (out_of_range _ R1) as [O1 O2].
    assert (C : neg_bit c = false).
    { destruct c as [s|s| |[] m e]; try easy; try (destruct Fc as [_ Fc]; discriminate Fc). destruct R1. unfold in_range.
      change (sval (S754_zero s)) with 0. rewrite Rmult_0_r. rewrite round_0 by typeclasses eauto. rewrite Rabs_R0. apply bpow_gt_0. }
    rewrite C, xorb_false_r. destruct (neg_bit x); cbn [ev]; symmetry; [apply O2|apply O1].
    + assert (0 <= (- sval x) * sval c) by (apply Rmult_le_pos; lra). lra.
    + now apply Rmult_le_pos.
Qed.
Lemma pos_val c : posb c = true -> fin32 c -> 0 < sval c.
Proof. intros P [_ F]. destruct c as [s|s| |[] m e]; try discriminate. apply (F2R_gt_0 radix2 (Float radix2 (Z.pos m) e)). reflexivity. Qed.
Lemma ev_div x c : fin32 x -> fin32 c -> posb c = true -> usable (div32 x c) /\ ev (div32 x c) = clip (rnd32 (sval x / sval c)).
Proof.
  intros Fx Fc Nc. assert (Pc := pos_val c Nc Fc). destruct (sf_div prec32 emax32 Hp32 He32 x c Fx Fc) as [(R1 & S1 & S2)|(R1 & S1)]; [lra| |].
  - split; [now apply fin_usable|]. now rewrite (ev_fin _ S1), in_clip.
  - rewrite S1. split; [apply inf_usable|]. assert (Nx := neg_val x Fx). destruct (out_of_range _ R1) as [O1 O2].
    assert (C : neg_bit c = false) by (clear -Nc; destruct c as [s|[]| |[] m e]; try discriminate Nc; reflexivity). assert (Ic : 0 < / sval c) by (now apply Rinv_0_lt_compat).
    rewrite C, xorb_false_r. destruct (neg_bit x); cbn [ev]; symmetry; [apply O2|apply O1].
    + assert (0 <= (- sval x) * / sval c) by (apply Rmult_le_pos; lra). unfold Rdiv. lra.
    + apply Rmult_le_pos; lra.
Qed.

(** ** Monotonicity *)
Definition below (x y : spec_float) : Prop := usable x /\ usable y /\ ev x <= ev y.
Lemma below_inf s s' : below (S754_infinity s) (S754_infinity s') -> (s = false -> s' = false).
Proof. assert (P := top_pos). intros (_ & _ & H) ->. destruct s'; [cbn in H; lra|reflexivity]. Qed.
Lemma fin_inf_high x s : fin32 x -> top <= ev x \/ (ev x <= - top) -> s = true -> False.
Proof. intros F H _. rewrite (ev_fin x F) in H. assert (Z := val_top x F). apply Rabs_lt_inv in Z. lra. Qed.
Lemma add_inf s y : fin32 y -> add32 (S754_infinity s) y = S754_infinity s.
Proof. intros [_ F]. now destruct y. Qed.
Lemma mul_inf s c : posb c = true -> mul32 (S754_infinity s) c = S754_infinity s.
Proof. intros H. destruct c as [a|[]| |[] m e]; try discriminate; cbn; now rewrite xorb_false_r. Qed.
Lemma div_inf s c : fin32 c -> posb c = true -> div32 (S754_infinity s) c = S754_infinity s.
Proof. intros [_ F] H. destruct c as [a|[]| |[] m e]; try discriminate; cbn; now rewrite xorb_false_r. Qed.
(* a function computed by rounding a monotone real function of the finite values, keeping infinities *)
Lemma mono_from (f : spec_float -> spec_float) (f' : spec_float -> spec_float) (g g' : R -> R) x x' :
  (forall x, fin32 x -> usable (f x) /\ ev (f x) = clip (rnd32 (g (sval x)))) ->
  (forall x, fin32 x -> usable (f' x) /\ ev (f' x) = clip (rnd32 (g' (sval x)))) ->
  (forall s, f (S754_infinity s) = S754_infinity s) -> (forall s, f' (S754_infinity s) = S754_infinity s) ->
  (forall a b, a <= b -> g a <= g' b) -> below x x' -> below (f x) (f' x').
Proof.
  intros Hf Hf' If If' M (Ux & Ux' & H). assert (P := top_pos).
  assert (A : usable (f x)) by (destruct (usable_cases x Ux) as [F|[s ->]]; [now apply Hf|rewrite If; apply inf_usable]).
  assert (A' : usable (f' x')) by (destruct (usable_cases x' Ux') as [F|[s ->]]; [now apply Hf'|rewrite If'; apply inf_usable]).
  split; [exact A|]. split; [exact A'|]. assert (B := ev_bounds _ A). assert (B' := ev_bounds _ A').
  destruct (usable_cases x Ux) as [F|[s ->]], (usable_cases x' Ux') as [F'|[s' ->]].
  - rewrite (proj2 (Hf x F)), (proj2 (Hf' x' F')). apply clip_mono, (rnd_le prec32 emax32 Hp32), M. now rewrite <- !ev_fin.
  - destruct s'; [|rewrite If'; cbn [ev]; lra]. exfalso. cbn [ev] in H. rewrite (ev_fin x F) in H. assert (Z := val_top x F). apply Rabs_lt_inv in Z. lra.
  - destruct s; [rewrite If; cbn [ev]; lra|]. exfalso. cbn [ev] in H. rewrite (ev_fin x' F') in H. assert (Z := val_top x' F'). apply Rabs_lt_inv in Z. lra.
  - rewrite If, If'. exact H.
Qed.
Lemma add_below x x' y y' : below x x' -> fin32 y -> fin32 y' -> sval y <= sval y' -> below (add32 x y) (add32 x' y').
Proof.
  intros H Fy Fy' L. apply (mono_from (fun x => add32 x y) (fun x => add32 x y') (fun a => a + sval y) (fun a => a + sval y')); try assumption.
  - intros z F. now apply ev_add.
  - intros z F. now apply ev_add.
  - intros s. now apply add_inf.
  - intros s. now apply add_inf.
  - intros a b K. lra.
Qed.
Lemma add_inf' s y : fin32 y -> add32 y (S754_infinity s) = S754_infinity s.
Proof. intros [_ F]. now destruct y. Qed.
Lemma add_below' x x' y y' : fin32 y -> fin32 y' -> sval y <= sval y' -> below x x' -> below (add32 y x) (add32 y' x').
Proof.
  intros Fy Fy' L H. apply (mono_from (fun x => add32 y x) (fun x => add32 y' x) (fun a => sval y + a) (fun a => sval y' + a)); try assumption.
  - intros z F. now apply ev_add.
  - intros z F. now apply ev_add.
  - intros s. now apply add_inf'.
  - intros s. now apply add_inf'.
  - intros a b K. lra.
Qed.
Lemma mul_below x x' c : below x x' -> fin32 c -> posb c = true -> below (mul32 x c) (mul32 x' c).
Proof.
  intros H Fc Pc. assert (V := pos_val c Pc Fc).
  apply (mono_from (fun x => mul32 x c) (fun x => mul32 x c) (fun a => a * sval c) (fun a => a * sval c)); try assumption.
  - intros z F. apply ev_mul; [exact F|exact Fc|now apply pos_nn].
  - intros z F. apply ev_mul; [exact F|exact Fc|now apply pos_nn].
  - intros s. now apply mul_inf.
  - intros s. now apply mul_inf.
  - intros a b K. apply Rmult_le_compat_r; lra.
Qed.
Lemma div_below x x' c : below x x' -> fin32 c -> posb c = true -> below (div32 x c) (div32 x' c).
Proof.
  intros H Fc Pc. assert (V := pos_val c Pc Fc). assert (W := Rinv_0_lt_compat _ V).
  apply (mono_from (fun x => div32 x c) (fun x => div32 x c) (fun a => a / sval c) (fun a => a / sval c)); try assumption.
  - intros z F. now apply ev_div.
  - intros z F. now apply ev_div.
  - intros s. now apply div_inf.
  - intros s. now apply div_inf.
  - intros a b K. apply Rmult_le_compat_r; lra.
Qed.

(** ** Sums and averages *)
Definition le32 (x y : spec_float) : Prop := fin32 x /\ fin32 y /\ sval x <= sval y.
Lemma le32_below x y : le32 x y -> below x y.
Proof. intros (Fx & Fy & L). split; [now apply fin_usable|]. split; [now apply fin_usable|]. now rewrite !ev_fin. Qed.
Lemma sum_below l l' : Forall2 le32 l l' -> forall a a', below a a' -> below (fold_left add32 l a) (fold_left add32 l' a').
Proof.
  induction 1 as [|x y l l' (Fx & Fy & L) _ IH]; intros a a' H; [exact H|]. cbn [fold_left]. apply IH. now apply add_below.
Qed.
Lemma Forall2_firstn {X Y} (P : X -> Y -> Prop) k l l' : Forall2 P l l' -> Forall2 P (firstn k l) (firstn k l').
Proof. intros H. revert k. induction H; intros [|k]; cbn; constructor; auto. Qed.
Lemma Forall2_length' {X Y} (P : X -> Y -> Prop) l l' : Forall2 P l l' -> length l = length l'.
Proof. induction 1; cbn; congruence. Qed.
Lemma zero_fin : fin32 (S754_zero false). Proof. now split. Qed.
Lemma zero_below : below (S754_zero false) (S754_zero false).
Proof. apply le32_below. split; [exact zero_fin|]. split; [exact zero_fin|lra]. Qed.
Lemma period_fin p : (1 <= p)%Z -> (p <= 2 ^ 20)%Z -> fin32 (b32_of_Z p) /\ posb (b32_of_Z p) = true /\ sval (b32_of_Z p) = IZR p.
Proof. intros H1 H2. destruct (b32_int p) as [F E]; [lia|]. split; [exact F|]. split; [now apply int_pos|exact E]. Qed.

Section Averages.
Variable log32 : spec_float -> spec_float.
Notation B := (B32 log32).
Notation sma := (@sma B). Notation ema := (@ema B). Notation rma := (@rma B).
Lemma sma_below p h h' : (1 <= p)%nat -> (Z.of_nat p <= 2 ^ 20)%Z -> Forall2 le32 h h' -> below (sma p h) (sma p h').
Proof.
  intros H1 H2 H. destruct (period_fin (Z.of_nat p)) as (F & P & _); [lia|exact H2|].
  unfold Formulas.sma. assert (E := Forall2_length' _ _ _ H). change (@Num.F B) with spec_float. rewrite E.
  destruct (length h' <? p)%nat; [exact zero_below|]. apply div_below; [|exact F|exact P].
  apply sum_below; [now apply Forall2_firstn|exact zero_below].
Qed.
(* multiplying by a number between 0 and 1 *)
Lemma mul_unit x c : fin32 x -> fin32 c -> 0 <= sval c <= 1 -> fin32 (mul32 x c) /\ sval (mul32 x c) = rnd32 (sval x * sval c).
Proof.
  intros Fx Fc Hc. destruct (sf_mul prec32 emax32 Hp32 He32 x c Fx Fc) as [(_ & S1 & S2)|(R1 & _)]; [now split|]. destruct R1.
  assert (V := val_top x Fx). assert (G := format_val prec32 emax32 x Fx). unfold in_range. fold top.
  apply Rabs_lt_inv in V. assert (G' := format_opp prec32 emax32 _ G).
  destruct (Rle_dec 0 (sval x)) as [S|S].
  - apply Rabs_lt. assert (L : 0 <= sval x * sval c <= sval x).
    { split; [apply Rmult_le_pos; lra|]. rewrite <- (Rmult_1_r (sval x)) at 2. apply Rmult_le_compat_l; lra. }
    assert (Z1 := rnd_le prec32 emax32 Hp32 _ _ (proj1 L)). assert (Z2 := rnd_le prec32 emax32 Hp32 _ _ (proj2 L)).
    rewrite (rnd_id prec32 emax32 _ G) in Z2. rewrite round_0 in Z1 by typeclasses eauto. lra.
  - apply Rabs_lt. assert (L : sval x <= sval x * sval c <= 0).
    { assert (0 <= - sval x * sval c) by (apply Rmult_le_pos; lra). assert (0 <= - sval x * (1 - sval c)) by (apply Rmult_le_pos; lra). lra. }
    assert (Z1 := rnd_le prec32 emax32 Hp32 _ _ (proj1 L)). assert (Z2 := rnd_le prec32 emax32 Hp32 _ _ (proj2 L)).
    rewrite (rnd_id prec32 emax32 _ G) in Z1. rewrite round_0 in Z2 by typeclasses eauto. lra.
Qed.
Lemma mul_unit_le x y c : le32 x y -> fin32 c -> 0 <= sval c <= 1 -> le32 (mul32 x c) (mul32 y c).
Proof.
  intros (Fx & Fy & L) Fc Hc. destruct (mul_unit x c Fx Fc Hc) as [A1 A2], (mul_unit y c Fy Fc Hc) as [B1 B2].
  split; [exact A1|]. split; [exact B1|]. rewrite A2, B2. apply (rnd_le prec32 emax32 Hp32). apply Rmult_le_compat_r; lra.
Qed.
Lemma add_zero x z : fin32 x -> fin32 z -> sval z = 0 -> fin32 (add32 x z) /\ sval (add32 x z) = sval x.
Proof.
  intros Fx Fz Z. assert (G := format_val prec32 emax32 x Fx). destruct (sf_add prec32 emax32 Hp32 He32 x z Fx Fz) as [(_ & S1 & S2)|(R1 & _)].
  - split; [exact S1|]. rewrite S2, Z, Rplus_0_r. now apply (rnd_id prec32 emax32).
  - destruct R1. unfold in_range. rewrite Z, Rplus_0_r, (rnd_id prec32 emax32) by exact G. now apply (val_lt_emax prec32 emax32).
Qed.
Lemma zero_add x z : fin32 x -> fin32 z -> sval z = 0 -> fin32 (add32 z x) /\ sval (add32 z x) = sval x.
Proof.
  intros Fx Fz Z. assert (G := format_val prec32 emax32 x Fx). destruct (sf_add prec32 emax32 Hp32 He32 z x Fz Fx) as [(_ & S1 & S2)|(R1 & _)].
  - split; [exact S1|]. rewrite S2, Z, Rplus_0_l. now apply (rnd_id prec32 emax32).
  - destruct R1. unfold in_range. rewrite Z, Rplus_0_l, (rnd_id prec32 emax32) by exact G. now apply (val_lt_emax prec32 emax32).
Qed.
Lemma div_one x c : fin32 x -> fin32 c -> sval c = 1 -> fin32 (div32 x c) /\ sval (div32 x c) = sval x.
Proof.
  intros Fx Fc C. assert (G := format_val prec32 emax32 x Fx).
  destruct (sf_div prec32 emax32 Hp32 He32 x c Fx Fc) as [(_ & S1 & S2)|(R1 & _)]; [lra| |].
  - split; [exact S1|]. rewrite S2, C. unfold Rdiv. rewrite Rinv_1, Rmult_1_r. now apply (rnd_id prec32 emax32).
  - destruct R1. unfold in_range. rewrite C. unfold Rdiv. rewrite Rinv_1, Rmult_1_r, (rnd_id prec32 emax32) by exact G. now apply (val_lt_emax prec32 emax32).
Qed.
Lemma sma_one x h : fin32 x -> fin32 (sma 1 (x :: h)) /\ sval (sma 1 (x :: h)) = sval x.
Proof.
  intros Fx. destruct (zero_add x (S754_zero false) Fx zero_fin eq_refl) as [A1 A2]. rewrite <- A2.
  destruct (period_fin 1) as (F & P & E); [lia|now vm_compute|]. exact (div_one _ _ A1 F E).
Qed.
Lemma one_factor : @f_of_D B (@ema_factor B 1) = b32_of_Z 1. Proof. vm_compute. reflexivity. Qed.
Lemma one_cofactor : @f_of_D B (@dsub B (@d_of_Z B 1) (@ema_factor B 1)) = S754_zero false. Proof. vm_compute. reflexivity. Qed.
Lemma ema_one h : forall x, Forall fin32 (x :: h) -> fin32 (ema 1 (x :: h)) /\ sval (ema 1 (x :: h)) = sval x.
Proof.
  induction h as [|y h IH]; intros x H; inversion H as [|? ? Fx H']; subst; [now apply sma_one|].
  destruct (IH y H') as [F _]. destruct (period_fin 1) as (F1 & P1 & E1); [lia|now vm_compute|].
  change (ema 1 (x :: y :: h)) with (add32 (mul32 x (@f_of_D B (@ema_factor B 1))) (mul32 (ema 1 (y :: h)) (@f_of_D B (@dsub B (@d_of_Z B 1) (@ema_factor B 1))))).
  rewrite one_factor, one_cofactor.
  destruct (mul_unit x (b32_of_Z 1) Fx F1) as [A1 A2]; [lra|].
  destruct (mul_unit (ema 1 (y :: h)) (S754_zero false) F zero_fin) as [B1 B2]; [unfold sval; cbn; lra|].
  change (sval (S754_zero false)) with 0 in B2. rewrite Rmult_0_r, round_0 in B2 by typeclasses eauto.
  rewrite E1, Rmult_1_r, rnd_id in A2 by (now apply (format_val prec32 emax32)).
  destruct (add_zero _ _ A1 B1 B2) as [C1 C2]. split; [exact C1|]. now rewrite C2.
Qed.
Lemma rma_one h : forall x, Forall fin32 (x :: h) -> fin32 (rma 1 (x :: h)) /\ sval (rma 1 (x :: h)) = sval x.
Proof.
  induction h as [|y h IH]; intros x H; inversion H as [|? ? Fx H']; subst; [now apply sma_one|].
  destruct (IH y H') as [F _]. destruct (period_fin 1) as (F1 & P1 & E1); [lia|now vm_compute|].
  change (rma 1 (x :: y :: h)) with (div32 (add32 (mul32 (rma 1 (y :: h)) (S754_zero false)) x) (b32_of_Z 1)).
  destruct (mul_unit (rma 1 (y :: h)) (S754_zero false) F zero_fin) as [B1 B2]; [unfold sval; cbn; lra|].
  change (sval (S754_zero false)) with 0 in B2. rewrite Rmult_0_r, round_0 in B2 by typeclasses eauto.
  destruct (zero_add _ _ Fx B1 B2) as [C1 C2]. rewrite <- C2. now apply div_one.
Qed.
Lemma le32_fins h h' : Forall2 le32 h h' -> Forall fin32 h /\ Forall fin32 h'.
Proof. induction 1 as [|x y l l' (Fx & Fy & L) _ [I1 I2]]; split; constructor; assumption. Qed.
Lemma factors p : (2 <= p)%nat -> (Z.of_nat p <= 2 ^ 20)%Z ->
  (fin32 (@f_of_D B (@ema_factor B p)) /\ 0 <= sval (@f_of_D B (@ema_factor B p)) <= 1) /\
  (fin32 (@f_of_D B (@dsub B (@d_of_Z B 1) (@ema_factor B p))) /\ posb (@f_of_D B (@dsub B (@d_of_Z B 1) (@ema_factor B p))) = true).
Proof.
  intros H1 H2. destruct (a_factor _ _ _ (b32_accurate log32) p) as [F1 E1]; [lia|exact H2|].
  destruct (a_cofactor _ _ _ (b32_accurate log32) p) as [F2 E2]; [lia|exact H2|].
  assert (I : 2 <= INR p) by (now apply (le_INR 2)).
  assert (K : 0 < 2 / (INR p + 1) <= 2 / 3).
  { split; [apply Rdiv_lt_0_compat; lra|]. apply (Rmult_le_reg_r (INR p + 1)); [lra|]. unfold Rdiv. rewrite Rmult_assoc, Rinv_l; lra. }
  assert (U : 0 <= 2 * half_ulp <= / 4). { unfold half_ulp. lra. } apply Rabs_le_inv in E1. apply Rabs_le_inv in E2.
  assert (2 * half_ulp * (2 / (INR p + 1)) <= / 4 * (2 / (INR p + 1))) by (apply Rmult_le_compat_r; lra).
  assert (2 * half_ulp * (1 - 2 / (INR p + 1)) <= / 4 * (1 - 2 / (INR p + 1))) by (apply Rmult_le_compat_r; lra).
  split; (split; [assumption|]).
  - unfold b32_value in E1. unfold sval. lra.
  - apply fin_pos; [exact F2|]. lra.
Qed.
Lemma ema_below p : (1 <= p)%nat -> (Z.of_nat p <= 2 ^ 20)%Z -> forall h h', Forall2 le32 h h' -> below (ema p h) (ema p h').
Proof.
  intros H1 H2 h h' H. destruct (Nat.eq_dec p 1) as [->|NE].
  - destruct (le32_fins _ _ H) as [I1 I2]. destruct H as [|x y h h' (_ & _ & L) _]; [exact zero_below|].
    destruct (ema_one h x I1) as [A1 A2], (ema_one h' y I2) as [B1 B2]. apply le32_below. split; [exact A1|]. split; [exact B1|]. now rewrite A2, B2.
  - destruct (factors p) as ((K1 & K2) & (C1 & C2)); [lia|exact H2|].
    induction H as [|x y h h' L H IH]; [exact zero_below|]. cbn [Formulas.ema].
    assert (E : length (x :: h) = length (y :: h')) by (cbn; now rewrite (Forall2_length' _ _ _ H)). change (@Num.F B) with spec_float. rewrite E.
    destruct (length (y :: h') <=? p)%nat; [apply sma_below; auto|].
    destruct (mul_unit_le x y _ L K1 K2) as (F1 & F2 & L2).
    (* the sum is computed with the new element first *)
    apply add_below'; [exact F1|exact F2|exact L2|]. now apply mul_below.
Qed.
Lemma rma_below p : (1 <= p)%nat -> (Z.of_nat p <= 2 ^ 20)%Z -> forall h h', Forall2 le32 h h' -> below (rma p h) (rma p h').
Proof.
  intros H1 H2 h h' H. destruct (Nat.eq_dec p 1) as [->|NE].
  - destruct (le32_fins _ _ H) as [I1 I2]. destruct H as [|x y h h' (_ & _ & L) _]; [exact zero_below|].
    destruct (rma_one h x I1) as [A1 A2], (rma_one h' y I2) as [B1 B2]. apply le32_below. split; [exact A1|]. split; [exact B1|]. now rewrite A2, B2.
  - destruct (period_fin (Z.of_nat p)) as (K1 & K2 & _); [lia|exact H2|]. destruct (period_fin (Z.of_nat p - 1)) as (C1 & C2 & _); [lia|lia|].
    induction H as [|x y h h' L H IH]; [exact zero_below|]. cbn [Formulas.rma].
    assert (E : length (x :: h) = length (y :: h')) by (cbn; now rewrite (Forall2_length' _ _ _ H)). change (@Num.F B) with spec_float. rewrite E.
    destruct (length (y :: h') <=? p)%nat; [apply sma_below; auto|]. destruct L as (F1 & F2 & L2).
    apply div_below; [|exact K1|exact K2]. apply add_below; [|exact F1|exact F2|exact L2]. now apply mul_below.
Qed.
End Averages.
