(** * SignMain: signs and bounds of the indicators in float32 (C56). *)
From Coq Require Import Reals Lra Lia List ZArith Bool.
From Coq Require Import Floats.SpecFloat.
From Flocq Require Import Core BinarySingleNaN.
From Verif Require Import Num Series Formulas B32 Order Rounding Ieee RoundIeee SignFacts.
Import ListNotations.
Local Open Scope R_scope.

Notation v32 x := (SpecFloat.valid_binary prec32 emax32 x = true).
Ltac ifs := match goal with |- context [if ?b then _ else _] => destruct b end.
Definition nn (x : spec_float) : Prop := nnb x = true.

(** ** Constants *)
Lemma fin_pos x : b32_finite x -> 0 < b32_value x -> posb x = true.
Proof.
  intros [_ H] P. destruct x as [s|s| |[] m e]; try discriminate; try reflexivity; unfold b32_value in P; cbn in P; [lra|].
  assert (Z := F2R_lt_0 radix2 (Float radix2 (Z.neg m) e) eq_refl). lra.
Qed.
Lemma fin_nn x : b32_finite x -> 0 <= b32_value x -> nn x.
Proof.
  intros [_ H] P. destruct x as [s|s| |[] m e]; try discriminate; try reflexivity; unfold b32_value in P; cbn in P.
  assert (Z := F2R_lt_0 radix2 (Float radix2 (Z.neg m) e) eq_refl). lra.
Qed.
Lemma int_pos z : (1 <= z)%Z -> posb (b32_of_Z z) = true.
Proof.
  intros H. assert (I : (1 <= IZR z)%R) by (now apply IZR_le).
  destruct (sf_normalize prec32 emax32 Hp32 He32 z 0 false) as [(_ & S1 & S2)|(_ & S1)].
  - apply fin_pos; [exact S1|]. unfold b32_of_Z, b32_value. unfold sval in S2. rewrite S2, F2R_0.
    apply (Rlt_le_trans _ 1); [lra|]. rewrite <- (rnd_id prec32 emax32 1) at 1.
    + now apply (rnd_le prec32 emax32 Hp32).
    + apply (format_int prec32 emax32 Hp32 1); [now vm_compute|reflexivity..].
  - unfold b32_of_Z. rewrite S1. rewrite F2R_0. rewrite Rlt_bool_false by lra. reflexivity.
Qed.
Lemma int_nn z : (0 <= z)%Z -> nn (b32_of_Z z).
Proof. apply normalize_nn. Qed.
Lemma valid_int z : v32 (b32_of_Z z).
Proof. exact (valid_normalize prec32 emax32 Hp32 He32 z 0 false). Qed.

Section Float.
Variable log32 : spec_float -> spec_float.
Notation B := (B32 log32).
Notation sma := (@sma B). Notation ema := (@ema B). Notation rma := (@rma B). Notation msd := (@msd B).

Lemma b32_zero : @f0 B = S754_zero false. Proof. reflexivity. Qed.
Lemma flt_nn x : @flt B x (@f0 B) = false <-> nn x.
Proof. unfold nn. cbn. rewrite (nn_lt x false). destruct (nnb x); split; easy. Qed.
Lemma valid_num k : v32 (@num B k).
Proof.
  destruct k as [z|d]; [apply valid_int|]. cbn. destruct d as [s|s| |s m e]; try reflexivity. exact (valid_normalize prec32 emax32 Hp32 He32 _ _ _).
Qed.

(** ** Sums and means *)
Lemma sum_nn_from l : forall a, nn a -> Forall nn l -> nn (fold_left (SFadd prec32 emax32) l a).
Proof. induction l as [|x l IH]; intros a Ha H; [exact Ha|]. inversion H; subst. cbn. apply IH; [now apply add_nn|assumption]. Qed.
Lemma sum_nn l : Forall nn l -> nn (b32_sum l).
Proof. now apply sum_nn_from. Qed.
Lemma sum_np_from l : forall a, nn (SFopp a) -> Forall (fun x => nn (SFopp x)) l -> nn (SFopp (fold_left (SFadd prec32 emax32) l a)).
Proof. induction l as [|x l IH]; intros a Ha H; [exact Ha|]. inversion H; subst. cbn. apply IH; [now apply add_np|assumption]. Qed.
Lemma mean_nn l : l <> [] -> Forall nn l -> nn (b32_mean l).
Proof. intros NE H. apply div_nn; [now apply sum_nn|]. apply int_pos. destruct l; [easy|]. cbn [length]. lia. Qed.
Lemma mean_np l : l <> [] -> Forall (fun x => nn (SFopp x)) l -> nn (SFopp (b32_mean l)).
Proof. intros NE H. apply div_np; [now apply sum_np_from|]. apply int_pos. destruct l; [easy|]. cbn [length]. lia. Qed.
Lemma valid_sum_from l : forall a, v32 a -> Forall (fun x => v32 x) l -> v32 (fold_left (SFadd prec32 emax32) l a).
Proof. induction l as [|x l IH]; intros a Ha H; [exact Ha|]. inversion H; subst. cbn. apply IH; [now apply (valid_add prec32 emax32 Hp32 He32)|assumption]. Qed.
Lemma valid_sum l : Forall (fun x => v32 x) l -> v32 (b32_sum l).
Proof. now apply valid_sum_from. Qed.
Lemma valid_mean l : Forall (fun x => v32 x) l -> v32 (b32_mean l).
Proof. intros H. apply (valid_div prec32 emax32 Hp32 He32); [now apply valid_sum|apply valid_int]. Qed.
Lemma valid_var l : Forall (fun x => v32 x) l -> v32 (@fvar B l).
Proof.
  intros H. apply valid_mean. apply Forall_map. assert (M := valid_mean l H). revert H. apply Forall_impl. intros x V.
  apply (valid_mul prec32 emax32 Hp32 He32); apply (valid_sub prec32 emax32 Hp32 He32); assumption.
Qed.
Lemma Forall_firstn {X} (P : X -> Prop) k l : Forall P l -> Forall P (firstn k l).
Proof. revert k. induction l as [|x l IH]; intros [|k] H; cbn; try constructor; inversion H; subst; auto. Qed.

(** ** Averages *)
Lemma sma_nn p h : (1 <= p)%nat -> Forall nn h -> nn (sma p h).
Proof.
  intros Hp H. unfold sma. ifs; [reflexivity|]. apply div_nn; [|apply int_pos; lia].
  apply sum_nn. now apply Forall_firstn.
Qed.
Lemma factor_nn p : (1 <= p)%nat -> (Z.of_nat p <= 2 ^ 20)%Z ->
  nn (@f_of_D B (@ema_factor B p)) /\ nn (@f_of_D B (@dsub B (@d_of_Z B 1) (@ema_factor B p))).
Proof.
  intros H1 H2. destruct (a_factor _ _ _ (b32_accurate log32) p H1 H2) as [F1 E1], (a_cofactor _ _ _ (b32_accurate log32) p H1 H2) as [F2 E2].
  assert (I : 1 <= INR p) by (now apply (le_INR 1)).
  assert (K : 0 < 2 / (INR p + 1) <= 1).
  { split; [apply Rdiv_lt_0_compat; lra|]. apply (Rmult_le_reg_r (INR p + 1)); [lra|]. unfold Rdiv. rewrite Rmult_assoc, Rinv_l; lra. }
  assert (U : 0 <= 2 * half_ulp <= / 2). { unfold half_ulp. lra. }
  split; apply fin_nn; try assumption; (apply Rabs_le_inv in E1; apply Rabs_le_inv in E2).
  - assert (2 * half_ulp * (2 / (INR p + 1)) <= / 2 * (2 / (INR p + 1))) by (apply Rmult_le_compat_r; lra). lra.
  - assert (2 * half_ulp * (1 - 2 / (INR p + 1)) <= / 2 * (1 - 2 / (INR p + 1))) by (apply Rmult_le_compat_r; lra). lra.
Qed.
Lemma ema_nn p h : (1 <= p)%nat -> (Z.of_nat p <= 2 ^ 20)%Z -> Forall nn h -> nn (ema p h).
Proof.
  intros H1 H2. destruct (factor_nn p H1 H2) as [K1 K2]. induction h as [|x h IH]; intros H; [reflexivity|].
  cbn [Formulas.ema]. ifs; [now apply sma_nn|]. inversion H; subst.
  apply add_nn; apply mul_nn; auto. now apply IH.
Qed.
Lemma rma_nn p h : (1 <= p)%nat -> Forall nn h -> nn (rma p h).
Proof.
  intros H1. induction h as [|x h IH]; intros H; [reflexivity|].
  cbn [Formulas.rma]. ifs; [now apply sma_nn|]. inversion H; subst.
  apply div_nn; [|apply int_pos; lia]. apply add_nn; [|assumption]. apply mul_nn; [now apply IH|]. apply int_nn. lia.
Qed.
Lemma msd_nn p h : nn (msd p h).
Proof. unfold msd. ifs; [reflexivity|]. apply sqrt_nn. Qed.
Lemma valid_sma p h : Forall (fun x => v32 x) h -> v32 (sma p h).
Proof.
  intros H. unfold sma. ifs; [reflexivity|]. apply (valid_div prec32 emax32 Hp32 He32); [|apply valid_int].
  apply valid_sum. now apply Forall_firstn.
Qed.
Lemma valid_msd p h : Forall (fun x => v32 x) h -> v32 (msd p h).
Proof.
  intros H. unfold msd. ifs; [reflexivity|]. apply (valid_sqrt prec32 emax32 Hp32 He32).
  apply valid_var. now apply Forall_firstn.
Qed.
(** ** Bands *)
Lemma bands n k h : Forall (fun x => v32 x) h -> nn (@num B k) ->
  SFltb (sma n h) (SFsub prec32 emax32 (sma n h) (SFmul prec32 emax32 (msd n h) (@num B k))) = false /\
  SFltb (SFadd prec32 emax32 (sma n h) (SFmul prec32 emax32 (msd n h) (@num B k))) (sma n h) = false.
Proof.
  intros V K. assert (Vm := valid_sma n h V).
  assert (Vd : v32 (SFmul prec32 emax32 (msd n h) (@num B k))) by (apply (valid_mul prec32 emax32 Hp32 He32); [now apply valid_msd|apply valid_num]).
  assert (Nd : nn (SFmul prec32 emax32 (msd n h) (@num B k))) by (apply mul_nn; [apply msd_nn|exact K]).
  split; [now apply (sub_below prec32 emax32 Hp32 He32)|now apply (add_above prec32 emax32 Hp32 He32)].
Qed.
(** ** Relative strength *)
Lemma changes_valid h : Forall (fun x => v32 x) h -> Forall (fun x => v32 x) (@changes B h).
Proof.
  induction h as [|x [|y r] IH]; intros H; cbn; try constructor.
  - inversion H as [|? ? V1 H']; subst. inversion H'; subst. now apply (valid_sub prec32 emax32 Hp32 He32).
  - apply IH. now inversion H.
Qed.
Lemma wilder_nn p seed new (c : list spec_float) : (1 <= p)%nat ->
  (forall c, c <> [] -> nn (seed c)) -> (forall x, nn (new x)) -> nn (@wilder B p seed new c).
Proof.
  intros Hp Hs Hn. induction c as [|x c IH]; [reflexivity|]. cbn [wilder]. ifs; [reflexivity|].
  ifs; [now apply Hs|]. apply div_nn; [|apply int_pos; lia].
  apply add_nn; [|apply Hn]. apply mul_nn; [exact IH|]. apply int_nn. lia.
Qed.
Lemma wilder_valid p seed new (c : list spec_float) : Forall (fun x => v32 x) c ->
  (forall c, Forall (fun x => v32 x) c -> v32 (seed c)) -> (forall x, v32 x -> v32 (new x)) -> v32 (@wilder B p seed new c).
Proof.
  intros Hc Hs Hn. induction c as [|x c IH]; [reflexivity|]. cbn [wilder]. ifs; [reflexivity|].
  ifs; [now apply Hs|]. inversion Hc; subst. apply (valid_div prec32 emax32 Hp32 He32); [|apply valid_int].
  apply (valid_add prec32 emax32 Hp32 He32); [|now apply Hn]. apply (valid_mul prec32 emax32 Hp32 He32); [now apply IH|apply valid_int].
Qed.
Lemma rise_nn x : nn (@rise B x).
Proof. unfold rise. cbn. destruct (SFltb (S754_zero false) x) eqn:E; [|reflexivity]. rewrite zero_lt in E. now apply pos_nn. Qed.
Lemma fall_np x : nn (SFopp (@fall B x)).
Proof. unfold fall. cbn. destruct (SFltb x (S754_zero false)) eqn:E; [|reflexivity]. destruct x as [[]|[]| |[] m e]; try discriminate; reflexivity. Qed.
Lemma gain_nn p h : (1 <= p)%nat -> nn (@average_gain B p h).
Proof.
  intros Hp. apply wilder_nn; [exact Hp| |].
  - intros c NE. apply mean_nn; [now destruct c|]. apply Forall_map, Forall_forall. intros x _. apply rise_nn.
  - intros x. exact (rise_nn x).
Qed.
Lemma loss_nn p h : (1 <= p)%nat -> nn (@average_loss B p h).
Proof.
  intros Hp. apply wilder_nn; [exact Hp| |].
  - intros c NE. apply mean_np; [now destruct c|]. apply Forall_map, Forall_forall. intros x _. apply fall_np.
  - intros x. exact (fall_np x).
Qed.
Lemma rise_valid x : v32 x -> v32 (@rise B x).
Proof. intros V. unfold rise. now ifs. Qed.
Lemma fall_valid x : v32 x -> v32 (@fall B x).
Proof. intros V. unfold fall. now ifs. Qed.
Lemma gain_valid p h : Forall (fun x => v32 x) h -> v32 (@average_gain B p h).
Proof.
  intros V. apply wilder_valid; [now apply changes_valid| |].
  - intros c H. apply valid_mean. apply Forall_map. revert H. apply Forall_impl. apply rise_valid.
  - exact rise_valid.
Qed.
Lemma loss_valid p h : Forall (fun x => v32 x) h -> v32 (@average_loss B p h).
Proof.
  intros V. apply wilder_valid; [now apply changes_valid| |].
  - intros c H. apply valid_opp, valid_mean. apply Forall_map. revert H. apply Forall_impl. apply fall_valid.
  - intros x Vx. apply valid_opp. exact (fall_valid x Vx).
Qed.
Notation hundred := (b32_of_Z 100).
Lemma index_bounds y : v32 y -> SFltb y (b32_of_Z 1) = false ->
  let r := SFsub prec32 emax32 hundred (SFdiv prec32 emax32 hundred y) in SFltb r (b32_of_Z 0) = false /\ SFltb hundred r = false.
Proof.
  intros V Hy. cbv zeta. destruct (fin_or prec32 emax32 y V) as [Fy|[->|[s ->]]]; [|now split|destruct s; [discriminate|now split]].
  destruct (b32_int 1) as [F1 E1]; [now vm_compute|]. destruct (b32_int 100) as [F100 E100]; [now vm_compute|].
  destruct (b32_int 0) as [F0 E0]; [now vm_compute|].
  rewrite (sf_lt prec32 emax32) in Hy by assumption.
  assert (G : 1 <= sval y). { destruct (Rlt_bool_spec (sval y) (sval (b32_of_Z 1))); [discriminate|]. unfold b32_value in E1. unfold sval in *. lra. }
  assert (Q : 0 <= 100 / sval y <= 100).
  { split; [apply Rlt_le, Rdiv_lt_0_compat; lra|]. apply (Rmult_le_reg_r (sval y)); [lra|]. unfold Rdiv. rewrite Rmult_assoc, Rinv_l; lra. }
  assert (I100 : rnd32 100 = 100). { apply rnd_id. apply (format_int prec32 emax32 Hp32 100); [now vm_compute|reflexivity..]. }
  assert (I0 : rnd32 0 = 0) by (apply round_0; typeclasses eauto).
  assert (R100 : big >= 100). { unfold big. assert (2 ^ 7 <= 2 ^ 127) by (apply Rle_pow; [lra|lia]). lra. }
  unfold b32_value in E100, E0.
  destruct (sf_div prec32 emax32 Hp32 He32 hundred y F100 Fy) as [(_ & S1 & S2)|(S1 & _)]; [lra| |].
  2: { destruct S1. apply in32. unfold sval at 1. rewrite E100. apply Rabs_le. lra. }
  assert (Q' : 0 <= sval (SFdiv prec32 emax32 hundred y) <= 100).
  { rewrite S2. unfold sval at 1 3. rewrite E100. split; [rewrite <- I0|rewrite <- I100 at 2]; now apply (rnd_le prec32 emax32 Hp32). }
  set (z := SFdiv prec32 emax32 hundred y) in *.
  destruct (sf_sub prec32 emax32 Hp32 He32 hundred z F100 S1) as [(_ & T1 & T2)|(T1 & _)].
  2: { destruct T1. apply in32. unfold sval at 1. rewrite E100. apply Rabs_le. lra. }
  unfold sval at 2 in T2. rewrite E100 in T2.
  rewrite !(sf_lt prec32 emax32) by assumption. split; apply Rlt_bool_false; rewrite T2.
  - unfold sval at 1. rewrite E0. rewrite <- I0 at 1. apply (rnd_le prec32 emax32 Hp32). lra.
  - unfold sval at 2. rewrite E100. rewrite <- I100 at 2. apply (rnd_le prec32 emax32 Hp32). lra.
Qed.
Lemma index_of g l : v32 g -> v32 l -> nn g -> nn l ->
  let r := SFsub prec32 emax32 hundred (SFdiv prec32 emax32 hundred (SFadd prec32 emax32 (b32_of_Z 1) (SFdiv prec32 emax32 g l))) in
  SFltb r (b32_of_Z 0) = false /\ SFltb hundred r = false.
Proof.
  intros Vg Vl Ng Nl. destruct (posb l) eqn:P.
  - assert (Vq := valid_div prec32 emax32 Hp32 He32 g l Vg Vl). assert (Nq := div_nn prec32 emax32 g l Ng P).
    apply index_bounds; [apply (valid_add prec32 emax32 Hp32 He32); [apply valid_int|exact Vq]|].
    apply (add_above prec32 emax32 Hp32 He32); [apply valid_int|exact Vq|exact Nq].
  - destruct l as [[]|[]| |[] m e]; try discriminate; destruct g as [[]|[]| |[] m' e']; try discriminate; split; reflexivity.
Qed.
Lemma rsi_bounds p h : (1 <= p)%nat -> Forall (fun x => v32 x) h ->
  SFltb (@rsi B p h) (b32_of_Z 0) = false /\ SFltb hundred (@rsi B p h) = false.
Proof.
  intros Hp V. unfold rsi. ifs; [split; reflexivity|].
  apply index_of; [now apply gain_valid|now apply loss_valid|now apply gain_nn|now apply loss_nn].
Qed.
(** ** Ranges *)
Lemma abs_nn x : nn (SFabs x). Proof. now destruct x. Qed.
Lemma max_nn a b : nn a -> nn (b32_max a b).
Proof.
  intros H. unfold b32_max. destruct (SFltb a b) eqn:E; [|exact H].
  destruct a as [[]|[]| |[] m e], b as [[]|[]| |[] m' e']; try easy.
Qed.
Lemma max_nn' a b : nn b -> b <> S754_nan -> a <> S754_nan -> nn (b32_max a b).
Proof.
  intros H Nb Na. unfold b32_max. destruct (SFltb a b) eqn:E; [exact H|].
  destruct a as [[]|[]| |[] m e], b as [[]|[]| |[] m' e']; try easy.
Qed.
Lemma max_no_nan a b : a <> S754_nan -> b32_max a b <> S754_nan.
Proof. intros H. unfold b32_max. destruct (SFltb a b) eqn:E; [|exact H]. now destruct a as [[]|[]| |[] m e], b. Qed.
Lemma sub_no_nan x y : b32_finite x -> b32_finite y -> SFsub prec32 emax32 x y <> S754_nan.
Proof.
  intros Hx Hy. destruct (sf_sub prec32 emax32 Hp32 He32 x y Hx Hy) as [(_ & [_ S1] & _)|(_ & S1 & _)]; [|now rewrite S1].
  intros E. rewrite E in S1. discriminate.
Qed.
Lemma range_nn prev (c : @candle B) : b32_finite prev -> b32_finite (c_high c) -> b32_finite (c_low c) -> nn (@range B prev c).
Proof.
  intros Hp Hh Hl. unfold range. cbn [frmax B32 feq fsub fabs]. unfold b32_rmax. cbn [fold_left].
  apply max_nn. apply max_nn'.
  - ifs; [reflexivity|apply abs_nn].
  - ifs; [discriminate|]. assert (Z := sub_no_nan _ _ Hh Hp). now destruct (SFsub prec32 emax32 (c_high c) prev).
  - now apply max_no_nan.
Qed.
Definition finite_candle (c : @candle B) : Prop := b32_finite (c_high c) /\ b32_finite (c_low c) /\ b32_finite (c_close c).
Lemma ranges_nn h : Forall finite_candle h -> Forall nn (@ranges B h).
Proof.
  induction h as [|c h IH]; intros H; cbn; constructor; inversion H as [|? ? (H1 & H2 & H3) H']; subst; [|now apply IH].
  apply range_nn; try assumption. destruct h as [|d h]; [now split|]. inversion H' as [|? ? (_ & _ & K) _]; subst. exact K.
Qed.
Lemma atr_nn p h : (1 <= p)%nat -> Forall finite_candle h -> nn (@atr B p h).
Proof. intros Hp H. apply rma_nn; [exact Hp|now apply ranges_nn]. Qed.
(** ** Drawdown *)
Lemma min0_np x : SFleb (b32_min (S754_zero false) x) (b32_of_Z 0) = true.
Proof. unfold b32_min. destruct (SFltb x (S754_zero false)) eqn:E; [|reflexivity]. destruct x as [[]|[]| |[] m e]; try discriminate; reflexivity. Qed.
Lemma drawdown_np h : SFleb (@drawdown B h) (b32_of_Z 0) = true.
Proof. destruct h as [|x h]; [reflexivity|]. unfold drawdown. ifs; [reflexivity|]. apply min0_np. Qed.
Lemma peak_nn h : Forall nn h -> nn (@peak B h).
Proof. induction h as [|x h IH]; intros H; [reflexivity|]. inversion H; subst. cbn [peak fmax B32]. unfold b32_max. ifs; auto. Qed.
Lemma peak_valid h : Forall (fun x => v32 x) h -> v32 (@peak B h).
Proof. induction h as [|x h IH]; intros H; [reflexivity|]. inversion H; subst. cbn [peak fmax B32]. unfold b32_max. ifs; auto. Qed.
Lemma minus_one_below q : v32 q -> nn q -> SFltb (SFsub prec32 emax32 q (b32_of_Z 1)) (b32_of_Z (-1)) = false.
Proof.
  intros V Nq. destruct (fin_or prec32 emax32 q V) as [Fq|[->|[s ->]]]; [|reflexivity|destruct s; [easy|reflexivity]].
  destruct (b32_int 1) as [F1 E1]; [now vm_compute|]. destruct (b32_int (-1)) as [F2 E2]; [now vm_compute|]. unfold b32_value in E1, E2.
  assert (P := nn_val q Nq). assert (I : rnd32 (-1) = -1). { apply rnd_id. apply (format_int prec32 emax32 Hp32 (-1)); [now vm_compute|reflexivity..]. }
  destruct (sf_sub prec32 emax32 Hp32 He32 q (b32_of_Z 1) Fq F1) as [(_ & S1 & S2)|(S1 & S2 & S3)].
  - rewrite (sf_lt prec32 emax32) by assumption. apply Rlt_bool_false. rewrite S2. unfold sval at 1 3. rewrite E1, E2.
    rewrite <- I at 1. apply (rnd_le prec32 emax32 Hp32). lra.
  - rewrite S2. destruct (neg_bit q) eqn:G; [|reflexivity]. exfalso. apply S1. apply in32.
    assert (Z : sval q = 0) by (destruct q as [?|?| |[] ? ?]; try discriminate; reflexivity). rewrite Z. unfold sval. rewrite E1.
    apply Rabs_le. unfold big. assert (2 ^ 1 <= 2 ^ 127) by (apply Rle_pow; [lra|lia]). lra.
Qed.
Lemma tolerance_pos : exists m e, @tolerance B = S754_finite false m e.
Proof. exists 13743895%positive, (-37)%Z. vm_compute. reflexivity. Qed.
Lemma drawdown_lower h : Forall (fun x => v32 x) h -> Forall nn h -> SFltb (@drawdown B h) (b32_of_Z (-1)) = false.
Proof.
  intros V H. destruct h as [|x h]; [reflexivity|]. unfold drawdown. inversion V; subst. inversion H; subst.
  assert (Np : nn (@peak B h)) by (now apply peak_nn). assert (Vp := peak_valid h). cbn [flt B32 fabs].
  match goal with |- context [if ?b then _ else _] => destruct b eqn:E end; [reflexivity|].
  assert (Q : nn (SFdiv prec32 emax32 x (@peak B h))).
  { destruct (posb (@peak B h)) eqn:P; [now apply div_nn|]. destruct tolerance_pos as (m & e & T). rewrite T in E.
    set (p := @peak B h) in *. change (@F B) with spec_float in p. destruct p as [s|[]| |[] m' e']; try discriminate.
    change (@F B) with spec_float in x. now destruct x as [[]|[]| |[] m' e']. }
  cbn [fmin fsub fdiv B32]. unfold b32_min.
  match goal with |- context [if ?b then _ else _] => destruct b eqn:E2 end; [|reflexivity].
  apply minus_one_below; [|exact Q]. apply (valid_div prec32 emax32 Hp32 He32); auto.
Qed.
(** ** Heikin-Ashi *)
Lemma rmin_below l x : In x l -> SFltb x (b32_rmin l) = false.
Proof.
  intros I. unfold b32_rmin. rewrite (fold_left_ext b32_min (pickmin SFltb)) by reflexivity.
  now apply (fold_min SFltb sf_irrefl sf_trans l (S754_infinity false)).
Qed.
Lemma rmax_above l x : In x l -> SFltb (b32_rmax l) x = false.
Proof.
  intros I. unfold b32_rmax. rewrite (fold_left_ext b32_max (pickmin (fun x y => SFltb y x))) by reflexivity.
  exact (proj2 (proj2 (fold_min (fun x y => SFltb y x) sf_irrefl (fun a b c H1 H2 => sf_trans _ _ _ H2 H1) l (S754_infinity true))) x I).
Qed.
End Float.
