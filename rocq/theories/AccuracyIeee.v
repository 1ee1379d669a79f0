(** * AccuracyIeee: float32 and exact arithmetic are ordered (C60). *)
From Coq Require Import Reals Lra Lia List ZArith Bool.
From Coq Require Import Floats.SpecFloat.
From Flocq Require Import Core BinarySingleNaN.
From Verif Require Import Num Formulas B32 ER RealFacts RealMarket Rounding Ieee RoundIeee SignFacts SignMain Accuracy.
Import ListNotations.
Local Open Scope R_scope.

Lemma b32_lt x y : b32_finite x -> b32_finite y -> (SFltb x y = true <-> b32_value x < b32_value y).
Proof.
  intros Hx Hy. rewrite (sf_lt prec32 emax32 x y Hx Hy). fold (b32_value x). unfold sval. fold (b32_value x) (b32_value y).
  destruct (Rlt_bool_spec (b32_value x) (b32_value y)); split; intros; try easy; lra.
Qed.
Lemma b32_eq x y : b32_finite x -> b32_finite y -> (SFeqb x y = true <-> b32_value x = b32_value y).
Proof.
  intros Hx Hy. rewrite (sf_eq prec32 emax32 x y Hx Hy). unfold sval. fold (b32_value x) (b32_value y).
  destruct (Req_bool_spec (b32_value x) (b32_value y)); split; intros; try easy; lra.
Qed.
Lemma b32_max_val x y : b32_finite x -> b32_finite y -> b32_finite (b32_max x y) /\ b32_value (b32_max x y) = Rmax (b32_value x) (b32_value y).
Proof.
  intros Hx Hy. unfold b32_max. assert (L := b32_lt x y Hx Hy). destruct (SFltb x y).
  - split; [exact Hy|]. rewrite Rmax_right; [reflexivity|]. apply Rlt_le, L. reflexivity.
  - split; [exact Hx|]. rewrite Rmax_left; [reflexivity|]. apply Rnot_lt_le. intros C. apply L in C. discriminate.
Qed.
Lemma b32_min_val x y : b32_finite x -> b32_finite y -> b32_finite (b32_min x y) /\ b32_value (b32_min x y) = Rmin (b32_value x) (b32_value y).
Proof.
  intros Hx Hy. unfold b32_min. assert (L := b32_lt y x Hy Hx). destruct (SFltb y x).
  - split; [exact Hy|]. rewrite Rmin_right; [reflexivity|]. apply Rlt_le, L. reflexivity.
  - split; [exact Hx|]. rewrite Rmin_left; [reflexivity|]. apply Rnot_lt_le. intros C. apply L in C. discriminate.
Qed.
Lemma fold_val (f : spec_float -> spec_float -> spec_float) g :
  (forall x y, b32_finite x -> b32_finite y -> b32_finite (f x y) /\ b32_value (f x y) = g (b32_value x) (b32_value y)) ->
  forall l x, b32_finite x -> Forall b32_finite l -> b32_finite (fold_left f l x) /\ b32_value (fold_left f l x) = fold_left g (map b32_value l) (b32_value x).
Proof.
  intros K. induction l as [|y l IH]; intros x Hx Hl; [now split|]. inversion Hl as [|? ? Hy Hl']; subst. cbn [fold_left map].
  destruct (K x y Hx Hy) as [K1 K2]. rewrite <- K2. now apply IH.
Qed.
Lemma square_nn d : nn (SFmul prec32 emax32 d d).
Proof. destruct d as [[]|[]| |[] m e]; try easy; apply sign_nn, round_aux_sign. Qed.
Lemma valid_dec_nn x : nnb x = false \/ 0 <= b32_value x.
Proof. destruct (nnb x) eqn:E; [right; now apply nn_val|now left]. Qed.
Theorem b32_ordered log32 : ordered (B32 log32) b32_finite b32_value.
Proof.
  split.
  - exact b32_lt.
  - exact b32_eq.
  - intros x [V Fx]. change (@fabs (B32 log32) x) with (SFabs x). destruct x as [s|s| |s m e]; try discriminate; split.
    + now split.
    + cbn. unfold b32_value. cbn. now rewrite Rabs_R0.
    + now split.
    + unfold b32_value. cbn [SFabs SF2R]. rewrite <- F2R_Zabs. f_equal. f_equal. now destruct s.
  - exact b32_max_val.
  - exact b32_min_val.
  - intros x l Hx Hl. assert (E : @frmax (B32 log32) (x :: l) = fold_left b32_max l x).
    { change (fold_left b32_max l (b32_max (S754_infinity true) x) = fold_left b32_max l x). f_equal. destruct Hx as [_ Fx]. now destruct x as [s|s| |[] m e]. }
    rewrite E. now apply (fold_val b32_max Rmax b32_max_val).
  - intros x l Hx Hl. assert (E : @frmin (B32 log32) (x :: l) = fold_left b32_min l x).
    { change (fold_left b32_min l (b32_min (S754_infinity false) x) = fold_left b32_min l x). f_equal. destruct Hx as [_ Fx]. now destruct x as [s|s| |[] m e]. }
    rewrite E. now apply (fold_val b32_min Rmin b32_min_val).
  - intros x Hx P. destruct (sf_sqrt prec32 emax32 Hp32 He32 x Hx P) as [S1 S2]. split; [exact S1|].
    change (@fsqrt (B32 log32) x) with (SFsqrt prec32 emax32 x). unfold b32_value, sval in *. rewrite S2, <- ulp32, <- tiny32.
    eapply Rle_trans; [apply (rnd_error prec32 emax32 Hp32)|]. rewrite (Rabs_right (sqrt _)) by (apply Rle_ge, sqrt_pos). lra.
  - intros l NE Hl [V _]. destruct (valid_dec_nn (@fvar (B32 log32) l)) as [H|H]; [|exact H]. exfalso. revert H. apply eq_true_false_abs.
    change (nn (b32_mean (map (fun x => SFmul prec32 emax32 (SFsub prec32 emax32 x (b32_mean l)) (SFsub prec32 emax32 x (b32_mean l))) l))).
    apply mean_nn; [now destruct l|]. apply Forall_map, Forall_forall. intros x _. apply square_nn.
  - reflexivity.
  - assert (E : @tolerance (B32 log32) = S754_finite false 13743895 (-37)) by (vm_compute; reflexivity). rewrite E. split; [now split|].
    unfold b32_value, SF2R, F2R. cbn. apply Rabs_le. lra.
Qed.

Lemma er_fold (f : ext -> ext -> ext) g : (forall x y, f (Fin x) (Fin y) = Fin (g x y)) ->
  forall l x, Forall er_finite l -> fold_left f l (Fin x) = Fin (fold_left g (map er_value l) x).
Proof.
  intros K. induction l as [|y l IH]; intros x H; [reflexivity|]. inversion H as [|? ? Hy Hl]; subst. destruct y as [y| | |]; try easy.
  cbn [fold_left map er_value]. rewrite K. now apply IH.
Qed.
Theorem er_ordered : ordered ER er_finite er_value.
Proof.
  assert (U : 0 < half_ulp) by (unfold half_ulp; lra). destruct tiny_small as [T1 _].
  split.
  - intros [x| | |] [y| | |] Hx Hy; try easy. apply Rltb_true.
  - intros [x| | |] [y| | |] Hx Hy; try easy. cbn. unfold Reqb. destruct (Req_EM_T x y); easy.
  - intros [x| | |] Hx; try easy. 
  - intros [x| | |] [y| | |] Hx Hy; try easy. change (@fmax ER (Fin x) (Fin y)) with (e_max (Fin x) (Fin y)). now rewrite e_max_fin.
  - intros [x| | |] [y| | |] Hx Hy; try easy. change (@fmin ER (Fin x) (Fin y)) with (e_min (Fin x) (Fin y)). now rewrite e_min_fin.
  - intros [x| | |] l Hx Hl; try easy. change (@frmax ER (Fin x :: l)) with (fold_left e_max l (Fin x)). rewrite (er_fold e_max Rmax e_max_fin l x Hl). now split.
  - intros [x| | |] l Hx Hl; try easy. change (@frmin ER (Fin x :: l)) with (fold_left e_min l (Fin x)). rewrite (er_fold e_min Rmin e_min_fin l x Hl). now split.
  - intros [x| | |] Hx P; try easy. cbn [er_value] in P. cbn [fsqrt ER e_sqrt]. destruct (Rlt_dec x 0); [lra|]. split; [easy|]. cbn [er_value].
    rewrite Rminus_eq_0, Rabs_R0. assert (0 <= half_ulp * sqrt x) by (apply Rmult_le_pos; [lra|apply sqrt_pos]). lra.
  - intros l NE Hl Fv. assert (E : exists w, l = map Fin w).
    { clear NE Fv. induction Hl as [|x l Hx Hl [w ->]]; [now exists []|]. destruct x as [x| | |]; try easy. now exists (x :: w). }
    destruct E as [w ->]. rewrite fvar_fin by (intros ->; now apply NE). apply rvar_nonneg.
  - intros l _. change (@fmean ER l) with (e_div (e_sum l) (Fin (INR (length l)))). rewrite INR_IZR_INZ. reflexivity.
  - rewrite tolerance_fin. split; [easy|]. cbn. rewrite Rminus_eq_0, Rabs_R0. lra.
Qed.
