(** * NanNum: IEEE single precision and exact arithmetic obey the laws of [absorbing] (C65). *)
From Coq Require Import Reals Lra List ZArith Bool.
From Coq Require Import Floats.SpecFloat.
From Verif Require Import Num Nan B32 ER RealFacts.
Import ListNotations.

Lemma sf_add_nan x y : x = S754_nan \/ y = S754_nan -> SFadd prec32 emax32 x y = S754_nan.
Proof. intros [->| ->]; [reflexivity|]. now destruct x as [[]|[]| |[]]. Qed.
Lemma sf_sum_nan l : forall a, a = S754_nan \/ In S754_nan l -> fold_left (SFadd prec32 emax32) l a = S754_nan.
Proof.
  induction l as [|x l IH]; intros a H; cbn [fold_left]; [now destruct H|]. apply IH. destruct H as [->|[->|H]]; [left|left|now right]; apply sf_add_nan; auto.
Qed.
Lemma b32_nan log32 (x : spec_float) : @nan (B32 log32) x -> x = S754_nan.
Proof. unfold nan. cbn. now destruct x. Qed.
Lemma b32_nans log32 (l : list spec_float) : Exists (@nan (B32 log32)) l -> In S754_nan l.
Proof. intros H. apply Exists_exists in H as (x & I & Hx). now rewrite (b32_nan log32 x Hx) in I. Qed.
Lemma b32_absorbing log32 : absorbing (B32 log32).
Proof.
  constructor.
  - intros x y H. change (b32_isnan (SFadd prec32 emax32 x y) = true). now rewrite sf_add_nan by (destruct H as [H|H]; apply b32_nan in H; auto).
  - intros x y H. change (b32_isnan (SFsub prec32 emax32 x y) = true). destruct H as [H|H]; apply b32_nan in H; subst; [reflexivity|]. now destruct x as [[]|[]| |[]].
  - intros x y H. change (b32_isnan (SFmul prec32 emax32 x y) = true). destruct H as [H|H]; apply b32_nan in H; subst; [reflexivity|]. now destruct x as [[]|[]| |[]].
  - intros x y H. change (b32_isnan (SFdiv prec32 emax32 x y) = true). destruct H as [H|H]; apply b32_nan in H; subst; [reflexivity|]. now destruct x as [[]|[]| |[]].
  - intros x H. apply b32_nan in H. now subst.
  - intros x H. apply b32_nan in H. now subst.
  - intros x k H. apply b32_nan in H. now subst.
  - intros l H. apply b32_nans in H. change (b32_isnan (b32_sum l) = true). unfold b32_sum. now rewrite sf_sum_nan by now right.
  - intros l H. apply b32_nans in H. change (b32_isnan (b32_mean l) = true). unfold b32_mean, b32_sum. now rewrite sf_sum_nan by now right.
  - intros x y H. change (SFltb x y = false). destruct H as [H|H]; apply b32_nan in H; subst; [reflexivity|]. now destruct x as [[]|[]| |[]].
  - intros x y H. change (SFeqb x y = false). destruct H as [H|H]; apply b32_nan in H; subst; [reflexivity|]. now destruct x as [[]|[]| |[]].
  - intros x H. apply b32_nan in H. now subst.
  - reflexivity.
  - reflexivity.
  - reflexivity.
  - reflexivity.
Qed.

Lemma e_add_nan x y : x = NaN \/ y = NaN -> e_add x y = NaN.
Proof. intros [->| ->]; [reflexivity|now destruct x]. Qed.
Lemma e_sum_nan l : forall a, a = NaN \/ In NaN l -> fold_left e_add l a = NaN.
Proof.
  induction l as [|x l IH]; intros a H; cbn [fold_left]; [now destruct H|]. apply IH. destruct H as [->|[->|H]]; [left|left|now right]; apply e_add_nan; auto.
Qed.
Lemma er_nan (x : ext) : @nan ER x -> x = NaN.
Proof. unfold nan. cbn. now destruct x. Qed.
Lemma er_nans (l : list ext) : Exists (@nan ER) l -> In NaN l.
Proof. intros H. apply Exists_exists in H as (x & I & Hx). now rewrite (er_nan x Hx) in I. Qed.
Lemma er_absorbing : absorbing ER.
Proof.
  constructor.
  - intros x y H. change (e_isnan (e_add x y) = true). now rewrite e_add_nan by (destruct H as [H|H]; apply er_nan in H; auto).
  - intros x y H. change (e_isnan (e_sub x y) = true). unfold e_sub. destruct H as [H|H]; apply er_nan in H; subst; [reflexivity|now destruct x].
  - intros x y H. change (e_isnan (e_mul x y) = true). destruct H as [H|H]; apply er_nan in H; subst; [reflexivity|now destruct x].
  - intros x y H. change (e_isnan (e_div x y) = true). destruct H as [H|H]; apply er_nan in H; subst; [reflexivity|now destruct x].
  - intros x H. apply er_nan in H. now subst.
  - intros x H. apply er_nan in H. now subst.
  - intros x k H. apply er_nan in H. now subst.
  - intros l H. apply er_nans in H. change (e_isnan (e_sum l) = true). unfold e_sum. now rewrite e_sum_nan by now right.
  - intros l H. apply er_nans in H. change (e_isnan (e_mean l) = true). unfold e_mean, e_sum. now rewrite e_sum_nan by now right.
  - intros x y H. change (e_lt x y = false). destruct H as [H|H]; apply er_nan in H; subst; [reflexivity|now destruct x].
  - intros x y H. change (e_eq x y = false). destruct H as [H|H]; apply er_nan in H; subst; [reflexivity|now destruct x].
  - intros x H. apply er_nan in H. subst. change (e_le (Fin 0) (Fin 0) = true). unfold e_le, e_lt, e_eq, Rltb, Reqb. destruct (Rlt_dec 0 0), (Req_EM_T 0 0); auto; lra.
  - change (e_lt (Fin 1) (Fin 0) = false). unfold e_lt, Rltb. destruct (Rlt_dec 1 0); [lra|reflexivity].
  - change (e_eq (Fin 0) (Fin 0) = true). unfold e_eq, Reqb. destruct (Req_EM_T 0 0); [reflexivity|lra].
  - change (e_le (Fin 0) (e_sign (Fin 0)) = true). unfold e_sign. destruct (Rlt_dec 0 0); [lra|]. unfold e_le, e_lt, e_eq, Rltb, Reqb. destruct (Rlt_dec 0 0), (Req_EM_T 0 0); auto; lra.
  - change (e_to_Z (Fin 0) = 0%Z). unfold e_to_Z. destruct (Rlt_dec 0 0); [lra|]. unfold Int_part. rewrite <- (tech_up 0 1); [reflexivity|simpl; lra..].
Qed.
