(** * Order: comparisons and signs, for float32 and for exact arithmetic alike.

    [usable x]: [x] is a number of the format and not NaN. *)
From Coq Require Import Reals Lra Lia List ZArith Bool.
From Coq Require Import Floats.SpecFloat.
From Verif Require Import Num Series Formulas B32 ER RealFacts RealMarket ImplSignal.
Import ListNotations.

(** What the comparison-based theorems need of the arithmetic. *)
Record orderly (N : FOps) (usable : F -> Prop) : Prop := {
  o_irrefl : forall x, flt x x = false;
  o_trans : forall x y z, flt x y = true -> flt y z = true -> flt x z = true;
  o_total : forall x y, usable x -> usable y -> flt x y = false -> flt y x = false -> feq x y = true;
  o_rmin : forall l, l <> [] -> Forall usable l -> In (frmin l) l /\ forall x, In x l -> flt x (frmin l) = false;
  o_rmax : forall l, l <> [] -> Forall usable l -> In (frmax l) l /\ forall x, In x l -> flt (frmax l) x = false;
  o_nonzero : forall x, usable x -> feq x f0 = negb (flt x f0) && negb (flt f0 x);
  o_sgn : forall x, usable x -> sgn x = f_of_Z (if flt x f0 then -1 else 1);
  o_keep : forall x, usable x -> flt (sgn (fmul x (f_of_Z 1))) f0 = flt x f0;
  o_flip : forall x, usable x -> flt (sgn (fmul x (f_of_Z (-1)))) f0 = flt f0 x;
  o_neg1 : fneg (f_of_Z 1) = f_of_Z (-1);
  o_neg : fneg (f_of_Z (-1)) = f_of_Z 1;
  o_cast0 : f_to_Z f0 = 0%Z;
  o_cast1 : f_to_Z (f_of_Z 1) = 1%Z;
  o_cast_1 : f_to_Z (f_of_Z (-1)) = (-1)%Z
}.

(** ** Extrema by folding *)
Section Fold.
Context {A : Type} (lt : A -> A -> bool) (top : A) (usable : A -> Prop).
Hypothesis irrefl : forall x, lt x x = false.
Hypothesis trans : forall x y z, lt x y = true -> lt y z = true -> lt x z = true.
Hypothesis top_only : forall x, usable x -> lt x top = false -> x = top.
Definition pickmin (a b : A) : A := if lt b a then b else a.
Lemma fold_min l : forall a,
  (fold_left pickmin l a = a \/ In (fold_left pickmin l a) l) /\
  lt a (fold_left pickmin l a) = false /\
  (forall x, In x l -> lt x (fold_left pickmin l a) = false).
Proof.
  induction l as [|b l IH]; intros a; cbn [fold_left]; [split; [now left|]; split; [apply irrefl|easy]|].
  destruct (IH (pickmin a b)) as (H1 & H2 & H3). unfold pickmin in *. destruct (lt b a) eqn:E.
  - split; [right; destruct H1 as [->|H1]; [now left|now right]|]. split.
    + destruct (lt a (fold_left _ l b)) eqn:L; [|reflexivity].
      rewrite (trans _ _ _ E L) in H2. discriminate.
    + intros x [->|Hx]; [exact H2|auto].
  - split; [destruct H1 as [->|H1]; [now left|right; now right]|]. split; [exact H2|].
    intros x [<-|Hx]; [|auto]. destruct H1 as [->|H1]; [exact E|].
    destruct (lt b (fold_left _ l a)) eqn:L; [|reflexivity].
    (* b < min <= a: contradiction with b not below a *)
    assert (K : lt (fold_left pickmin l a) a = true \/ fold_left pickmin l a = a).
    { clear -irrefl trans. revert a. induction l as [|c l IH]; intros a; [now right|]. cbn [fold_left].
      unfold pickmin at 2 4. destruct (lt c a) eqn:E; [|apply IH]. left. destruct (IH c) as [H| ->]; [eapply trans; eauto|exact E]. }
    destruct K as [K|K].
    + unfold pickmin in K. rewrite (trans _ _ _ L K) in E. discriminate.
    + unfold pickmin in K. rewrite K in L. congruence.
Qed.
Lemma fold_min_top l : l <> [] -> Forall usable l ->
  In (fold_left pickmin l top) l /\ forall x, In x l -> lt x (fold_left pickmin l top) = false.
Proof.
  intros NE H. destruct (fold_min l top) as (H1 & _ & H3). split; [|exact H3].
  destruct H1 as [E|H1]; [|exact H1]. destruct l as [|x l]; [easy|]. inversion H; subst.
  rewrite E. left. apply top_only; [assumption|]. rewrite <- E. apply H3. now left.
Qed.
End Fold.
Lemma fold_left_ext {A B} (f g : A -> B -> A) l : (forall a b, f a b = g a b) -> forall a, fold_left f l a = fold_left g l a.
Proof. intros H. induction l as [|b l IH]; intros a; cbn; [reflexivity|]. now rewrite H, IH. Qed.

(** ** float32 *)
(** The floats of the binary32 format (canonical, in range), NaN excepted. *)
Definition b32_usable (x : spec_float) : Prop := valid_binary prec32 emax32 x = true /\ x <> S754_nan.
Lemma Pcompare_refl' m : Pos.compare_cont Eq m m = Eq.
Proof. apply Pos.compare_refl. Qed.
Lemma sf_irrefl x : SFltb x x = false.
Proof.
  destruct x as [s|s| |s m e]; try reflexivity; [destruct s; reflexivity|].
  unfold SFltb. cbn. rewrite Z.compare_refl, Pcompare_refl'. destruct s; reflexivity.
Qed.
Lemma sf_finite_lt s1 m1 e1 s2 m2 e2 : SFltb (S754_finite s1 m1 e1) (S754_finite s2 m2 e2) = true <->
  match s1, s2 with
  | true, false => True
  | false, true => False
  | false, false => (e1 < e2 \/ e1 = e2 /\ Z.pos m1 < Z.pos m2)%Z
  | true, true => (e2 < e1 \/ e1 = e2 /\ Z.pos m2 < Z.pos m1)%Z
  end.
Proof.
  unfold SFltb. cbn. change (Pos.compare_cont Eq m1 m2) with (m1 ?= m2)%positive.
  destruct s1, s2; try tauto; try (split; easy);
  destruct (Z.compare_spec e1 e2) as [E|E|E]; destruct (Pos.compare_spec m1 m2) as [M|M|M]; cbn;
  (split; intros H; first [lia | discriminate H | reflexivity | left; lia | right; lia | destruct H as [H|H]; lia]).
Qed.
Lemma sf_trans x y z : SFltb x y = true -> SFltb y z = true -> SFltb x z = true.
Proof.
  destruct x as [s1|s1| |s1 m1 e1], y as [s2|s2| |s2 m2 e2], z as [s3|s3| |s3 m3 e3]; intros H1 H2;
  try discriminate H1; try discriminate H2; try reflexivity.
  all: try (destruct s1; try discriminate H1); try (destruct s2; try discriminate H1; try discriminate H2);
       try (destruct s3; try discriminate H2); try reflexivity.
  all: rewrite sf_finite_lt in *; lia.
Qed.
Lemma sf_total x y : x <> S754_nan -> y <> S754_nan -> SFltb x y = false -> SFltb y x = false -> SFeqb x y = true.
Proof.
  destruct x as [s1|s1| |s1 m1 e1], y as [s2|s2| |s2 m2 e2]; intros N1 N2 H1 H2; try easy;
  try (destruct s1); try (destruct s2); try discriminate; try reflexivity.
  all: apply not_true_iff_false in H1, H2; rewrite sf_finite_lt in H1, H2;
    assert (e1 = e2) by lia; assert (Z.pos m1 = Z.pos m2) by lia; subst;
    match goal with H : Z.pos _ = Z.pos _ |- _ => injection H as -> end;
    unfold SFeqb; cbn; rewrite Z.compare_refl, Pcompare_refl'; reflexivity.
Qed.
Lemma sf_mul_unit s s' m e : bounded prec32 emax32 m e = true ->
  SFmul prec32 emax32 (S754_finite s m e) (S754_finite s' 8388608 (-23)) = S754_finite (xorb s s') m e.
Proof.
  intros H. unfold bounded in H. apply andb_true_iff in H as [H1 H2]. unfold canonical_mantissa in H1.
  apply Zeq_bool_eq in H1. cbn [SFmul]. rewrite Pos.mul_comm.
  unfold binary_round_aux, shr_fexp. cbn [Pos.mul Zdigits2 digits2_pos shr_record_of_loc].
  set (d := digits2_pos m) in *.
  replace (Z.pos (Pos.succ (Pos.succ (Pos.succ (Pos.succ (Pos.succ (Pos.succ (Pos.succ (Pos.succ (Pos.succ (Pos.succ
    (Pos.succ (Pos.succ (Pos.succ (Pos.succ (Pos.succ (Pos.succ (Pos.succ (Pos.succ (Pos.succ (Pos.succ (Pos.succ
    (Pos.succ (Pos.succ d)))))))))))))))))))))))) with (Z.pos d + 23)%Z by lia.
  replace (Z.pos d + 23 + (e + -23))%Z with (Z.pos d + e)%Z by lia. rewrite H1.
  replace (e - (e + -23))%Z with 23%Z by lia. cbn [shr iter_pos shr_1 orb shr_m loc_of_shr_record round_nearest_even].
  replace (e + -23 + 23)%Z with e by lia. cbn [Zdigits2]. fold d. rewrite H1, Z.sub_diag. cbn [shr shr_record_of_loc shr_m].
  rewrite H2. reflexivity.
Qed.
Lemma b32_orderly log32 : orderly (B32 log32) b32_usable.
Proof.
  constructor; cbn [F flt feq fle fmul fneg f_of_Z f_to_Z frmin frmax B32].
  - apply sf_irrefl.
  - apply sf_trans.
  - intros x y [_ Hx] [_ Hy]. now apply sf_total.
  - intros l NE H. unfold b32_rmin.
    rewrite (fold_left_ext b32_min (pickmin SFltb)) by reflexivity.
    apply (fold_min_top SFltb (S754_infinity false) b32_usable sf_irrefl sf_trans); auto.
    intros [s|s| |s m e] [_ Hx] L; try (destruct s; discriminate L); [|easy]. destruct s; [discriminate|reflexivity].
  - intros l NE H. unfold b32_rmax.
    rewrite (fold_left_ext b32_max (pickmin (fun x y => SFltb y x))) by reflexivity.
    apply (fold_min_top (fun x y => SFltb y x) (S754_infinity true) b32_usable).
    + intros x. apply sf_irrefl.
    + intros x y z H1 H2. eapply sf_trans; eassumption.
    + intros [s|s| |s m e] [_ Hx] L; try (destruct s; discriminate L); [|easy]. destruct s; [reflexivity|discriminate].
    + exact NE.
    + exact H.
  - intros [s|s| |s m e] [_ Hx]; try easy; destruct s; reflexivity.
  - intros [s|s| |s m e] [_ Hx]; try easy; destruct s; reflexivity.
  - intros [s|s| |s m e] [V Hx]; try easy; try (destruct s; reflexivity).
    change (b32_of_Z 1) with (S754_finite false 8388608 (-23)). rewrite sf_mul_unit by exact V. destruct s; reflexivity.
  - intros [s|s| |s m e] [V Hx]; try easy; try (destruct s; reflexivity).
    change (b32_of_Z (-1)) with (S754_finite true 8388608 (-23)). rewrite sf_mul_unit by exact V. destruct s; reflexivity.
  - reflexivity.
  - reflexivity.
  - reflexivity.
  - reflexivity.
  - reflexivity.
Qed.

(** ** Exact arithmetic *)
Definition er_usable (x : ext) : Prop := x <> NaN.
Local Open Scope R_scope.
Lemma er_irrefl x : e_lt x x = false.
Proof. destruct x; try reflexivity. apply Rltb_false. lra. Qed.
Lemma er_trans x y z : e_lt x y = true -> e_lt y z = true -> e_lt x z = true.
Proof.
  destruct x, y, z; cbn; try easy; rewrite ?Rltb_true; try tauto. lra.
Qed.
Lemma Int_part_IZR z : Int_part (IZR z) = z.
Proof.
  assert (H : (up (IZR z) - 1)%Z = z); [|exact H].
  assert (E : (z + 1)%Z = up (IZR z)) by (apply tech_up; rewrite plus_IZR; lra). lia.
Qed.
Lemma er_orderly : orderly ER er_usable.
Proof.
  constructor; cbn [F flt feq fle fmul fneg f_of_Z f_to_Z frmin frmax ER].
  - apply er_irrefl.
  - apply er_trans.
  - intros x y Hx Hy. destruct x, y; cbn; try easy. rewrite !Rltb_false. intros. unfold Reqb. destruct (Req_EM_T r r0); [reflexivity|lra].
  - intros l NE H. unfold e_rmin. rewrite (fold_left_ext e_min (pickmin e_lt)) by reflexivity.
    apply (fold_min_top e_lt PInf er_usable er_irrefl er_trans); auto. intros [] Hx L; try easy.
  - intros l NE H. unfold e_rmax.
    rewrite (fold_left_ext e_max (pickmin (fun x y => e_lt y x))) by reflexivity.
    apply (fold_min_top (fun x y => e_lt y x) NInf er_usable).
    + intros x. apply er_irrefl.
    + intros x y z H1 H2. eapply er_trans; eassumption.
    + intros [] Hx L; try easy.
    + exact NE.
    + exact H.
  - intros [] Hx; try easy; cbn. unfold Reqb, Rltb. destruct (Req_EM_T r 0), (Rlt_dec r 0), (Rlt_dec 0 r); try reflexivity; lra.
  - intros [] Hx; try easy; cbn; unfold sgn, f0; cbn.
    all: unfold Rltb; repeat match goal with |- context [Rlt_dec ?a ?b] => destruct (Rlt_dec a b); try lra end; unfold fge; cbn; unfold e_le; cbn; unfold Rltb, Reqb;
      repeat match goal with |- context [Rlt_dec ?a ?b] => destruct (Rlt_dec a b); try lra
        | |- context [Req_EM_T ?a ?b] => destruct (Req_EM_T a b); try lra end; reflexivity.
  - intros [] Hx; try easy; cbn; unfold sgn, f0, inf_of; cbn;
    repeat match goal with |- context [Rlt_dec ?a ?b] => destruct (Rlt_dec a b); try lra end; cbn;
    unfold fge; cbn; unfold e_le; cbn; unfold Rltb, Reqb;
    repeat match goal with |- context [Rlt_dec ?a ?b] => destruct (Rlt_dec a b); try lra
        | |- context [Req_EM_T ?a ?b] => destruct (Req_EM_T a b); try lra end; cbn; try reflexivity;
    unfold Rltb; repeat match goal with |- context [Rlt_dec ?a ?b] => destruct (Rlt_dec a b); try lra end; try reflexivity.
  - intros [] Hx; try easy; cbn; unfold sgn, f0, inf_of; cbn;
    repeat match goal with |- context [Rlt_dec ?a ?b] => destruct (Rlt_dec a b); try lra end; cbn;
    unfold fge; cbn; unfold e_le; cbn; unfold Rltb, Reqb;
    repeat match goal with |- context [Rlt_dec ?a ?b] => destruct (Rlt_dec a b); try lra
        | |- context [Req_EM_T ?a ?b] => destruct (Req_EM_T a b); try lra end; cbn; try reflexivity;
    unfold Rltb; repeat match goal with |- context [Rlt_dec ?a ?b] => destruct (Rlt_dec a b); try lra end; try reflexivity.
  - reflexivity.
  - cbn. f_equal. lra.
  - unfold f0. cbn. destruct (Rlt_dec 0 0); [lra|]. apply (Int_part_IZR 0).
  - cbn. destruct (Rlt_dec 1 0); [lra|]. apply (Int_part_IZR 1).
  - cbn. destruct (Rlt_dec (-1) 0); [|lra]. replace (- -1) with 1 by lra. rewrite (Int_part_IZR 1). reflexivity.
Qed.
