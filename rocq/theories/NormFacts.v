(** * NormFacts: root mean squares of real numbers (used by C60). *)
From Coq Require Import Reals Lra Lia List ZArith Bool.
From Verif Require Import Num ER RealFacts RealStats RealScale2.
Import ListNotations.
Local Open Scope R_scope.

Definition rms (l : list R) : R := sqrt (rmean (map (fun x => x * x) l)).
Lemma squares_dot l : rsum (map (fun x => x * x) l) = dot l l.
Proof. unfold dot. now rewrite combine_same, map_map. Qed.
Lemma squares_nonneg l : 0 <= rmean (map (fun x => x * x) l).
Proof.
  unfold rmean. rewrite squares_dot, map_length. destruct l as [|x l]; [cbn; lra|].
  apply Rmult_le_pos; [apply dot_nonneg|]. apply Rlt_le, Rinv_0_lt_compat, INR_pos. cbn. lia.
Qed.
(** The root mean square is at most the largest absolute value. *)
Lemma squares_le e l : 0 <= e -> Forall (fun x => Rabs x <= e) l -> rsum (map (fun x => x * x) l) <= INR (length l) * (e * e).
Proof.
  intros He. induction 1 as [|x l Hx _ IH]; [cbn; lra|]. cbn [map rsum fold_right length]. unfold rsum in IH. rewrite S_INR.
  assert (x * x <= e * e).
  { assert (P := Rabs_pos x). replace (x * x) with (Rabs x * Rabs x).
    - apply Rmult_le_compat; assumption.
    - rewrite <- Rabs_mult. apply Rabs_right. assert (Z := Rle_0_sqr x). unfold Rsqr in Z. lra. }
  lra.
Qed.
Lemma rms_le e l : 0 <= e -> l <> [] -> Forall (fun x => Rabs x <= e) l -> rms l <= e.
Proof.
  intros He NE H. unfold rms. rewrite <- (sqrt_square e) by exact He. apply sqrt_le_1_alt.
  assert (P : 0 < INR (length l)) by (apply INR_pos; destruct l; [easy|cbn; lia]).
  unfold rmean. rewrite map_length. apply (Rmult_le_reg_r (INR (length l))); [exact P|].
  unfold Rdiv. rewrite Rmult_assoc, Rinv_l, Rmult_1_r by lra. assert (Q := squares_le e l He H). lra.
Qed.
(** The triangle inequality (Minkowski). *)
Definition gap (u v : list R) : list R := map (fun xy => fst xy + -1 * snd xy) (combine u v).
Lemma gap_length u v : length u = length v -> length (gap u v) = length u.
Proof. intros L. unfold gap. rewrite map_length, combine_length, <- L. lia. Qed.
Lemma gap_nth i u v : length u = length v -> (i < length u)%nat -> nth i (gap u v) 0 = nth i u 0 - nth i v 0.
Proof.
  intros L Hi. unfold gap. rewrite (nth_indep _ 0 ((fun xy : R * R => fst xy + -1 * snd xy) (0, 0))) by (rewrite map_length, combine_length, <- L; lia).
  rewrite (map_nth (fun xy : R * R => fst xy + -1 * snd xy)), combine_nth by exact L. cbn [fst snd]. ring.
Qed.
Lemma rms_gap u v : u <> [] -> length u = length v -> Rabs (rms u - rms v) <= rms (gap u v).
Proof.
  intros NE L. assert (Q := dot_quad (-1) u v L). fold (gap u v) in Q. assert (C := cauchy u v L).
  assert (P : 0 < INR (length u)) by (apply INR_pos; destruct u; [easy|cbn; lia]).
  assert (Ld := gap_length u v L). set (d := gap u v) in *.
  unfold rms, rmean. rewrite !map_length, !squares_dot, Ld, <- L.
  assert (U := dot_nonneg u). assert (V := dot_nonneg v). assert (W := dot_nonneg d).
  set (n := INR (length u)) in *. set (a := sqrt (dot u u / n)). set (b := sqrt (dot v v / n)). set (e := sqrt (dot d d / n)).
  assert (I : 0 < / n) by now apply Rinv_0_lt_compat.
  assert (A2 : a * a = dot u u / n) by (apply sqrt_sqrt; apply Rmult_le_pos; lra).
  assert (B2 : b * b = dot v v / n) by (apply sqrt_sqrt; apply Rmult_le_pos; lra).
  assert (E2 : e * e = dot d d / n) by (apply sqrt_sqrt; apply Rmult_le_pos; lra).
  assert (A0 : 0 <= a) by apply sqrt_pos. assert (B0 : 0 <= b) by apply sqrt_pos. assert (E0 : 0 <= e) by apply sqrt_pos.
  assert (AB : dot u v / n <= a * b).
  { assert (X : dot u v / n * (dot u v / n) <= a * b * (a * b)).
    { replace (a * b * (a * b)) with (a * a * (b * b)) by ring. rewrite A2, B2. unfold Rdiv.
      replace (dot u v * / n * (dot u v * / n)) with (dot u v * dot u v * (/ n * / n)) by ring.
      replace (dot u u * / n * (dot v v * / n)) with (dot u u * dot v v * (/ n * / n)) by ring.
      apply Rmult_le_compat_r; [apply Rmult_le_pos; lra|exact C]. }
    apply (sq_le_abs (dot u v / n) (a * b)); [apply Rmult_le_pos; assumption|exact X]. }
  apply Rabs_le. apply sq_le_abs; [exact E0|].
  replace ((a - b) * (a - b)) with (a * a + b * b - 2 * (a * b)) by ring. rewrite A2, B2, E2, Q. unfold Rdiv in *. lra.
Qed.
(** Changing every element by at most [e] changes the root mean square, and the deviation, by at most [e]. *)
Definition off (e : R) (u v : list R) : Prop := length u = length v /\ forall i, (i < length u)%nat -> Rabs (nth i u 0 - nth i v 0) <= e.
Lemma off_gap e u v : off e u v -> Forall (fun x => Rabs x <= e) (gap u v).
Proof.
  intros [L H]. apply Forall_forall. intros x I. apply (In_nth _ _ 0) in I as (i & Hi & <-). rewrite gap_length in Hi by exact L.
  rewrite gap_nth by assumption. now apply H.
Qed.
Lemma gap_ne u v : u <> [] -> length u = length v -> gap u v <> [].
Proof. intros NE L E. apply NE. apply length_zero_iff_nil. rewrite <- (gap_length u v L), E. reflexivity. Qed.
Lemma rms_lip e u v : 0 <= e -> u <> [] -> off e u v -> Rabs (rms u - rms v) <= e.
Proof.
  intros He NE H. eapply Rle_trans; [apply rms_gap; [exact NE|apply H]|].
  apply rms_le; [exact He|apply gap_ne; [exact NE|apply H]|now apply off_gap].
Qed.
Lemma rvar_rms l : sqrt (rvar l) = rms (centred l).
Proof. unfold rms, centred, rvar. now rewrite map_map. Qed.
(** The variance is at most the mean square. *)
Lemma rvar_le l : l <> [] -> sqrt (rvar l) <= rms l.
Proof. intros NE. unfold rms. apply sqrt_le_1_alt. rewrite rvar_moments by exact NE. assert (Z := Rle_0_sqr (rmean l)). unfold Rsqr in Z. lra. Qed.
Lemma rmean_gap : forall u v, length u = length v -> rmean (gap u v) = rmean u - rmean v.
Proof.
  intros u v L. unfold rmean. rewrite gap_length, <- L by exact L. unfold Rdiv, Rminus. rewrite <- Ropp_mult_distr_l_reverse, <- Rmult_plus_distr_r.
  f_equal. revert v L. induction u as [|x u IH]; intros [|y v] L; try discriminate; [cbn; ring|]. cbn [gap combine map rsum fold_right fst snd].
  injection L as L. specialize (IH v L). unfold rsum in IH. unfold gap in IH. rewrite IH. ring.
Qed.
Lemma centred_gap u v : length u = length v -> gap (centred u) (centred v) = centred (gap u v).
Proof.
  intros L. apply (nth_ext _ _ 0 0).
  - unfold centred. rewrite map_length, !gap_length by (rewrite ?map_length; exact L). now rewrite map_length.
  - unfold centred. intros i Hi. rewrite gap_length in Hi by (rewrite !map_length; exact L). rewrite map_length in Hi.
    rewrite gap_nth by (rewrite ?map_length; assumption).
    assert (G := gap_length u v L).
    rewrite (nth_indep (map (fun x => x - rmean u) u) 0 ((fun x => x - rmean u) 0)) by (rewrite map_length; exact Hi).
    rewrite (nth_indep (map (fun x => x - rmean v) v) 0 ((fun x => x - rmean v) 0)) by (rewrite map_length; lia).
    rewrite (nth_indep (map (fun x => x - rmean (gap u v)) (gap u v)) 0 ((fun x => x - rmean (gap u v)) 0)) by (rewrite map_length; lia).
    rewrite (map_nth (fun x => x - rmean u)), (map_nth (fun x => x - rmean v)), (map_nth (fun x => x - rmean (gap u v))).
    rewrite gap_nth by assumption. rewrite rmean_gap by exact L. ring.
Qed.
Lemma deviation_lip e u v : 0 <= e -> u <> [] -> off e u v -> Rabs (sqrt (rvar u) - sqrt (rvar v)) <= e.
Proof.
  intros He NE H. assert (L := proj1 H). rewrite !rvar_rms. eapply Rle_trans.
  - apply rms_gap; unfold centred; [|rewrite !map_length; exact L]. intros E. apply NE. now apply map_eq_nil in E.
  - rewrite centred_gap by exact L. rewrite <- rvar_rms. assert (G := gap_ne u v NE L). eapply Rle_trans; [now apply rvar_le|].
    apply rms_le; [exact He|exact G|now apply off_gap].
Qed.
Lemma deviation_le M l : 0 <= M -> l <> [] -> Forall (fun x => Rabs x <= M) l -> sqrt (rvar l) <= M.
Proof. intros HM NE H. eapply Rle_trans; [now apply rvar_le|now apply rms_le]. Qed.
(** Square root of a number known up to a factor and a constant. *)
Lemma sqrt_near a y d t : 0 <= a -> 0 <= y -> 0 <= d <= 1 -> 0 <= t -> Rabs (y - a) <= d * a + t * t -> Rabs (sqrt y - sqrt a) <= d * sqrt a + t.
Proof.
  intros Ha Hy Hd Ht H. set (r := sqrt a). set (s := sqrt y). assert (R2 : r * r = a) by now apply sqrt_sqrt. assert (S2 : s * s = y) by now apply sqrt_sqrt.
  assert (R0 : 0 <= r) by apply sqrt_pos. assert (S0 : 0 <= s) by apply sqrt_pos. rewrite <- R2, <- S2 in H.
  apply Rabs_le. assert (K := Rabs_def2 (s * s - r * r) (d * (r * r) + t * t + 1)). clear K.
  assert (H1 : s * s - r * r <= d * (r * r) + t * t) by (eapply Rle_trans; [apply Rle_abs|exact H]).
  assert (H2 : r * r - s * s <= d * (r * r) + t * t) by (eapply Rle_trans; [|exact H]; rewrite Rabs_minus_sym; apply Rle_abs).
  assert (DR : 0 <= d * r) by (apply Rmult_le_pos; lra). assert (RT : 0 <= r * t) by (apply Rmult_le_pos; lra).
  assert (DRT : 0 <= d * r * t) by (apply Rmult_le_pos; lra). assert (DRR : 0 <= d * r * r) by (apply Rmult_le_pos; lra).
  split.
  - (* r - (d r + t) <= s *)
    destruct (Rle_lt_dec (r - (d * r + t)) 0) as [C|C]; [lra|].
    assert (Q : (r - (d * r + t)) * (r - (d * r + t)) <= s * s).
    { assert (X : 0 <= (1 - d) * r) by (apply Rmult_le_pos; lra). set (q := (1 - d) * r) in *. replace (r - (d * r + t)) with (q - t) in * by (unfold q; ring).
      assert (q * q <= (1 - d) * (r * r)).
      { unfold q. replace ((1 - d) * r * ((1 - d) * r)) with ((1 - d) * (1 - d) * (r * r)) by ring. apply Rmult_le_compat_r; [apply Rmult_le_pos; lra|].
        rewrite <- (Rmult_1_r (1 - d)) at 3. apply Rmult_le_compat_l; lra. }
      assert (T2 : t * t <= q * t) by (apply Rmult_le_compat_r; lra).
      replace ((q - t) * (q - t)) with (q * q - 2 * (q * t) + t * t) by ring. lra. }
    destruct (Rle_lt_dec (r - (d * r + t)) s) as [D|D]; [lra|]. exfalso.
    assert (s * s < (r - (d * r + t)) * (r - (d * r + t))) by (apply Rmult_le_0_lt_compat; lra). lra.
  - (* s <= r + d r + t *)
    destruct (Rle_lt_dec s (r + (d * r + t))) as [D|D]; [lra|]. exfalso.
    assert (X : (r + (d * r + t)) * (r + (d * r + t)) < s * s) by (apply Rmult_le_0_lt_compat; lra).
    assert (D2 : 0 <= d * r * (d * r)) by (apply Rmult_le_pos; lra).
    replace ((r + (d * r + t)) * (r + (d * r + t))) with (r * r + 2 * (d * r * r) + d * r * (d * r) + 2 * (r * t) + 2 * (d * r * t) + t * t) in X by ring. lra.
Qed.
