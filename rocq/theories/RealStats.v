(** * RealStats: deviation, bands, skewness and correlation in exact arithmetic. *)
From Coq Require Import Reals Lra Lia List ZArith Bool Psatz.
From Verif Require Import Num Series Formulas ER RealFacts.
Import ListNotations.
Local Open Scope R_scope.

(** ** Standard deviation *)
Lemma msd_early p (h : list R) : (length h < p)%nat -> msd p (map Fin h) = Fin 0.
Proof. intros H. unfold msd. rewrite map_length. destruct (Nat.ltb_spec (length h) p); [reflexivity|lia]. Qed.
Lemma msd_nonneg p (h : list R) : (1 <= p)%nat -> exists s, msd p (map Fin h) = Fin s /\ 0 <= s.
Proof.
  intros Hp. destruct (Nat.lt_ge_cases (length h) p) as [L|L].
  - exists 0. split; [now apply msd_early|lra].
  - eexists. split; [apply msd_fin; lia|apply sqrt_pos].
Qed.
Lemma msd_zero p (h : list R) : (1 <= p <= length h)%nat ->
  (msd p (map Fin h) = Fin 0 <-> constant (firstn p h)).
Proof.
  intros H. rewrite msd_fin by exact H. rewrite <- rvar_zero by (apply firstn_ne; lia). split.
  - intros E. injection E as E. apply sqrt_eq_0; [apply rvar_nonneg|exact E].
  - intros E. rewrite E, sqrt_0. reflexivity.
Qed.
Lemma msd_shift p c (h : list R) : (1 <= p)%nat ->
  msd p (map Fin (map (fun x => x + c) h)) = msd p (map Fin h).
Proof.
  intros Hp. destruct (Nat.lt_ge_cases (length h) p) as [L|L].
  - rewrite !msd_early; [reflexivity|exact L|now rewrite map_length].
  - rewrite !msd_fin; [|lia|rewrite map_length; lia]. rewrite firstn_map, rvar_shift. reflexivity.
Qed.
Lemma sma_finite p (h : list R) : (1 <= p)%nat -> exists m, sma p (map Fin h) = Fin m.
Proof.
  intros Hp. destruct (Nat.lt_ge_cases (length h) p) as [L|L].
  - exists 0. unfold sma. rewrite map_length. destruct (Nat.ltb_spec (length h) p); [reflexivity|lia].
  - eexists. apply sma_fin. lia.
Qed.
Lemma bands p (k : R) (h : list R) : (1 <= p)%nat -> 0 <= k ->
  exists l m u,
    fsub (sma p (map Fin h)) (fmul (msd p (map Fin h)) (Fin k)) = Fin l /\
    sma p (map Fin h) = Fin m /\
    fadd (sma p (map Fin h)) (fmul (msd p (map Fin h)) (Fin k)) = Fin u /\ l <= m <= u.
Proof.
  intros Hp Hk. destruct (sma_finite p h Hp) as (m & ->), (msd_nonneg p h Hp) as (s & -> & Hs).
  exists (m - s * k), m, (m + s * k). cbn. split; [reflexivity|]. split; [reflexivity|]. split; [reflexivity|].
  assert (0 <= s * k) by nra. lra.
Qed.

(** ** Skewness *)
Lemma rsum_plus {A} (f g : A -> R) l : rsum (map (fun x => f x + g x) l) = rsum (map f l) + rsum (map g l).
Proof. induction l as [|x l IH]; cbn; [lra|]. unfold rsum in IH. rewrite IH. lra. Qed.
Lemma rsum_scale {A} c (f : A -> R) l : rsum (map (fun x => c * f x) l) = c * rsum (map f l).
Proof. induction l as [|x l IH]; cbn; [lra|]. unfold rsum in IH. rewrite IH. lra. Qed.
Lemma rsum_const {A} c (l : list A) : rsum (map (fun _ => c) l) = INR (length l) * c.
Proof. induction l as [|x l IH]; [cbn; lra|]. cbn [map length]. rewrite S_INR. cbn [rsum fold_right]. fold (rsum (map (fun _ : A => c) l)). rewrite IH. lra. Qed.
Lemma rmean_plus {A} (f g : A -> R) l : rmean (map (fun x => f x + g x) l) = rmean (map f l) + rmean (map g l).
Proof. unfold rmean. rewrite !map_length, rsum_plus. unfold Rdiv. ring. Qed.
Lemma rmean_scale {A} c (f : A -> R) l : rmean (map (fun x => c * f x) l) = c * rmean (map f l).
Proof. unfold rmean. rewrite !map_length, rsum_scale. unfold Rdiv. ring. Qed.
Lemma rmean_const {A} c (l : list A) : l <> [] -> rmean (map (fun _ => c) l) = c.
Proof.
  intros H. unfold rmean. rewrite map_length, rsum_const. field.
  assert (0 < INR (length l)) by (apply INR_pos; destruct l; [easy|cbn; lia]). lra.
Qed.
Lemma rvar_moments l : l <> [] -> rvar l = rmean (map (fun x => x * x) l) - rmean l * rmean l.
Proof.
  intros H. unfold rvar. set (m := rmean l).
  assert (E : map (fun x => (x - m) * (x - m)) l = map (fun x => (x * x + (- 2 * m) * x) + m * m) l)
    by (apply map_ext; intros; ring).
  rewrite E, rmean_plus, rmean_plus, rmean_const by exact H. rewrite (rmean_scale (- 2 * m) (fun x => x)), map_id.
  fold m. ring.
Qed.
(** Third central moment. *)
Definition third_moment (l : list R) : R := rmean (map (fun x => (x - rmean l) ^ 3) l).
Lemma third_moments l : l <> [] ->
  third_moment l = rmean (map (fun x => x ^ 3) l) - 3 * rmean l * rvar l - rmean l ^ 3.
Proof.
  intros H. rewrite rvar_moments by exact H. unfold third_moment. set (m := rmean l).
  assert (E : map (fun x => (x - m) ^ 3) l =
              map (fun x => ((x ^ 3 + (- 3 * m) * (x * x)) + (3 * m * m) * x) + - m ^ 3) l)
    by (apply map_ext; intros; ring).
  rewrite E, 3!rmean_plus, rmean_const by exact H.
  rewrite (rmean_scale (- 3 * m) (fun x => x * x)), (rmean_scale (3 * m * m) (fun x => x)), map_id. fold m. ring.
Qed.
Lemma skew_fin (w : list R) : w <> [] ->
  skew_of (map Fin w) = Fin (if Req_EM_T (sqrt (rvar w)) 0 then 0 else third_moment w / sqrt (rvar w) ^ 3).
Proof.
  intros H. unfold skew_of. change (@fmean ER) with e_mean. rewrite sqrt_fvar, e_mean_fin by exact H.
  cbn [feq ER f0 f_of_Z fpow fmul fsub fdiv]. unfold e_eq, Reqb, f0, f_of_Z. cbn [ER].
  destruct (Req_EM_T (sqrt (rvar w)) 0) as [E|E]; [reflexivity|].
  rewrite map_map. cbn [e_pow]. 
  rewrite <- (map_map (fun x => x ^ Z.to_nat 3) Fin), e_mean_fin by (destruct w; [easy|discriminate]).
  cbn [e_mul e_sub e_add e_neg]. rewrite e_div_fin; [|apply pow_nonzero, E].
  f_equal. f_equal. rewrite third_moments by exact H.
  change (Z.to_nat 3) with 3%nat. change (Z.to_nat 2) with 2%nat. 
  replace (sqrt (rvar w) ^ 2) with (rvar w); [ring|].
  cbn [pow]. rewrite Rmult_1_r, sqrt_sqrt; [reflexivity|apply rvar_nonneg].
Qed.
Lemma sqrt_var_zero w : w <> [] -> (sqrt (rvar w) = 0 <-> constant w).
Proof.
  intros H. rewrite <- rvar_zero by exact H. split; [apply sqrt_eq_0, rvar_nonneg|]. intros ->. apply sqrt_0.
Qed.

(** ** Correlation *)
Definition dot (u v : list R) : R := rsum (map (fun xy => fst xy * snd xy) (combine u v)).
Lemma dot_nonneg u : 0 <= dot u u.
Proof.
  unfold dot. induction u as [|x u IH]; cbn; [lra|]. unfold rsum in IH. pose proof (Rle_0_sqr x). unfold Rsqr in *. lra.
Qed.
(** Cauchy-Schwarz. *)
Lemma dot_quad t : forall u v, length u = length v ->
  dot (map (fun xy => fst xy + t * snd xy) (combine u v)) (map (fun xy => fst xy + t * snd xy) (combine u v)) =
  dot u u + 2 * t * dot u v + t * t * dot v v.
Proof.
  unfold dot. induction u as [|x u IH]; intros [|y v] L; try discriminate; [cbn; ring|].
  cbn [combine map rsum fold_right fst snd]. cbn [length] in L. injection L as L. specialize (IH v L). 
  unfold rsum in IH. rewrite IH. ring.
Qed.
Lemma cauchy u v : length u = length v -> dot u v * dot u v <= dot u u * dot v v.
Proof.
  intros L. pose proof (dot_nonneg u) as U. pose proof (dot_nonneg v) as V.
  destruct (Req_EM_T (dot v v) 0) as [E|E].
  - rewrite E, Rmult_0_r. destruct (Req_EM_T (dot u v) 0) as [Z|Z]; [rewrite Z; lra|].
    exfalso. set (t := - (dot u u + 1) / (2 * dot u v)).
    pose proof (dot_nonneg (map (fun xy => fst xy + t * snd xy) (combine u v))) as H.
    rewrite dot_quad in H by exact L. rewrite E, Rmult_0_r, Rplus_0_r in H.
    assert (2 * t * dot u v = - (dot u u + 1)) by (unfold t; field; exact Z). lra.
  - set (t := - dot u v / dot v v).
    pose proof (dot_nonneg (map (fun xy => fst xy + t * snd xy) (combine u v))) as H.
    rewrite dot_quad in H by exact L.
    assert (T : t * dot v v = - dot u v) by (unfold t; field; exact E).
    assert (H' : 0 <= dot u u + t * dot u v) by nra.
    assert (0 < dot v v) by lra.
    assert (0 <= (dot u u + t * dot u v) * dot v v) by nra. nra.
Qed.
Definition rcov (u v : list R) : R :=
  rmean (map (fun xy => (fst xy - rmean u) * (snd xy - rmean v)) (combine u v)).
Definition centred (u : list R) : list R := map (fun x => x - rmean u) u.
Lemma combine_map_both {A B C E} (f : A -> C) (g : B -> E) : forall u v,
  combine (map f u) (map g v) = map (fun xy => (f (fst xy), g (snd xy))) (combine u v).
Proof. induction u as [|x u IH]; intros [|y v]; cbn; [reflexivity..|]. now rewrite IH. Qed.
Lemma rcov_dot u v : length u = length v -> rcov u v = dot (centred u) (centred v) / INR (length u).
Proof.
  intros L. unfold rcov, dot, centred. rewrite combine_map_both, map_map. unfold rmean at 1.
  rewrite map_length, combine_length, <- L, Nat.min_id. reflexivity.
Qed.
Lemma combine_same {A} (u : list A) : combine u u = map (fun x => (x, x)) u.
Proof. induction u as [|x u IH]; cbn; [reflexivity|]. now rewrite IH. Qed.
Lemma rvar_dot u : rvar u = dot (centred u) (centred u) / INR (length u).
Proof.
  unfold rvar, dot, centred. set (m := rmean u). unfold rmean. rewrite combine_same, !map_map, map_length. reflexivity.
Qed.
Lemma cov_bound u v : u <> [] -> length u = length v -> rcov u v * rcov u v <= rvar u * rvar v.
Proof.
  intros NE L. rewrite rcov_dot, !rvar_dot by exact L. rewrite <- L.
  assert (C : dot (centred u) (centred v) * dot (centred u) (centred v) <= dot (centred u) (centred u) * dot (centred v) (centred v))
    by (apply cauchy; unfold centred; rewrite !map_length; exact L).
  assert (P : 0 < INR (length u)) by (apply INR_pos; destruct u; [easy|cbn; lia]).
  set (n := INR (length u)) in *. assert (I : 0 < / n) by (apply Rinv_0_lt_compat; exact P).
  unfold Rdiv. replace (dot (centred u) (centred v) * / n * (dot (centred u) (centred v) * / n))
    with (dot (centred u) (centred v) * dot (centred u) (centred v) * (/ n * / n)) by ring.
  replace (dot (centred u) (centred u) * / n * (dot (centred v) (centred v) * / n))
    with (dot (centred u) (centred u) * dot (centred v) (centred v) * (/ n * / n)) by ring.
  apply Rmult_le_compat_r; [|exact C]. assert (0 < / n * / n) by (apply Rmult_lt_0_compat; exact I). lra.
Qed.
Lemma covariance_fin (u v : list R) : u <> [] -> length u = length v ->
  covariance (map Fin u) (map Fin v) = Fin (rcov u v).
Proof.
  intros H L. assert (V : v <> []) by (intros ->; destruct u; [easy|discriminate]).
  unfold covariance. change (@fmean ER) with e_mean. rewrite !e_mean_fin by assumption.
  change (@F ER) with ext. rewrite (combine_map_both Fin Fin), map_map. cbn.
  rewrite <- (map_map (fun xy => (fst xy + - rmean u) * (snd xy + - rmean v)) Fin).
  rewrite e_mean_fin; [reflexivity|]. destruct u, v; easy.
Qed.
Lemma sq_le_abs x y : 0 <= y -> x * x <= y * y -> - y <= x <= y.
Proof. intros Hy H. split; nra. Qed.
Lemma cov_const u v : u <> [] -> length u = length v -> rvar u * rvar v = 0 -> rcov u v = 0.
Proof. intros H L E. pose proof (cov_bound u v H L) as B. rewrite E in B. nra. Qed.
Lemma corr_fin (u v : list R) : u <> [] -> length u = length v ->
  (corr_of (map Fin u) (map Fin v) = NaN /\ (constant u \/ constant v)) \/
  (exists r, corr_of (map Fin u) (map Fin v) = Fin r /\ -1 <= r <= 1 /\
     r = rcov u v / (sqrt (rvar u) * sqrt (rvar v)) /\ ~ constant u /\ ~ constant v).
Proof.
  intros H L. assert (V : v <> []) by (intros ->; destruct u; [easy|discriminate]).
  unfold corr_of. rewrite covariance_fin, !sqrt_fvar by assumption. cbn [fdiv fmul ER e_mul].
  destruct (Req_EM_T (sqrt (rvar u) * sqrt (rvar v)) 0) as [E|E].
  - left. unfold e_div. destruct (Req_EM_T _ 0) as [_|?]; [|easy].
    rewrite cov_const; [|assumption..|].
    + unfold inf_of. destruct (Rlt_dec 0 0); [lra|]. split; [reflexivity|].
      apply Rmult_integral in E as [E|E]; [left|right]; now apply sqrt_var_zero.
    + apply Rmult_integral in E as [E|E]; apply sqrt_eq_0 in E; try apply rvar_nonneg; rewrite E; ring.
  - right. rewrite e_div_fin by exact E. eexists. split; [reflexivity|]. split; [|split; [reflexivity|split]].
    + assert (P : 0 < sqrt (rvar u) * sqrt (rvar v)).
      { assert (0 <= sqrt (rvar u) * sqrt (rvar v)) by (apply Rmult_le_pos; apply sqrt_pos). lra. }
      assert (B : - (sqrt (rvar u) * sqrt (rvar v)) <= rcov u v <= sqrt (rvar u) * sqrt (rvar v)).
      { apply sq_le_abs; [lra|].
        replace (sqrt (rvar u) * sqrt (rvar v) * (sqrt (rvar u) * sqrt (rvar v))) with
          ((sqrt (rvar u) * sqrt (rvar u)) * (sqrt (rvar v) * sqrt (rvar v))) by ring.
        rewrite !sqrt_sqrt by apply rvar_nonneg. now apply cov_bound. }
      set (q := sqrt (rvar u) * sqrt (rvar v)) in *. set (c := rcov u v) in *. clearbody q c.
      split; (apply Rmult_le_reg_r with q; [exact P|]); unfold Rdiv; rewrite Rmult_assoc, Rinv_l by lra; lra.
    + intros C. apply E. apply sqrt_var_zero in C; [|exact H]. rewrite C. ring.
    + intros C. apply E. apply sqrt_var_zero in C; [|exact V]. rewrite C. ring.
Qed.
