(** * RealFacts: the formulas in exact arithmetic (instance [ER]). *)
From Coq Require Import Reals Lra Lia List ZArith Bool.
From Verif Require Import Num Series Formulas ER.
Import ListNotations.
Local Open Scope R_scope.

Definition rsum (l : list R) : R := fold_right Rplus 0 l.
Definition rmean (l : list R) : R := rsum l / INR (length l).
Definition rvar (l : list R) : R := rmean (map (fun x => (x - rmean l) * (x - rmean l)) l).
Definition between (lo hi x : R) : Prop := lo <= x <= hi.

(** ** Arithmetic on finite values *)
Lemma e_sum_from l : forall a, fold_left e_add (map Fin l) (Fin a) = Fin (a + rsum l).
Proof.
  induction l as [|x l IH]; intros a; cbn [map fold_left rsum fold_right]; [f_equal; lra|].
  cbn [e_add]. rewrite IH. f_equal. unfold rsum. lra.
Qed.
Lemma e_sum_fin l : e_sum (map Fin l) = Fin (rsum l).
Proof. unfold e_sum. rewrite e_sum_from. f_equal. lra. Qed.
Lemma e_div_fin x y : y <> 0 -> e_div (Fin x) (Fin y) = Fin (x / y).
Proof. intros H. cbn. destruct (Req_EM_T y 0); [easy|reflexivity]. Qed.
Lemma INR_pos n : (1 <= n)%nat -> 0 < INR n.
Proof. intros H. apply lt_0_INR. lia. Qed.
Lemma e_mean_fin l : l <> [] -> e_mean (map Fin l) = Fin (rmean l).
Proof.
  intros H. unfold e_mean, rmean. rewrite e_sum_fin, map_length. apply e_div_fin.
  assert (0 < INR (length l)) by (apply INR_pos; destruct l; [easy|cbn [length]; lia]). lra.
Qed.
Lemma fvar_fin (l : list R) : l <> [] -> fvar (map Fin l) = Fin (rvar l).
Proof.
  intros H. unfold fvar. change (@fmean ER) with e_mean. rewrite e_mean_fin by exact H.
  rewrite map_map. cbn.
  rewrite <- (map_map (fun x => (x + - rmean l) * (x + - rmean l)) Fin). rewrite e_mean_fin; [reflexivity|].
  destruct l; [easy|discriminate].
Qed.
Lemma rvar_nonneg l : 0 <= rvar l.
Proof.
  unfold rvar. set (m := rmean l). clearbody m. unfold rmean.
  assert (0 <= rsum (map (fun x => (x - m) * (x - m)) l)).
  { induction l as [|x l IH]; cbn; [lra|]. assert (0 <= (x - m) * (x - m)) by (apply Rle_0_sqr). unfold rsum in IH. lra. }
  destruct l as [|x l]; [cbn; unfold Rdiv; rewrite Rmult_0_l; lra|].
  apply Rmult_le_pos; [assumption|]. rewrite map_length. left. apply Rinv_0_lt_compat, INR_pos. cbn [length]. lia.
Qed.
Lemma sqrt_fvar l : l <> [] -> fsqrt (fvar (map Fin l)) = Fin (sqrt (rvar l)).
Proof.
  intros H. rewrite fvar_fin by exact H. cbn. destruct (Rlt_dec (rvar l) 0) as [L|]; [|reflexivity].
  pose proof (rvar_nonneg l). lra.
Qed.
Lemma firstn_ne {A} p (l : list A) : (1 <= p)%nat -> (p <= length l)%nat -> firstn p l <> [].
Proof. intros H1 H2. destruct p as [|p], l as [|x l]; cbn [length] in *; try lia. discriminate. Qed.
Lemma firstn_Fin p (l : list R) : firstn p (map Fin l) = map Fin (firstn p l).
Proof. apply firstn_map. Qed.

(** ** Averages *)
Lemma rsum_bounds lo hi l : Forall (between lo hi) l -> INR (length l) * lo <= rsum l <= INR (length l) * hi.
Proof.
  induction 1 as [|x l [H1 H2] _ IH]; [cbn; lra|].
  cbn [length rsum fold_right]. rewrite S_INR. unfold rsum in IH. lra.
Qed.
Lemma rmean_bounds lo hi l : l <> [] -> Forall (between lo hi) l -> between lo hi (rmean l).
Proof.
  intros NE H. apply rsum_bounds in H. assert (P : 0 < INR (length l)) by (apply INR_pos; destruct l; [easy|cbn; lia]).
  unfold between, rmean. split.
  - apply Rmult_le_reg_r with (INR (length l)); [exact P|]. unfold Rdiv. rewrite Rmult_assoc, Rinv_l by lra. lra.
  - apply Rmult_le_reg_r with (INR (length l)); [exact P|]. unfold Rdiv. rewrite Rmult_assoc, Rinv_l by lra. lra.
Qed.
Lemma sma_fin p (h : list R) : (1 <= p <= length h)%nat -> sma p (map Fin h) = Fin (rmean (firstn p h)).
Proof.
  intros [H1 H2]. unfold sma. rewrite map_length. destruct (Nat.ltb_spec (length h) p); [lia|].
  rewrite firstn_Fin. change (@fsum ER) with e_sum. rewrite e_sum_fin. unfold rmean.
  rewrite firstn_length, Nat.min_l by lia. rewrite INR_IZR_INZ. apply e_div_fin.
  rewrite <- INR_IZR_INZ. pose proof (INR_pos p H1). lra.
Qed.
Lemma Forall_firstn {A} (P : A -> Prop) n l : Forall P l -> Forall P (firstn n l).
Proof. intros H. rewrite <- (firstn_skipn n l) in H. now apply Forall_app in H as [H _]. Qed.
Lemma sma_bounds p (h : list R) lo hi : (1 <= p <= length h)%nat -> Forall (between lo hi) h ->
  exists m, sma p (map Fin h) = Fin m /\ between lo hi m.
Proof.
  intros Hp H. eexists. split; [now apply sma_fin|]. apply rmean_bounds; [apply firstn_ne; lia|]. now apply Forall_firstn.
Qed.
Lemma ema_bounds p (h : list R) lo hi : (1 <= p <= length h)%nat -> Forall (between lo hi) h ->
  exists e, ema p (map Fin h) = Fin e /\ between lo hi e.
Proof.
  intros Hp H. induction h as [|x h IH]; [cbn [length] in Hp; lia|].
  change (map Fin (x :: h)) with (Fin x :: map Fin h). cbn [ema].
  match goal with |- context [Nat.leb ?n p] => replace n with (length (x :: h)) by (cbn [length]; symmetry; f_equal; apply map_length) end.
  destruct (Nat.leb_spec (length (x :: h)) p) as [L|L].
  - apply (sma_bounds p (x :: h)); auto.
  - inversion H as [|? ? [H1 H2] H3]; subst. cbn [length] in L.
    destruct IH as (e & -> & [E1 E2]); [lia|assumption|]. unfold ema_factor.
    cbn [f_of_D ER d_of_Z ddiv dadd dsub fmul fadd e_mul e_add].
    eexists. split; [reflexivity|]. set (k := 2 / (IZR (Z.of_nat p) + 1)).
    assert (Hk : 0 <= k <= 1).
    { unfold k. rewrite <- INR_IZR_INZ. assert (1 <= INR p) by (apply (le_INR 1 p); lia).
      split.
      - apply Rmult_le_pos; [lra|]. left. apply Rinv_0_lt_compat. lra.
      - apply Rmult_le_reg_r with (INR p + 1); [lra|]. unfold Rdiv. rewrite Rmult_assoc, Rinv_l by lra. lra. }
    clearbody k. unfold between. split; nra.
Qed.
Lemma rma_bounds p (h : list R) lo hi : (1 <= p <= length h)%nat -> Forall (between lo hi) h ->
  exists e, rma p (map Fin h) = Fin e /\ between lo hi e.
Proof.
  intros Hp H. induction h as [|x h IH]; [cbn [length] in Hp; lia|].
  change (map Fin (x :: h)) with (Fin x :: map Fin h). cbn [rma].
  match goal with |- context [Nat.leb ?n p] => replace n with (length (x :: h)) by (cbn [length]; symmetry; f_equal; apply map_length) end.
  destruct (Nat.leb_spec (length (x :: h)) p) as [L|L].
  - apply (sma_bounds p (x :: h)); auto.
  - inversion H as [|? ? [H1 H2] H3]; subst. cbn [length] in L.
    destruct IH as (e & -> & [E1 E2]); [lia|assumption|].
    cbn [f_of_Z ER fmul fadd e_mul e_add fdiv].
    assert (HP : 1 <= IZR (Z.of_nat p)) by (rewrite <- INR_IZR_INZ; apply (le_INR 1 p); lia).
    rewrite e_div_fin by lra. rewrite minus_IZR. eexists. split; [reflexivity|].
    set (q := IZR (Z.of_nat p)) in *. clearbody q. unfold between. split.
    + apply Rmult_le_reg_r with q; [lra|]. unfold Rdiv. rewrite Rmult_assoc, Rinv_l by lra. nra.
    + apply Rmult_le_reg_r with q; [lra|]. unfold Rdiv. rewrite Rmult_assoc, Rinv_l by lra. nra.
Qed.
(** Before [p] numbers are known all of them are 0. *)
Lemma rma_early p (h : list R) : (length h < p)%nat -> rma p (map Fin h) = Fin 0.
Proof.
  intros H. destruct h as [|x h]; [reflexivity|]. change (map Fin (x :: h)) with (Fin x :: map Fin h). cbn [rma].
  match goal with |- context [Nat.leb ?n p] => replace n with (length (x :: h)) by (cbn [length]; symmetry; f_equal; apply map_length) end.
  destruct (Nat.leb_spec (length (x :: h)) p); [|lia]. unfold sma. cbn [length] in *. rewrite map_length.
  destruct (Nat.ltb_spec (S (length h)) p); [reflexivity|lia].
Qed.
Lemma rma_nonneg p (h : list R) : (1 <= p)%nat -> Forall (fun x => 0 <= x) h ->
  exists e, rma p (map Fin h) = Fin e /\ 0 <= e.
Proof.
  intros Hp H. destruct (Nat.lt_ge_cases (length h) p) as [L|L].
  - exists 0. split; [now apply rma_early|lra].
  - assert (exists hi, Forall (between 0 hi) h) as (hi & B).
    { clear L. induction H as [|x h Hx _ (hi & IH)]; [exists 0; constructor|].
      exists (Rmax x hi). constructor; [split; [exact Hx|apply Rmax_l]|]. eapply Forall_impl; [|exact IH].
      intros y [Y1 Y2]. split; [exact Y1|]. eapply Rle_trans; [exact Y2|apply Rmax_r]. }
    destruct (rma_bounds p h 0 hi) as (e & E & B1 & B2); [lia|assumption|]. eauto.
Qed.

(** ** Standard deviation *)
Lemma msd_fin p (h : list R) : (1 <= p <= length h)%nat -> msd p (map Fin h) = Fin (sqrt (rvar (firstn p h))).
Proof.
  intros [H1 H2]. unfold msd. rewrite map_length. destruct (Nat.ltb_spec (length h) p); [lia|].
  rewrite firstn_Fin. apply sqrt_fvar, firstn_ne; lia.
Qed.
Lemma rsum_shift c l : rsum (map (fun x => x + c) l) = rsum l + INR (length l) * c.
Proof.
  induction l as [|x l IH]; [cbn; lra|]. cbn [map length]. rewrite S_INR. cbn [rsum fold_right] in *. unfold rsum in *. rewrite IH. lra.
Qed.
Lemma rmean_shift c l : l <> [] -> rmean (map (fun x => x + c) l) = rmean l + c.
Proof.
  intros H. unfold rmean. rewrite map_length, rsum_shift. field.
  assert (0 < INR (length l)) by (apply INR_pos; destruct l; [easy|cbn; lia]). lra.
Qed.
Lemma rvar_shift c l : rvar (map (fun x => x + c) l) = rvar l.
Proof.
  destruct l as [|y l]; [reflexivity|]. set (l' := y :: l) in *.
  unfold rvar. rewrite rmean_shift by (subst l'; discriminate). rewrite map_map. f_equal. apply map_ext. intros x. ring.
Qed.
Lemma rsum_zero l : Forall (fun x => 0 <= x) l -> rsum l = 0 -> Forall (fun x => x = 0) l.
Proof.
  induction 1 as [|x l Hx Hl IH]; intros E; [constructor|].
  assert (0 <= rsum l).
  { clear -Hl. induction Hl as [|y l Hy _ IH]; cbn; [lra|]. unfold rsum in IH. lra. }
  cbn [rsum fold_right] in E. fold (rsum l) in E. constructor; [lra|]. apply IH. lra.
Qed.
(** The deviation is 0 exactly on constant lists. *)
Definition constant (l : list R) : Prop := forall x y, In x l -> In y l -> x = y.
Lemma rmean_constant l c : l <> [] -> (forall x, In x l -> x = c) -> rmean l = c.
Proof.
  intros NE H. assert (B : Forall (between c c) l) by (apply Forall_forall; intros x Hx; rewrite (H x Hx); split; lra).
  destruct (rmean_bounds c c l NE B). lra.
Qed.
Lemma rvar_zero l : l <> [] -> (rvar l = 0 <-> constant l).
Proof.
  intros NE. assert (P : 0 < INR (length l)) by (apply INR_pos; destruct l; [easy|cbn; lia]). split.
  - intros E. unfold rvar in E. set (m := rmean l) in *. clearbody m. unfold rmean in E. rewrite map_length in E.
    assert (E' : rsum (map (fun x => (x - m) * (x - m)) l) = 0).
    { apply Rmult_eq_reg_r with (/ INR (length l)); [|apply Rinv_neq_0_compat; lra]. unfold Rdiv in E. rewrite E. ring. }
    apply rsum_zero in E'; [|apply Forall_map, Forall_forall; intros x _; apply Rle_0_sqr].
    rewrite Forall_map, Forall_forall in E'.
    assert (K : forall x, In x l -> x = m).
    { intros x Hx. specialize (E' x Hx). cbn in E'. apply Rmult_integral in E' as [E'|E']; lra. }
    intros x y Hx Hy. rewrite (K x Hx), (K y Hy). reflexivity.
  - intros C. destruct l as [|c l]; [easy|].
    assert (M : rmean (c :: l) = c) by (apply rmean_constant; [discriminate|]; intros x Hx; apply C; [exact Hx|now left]).
    unfold rvar. rewrite M. apply rmean_constant; [discriminate|].
    intros z Hz. apply in_map_iff in Hz as (x & <- & Hx). rewrite (C x c Hx (or_introl eq_refl)). ring.
Qed.
