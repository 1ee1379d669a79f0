(** * SteadyIndex: small errors stay small (C67), the relative strength index; and an operator for which they do not. *)
From Coq Require Import Reals Lra List ZArith Bool Lia.
From Verif Require Import Num Py Tensor Streamable Common Finance Series Formulas Positions ER MovingFacts Linear RealFacts RealStats RealMarket RealLinear RealScale RealScale2 NormFacts
  ImplBasic ImplComp ImplScalar ImplWindow ImplMarket MarketReal Accuracy AccuracyMain AccuracyMarket Index AccuracyIndex Compound Order OrderFacts Steady SteadyFacts SteadyMarket.
Import ListNotations.
Local Open Scope R_scope.

Lemma changes_off e u v : off e u v -> off (2 * e) (rchanges u) (rchanges v).
Proof.
  revert v. induction u as [|x u IH]; intros [|y v] O; [split; [reflexivity|cbn; lia]|destruct O; discriminate..|]. destruct (off_tail _ _ _ _ _ O) as [O1 O2].
  destruct u as [|a u], v as [|b v]; [split; [reflexivity|cbn; lia]|destruct O2; discriminate..|]. destruct (off_tail _ _ _ _ _ O2) as [O3 _]. destruct (IH _ O2) as [L I].
  cbn [rchanges] in *. split; [cbn [length] in *; lia|]. intros [|i] Hi; cbn [nth].
  - replace (2 * e) with (e + e) by ring. now apply diff_lip.
  - apply I. cbn [length] in Hi. lia.
Qed.
Lemma up_by x y : Rabs (up x - up y) <= Rabs (x - y).
Proof. unfold up, Rmax, Rabs. repeat (destruct (Rle_dec _ _) || destruct (Rcase_abs _)); lra. Qed.
Lemma dn_by x y : Rabs (dn x - dn y) <= Rabs (x - y).
Proof. unfold dn, Rmax, Rabs. repeat (destruct (Rle_dec _ _) || destruct (Rcase_abs _)); lra. Qed.
Lemma map_off w e u v : (forall x y, Rabs (w x - w y) <= Rabs (x - y)) -> off e u v -> off e (map w u) (map w v).
Proof.
  intros Hw. revert v. induction u as [|x u IH]; intros [|y v] O; [split; [reflexivity|cbn; lia]|destruct O; discriminate..|]. destruct (off_tail _ _ _ _ _ O) as [O1 O2].
  destruct (IH v O2) as [L I]. cbn [map]. split; [cbn [length]; lia|]. intros [|i] Hi; cbn [nth]; [eapply Rle_trans; [apply Hw|exact O1]|]. apply I. cbn [length] in Hi. lia.
Qed.
Lemma upto_off e xs ys n : Forall2 (by_at_most e) xs ys -> off e (upto n xs) (upto n ys).
Proof.
  intros A. apply near_off. unfold upto. assert (K : forall u v : list R, Forall2 (by_at_most e) u v -> Forall2 (by_at_most e) (rev u) (rev v)).
  { induction 1; [constructor|]. cbn [rev]. apply Forall2_app; [assumption|now constructor]. }
  apply K. clear K. revert ys A. generalize (S n). intros m ys A. revert m. induction A as [|x y xs ys H A IH]; intros [|m]; cbn [firstn]; constructor; auto.
Qed.
Theorem rsi_steady p e xs ys : (1 <= p)%nat -> 0 <= e -> xs <> [] -> short xs -> Forall2 (by_at_most e) xs ys ->
  exists (ox oy : list ext) sx ix sy iy,
    call (@RelativeStrengthIndex ER (Z.of_nat p)) (reals xs) None true = Ok (@scalars ER ox, sx, ix) /\
    call (@RelativeStrengthIndex ER (Z.of_nat p)) (reals ys) None true = Ok (@scalars ER oy, sy, iy) /\
    length ox = length xs /\ length oy = length xs /\
    forall n, (p <= n < length xs)%nat -> 0 < average_move p (upto n xs) -> 8 * e <= average_move p (upto n xs) ->
      exists a b, nth n ox (Fin 0) = Fin a /\ nth n oy (Fin 0) = Fin b /\ Rabs (a - b) <= 400 * e / average_move p (upto n xs).
Proof.
  intros Hp He NE Sh A. assert (L := Forall2_length' _ _ _ A). destruct (@rsi_streams ER p Hp) as (st & H & _).
  assert (Q : forall zs, zs <> [] -> short zs -> call (@RelativeStrengthIndex ER (Z.of_nat p)) (reals zs) None true =
    Ok (@scalars ER (map (fun h => @rsi ER p (map Fin h)) (hists [] zs)), st (rev (map Fin zs)), st [])).
  { intros zs NZ SZ. unfold reals. rewrite H; [|intros E0; apply NZ; now apply map_eq_nil in E0|unfold short in *; now rewrite rev_length, map_length].
    pose proof (hists_map Fin zs []) as X. cbn [map] in X. change (@F ER) with ext. rewrite X, map_map. reflexivity. }
  do 6 eexists. split; [now apply Q|]. split; [apply Q; [intros E0; apply NE; apply length_zero_iff_nil; now rewrite L, E0|unfold short in *; now rewrite <- L]|].
  split; [now rewrite map_length, hists_length|]. split; [rewrite map_length, hists_length; now symmetry|]. intros n Hn P B.
  rewrite !nth_map_hists by lia. assert (O := upto_off e xs ys n A). set (h := upto n xs) in *. set (k := upto n ys) in *.
  assert (Lh : (p < length h)%nat) by (unfold h, upto; rewrite rev_length, firstn_length; lia). assert (Lk : (p < length k)%nat) by (destruct O as [L1 _]; rewrite <- L1; exact Lh).
  assert (C := changes_off e h k O). assert (U := map_off up _ _ _ up_by C). assert (D := map_off dn _ _ _ dn_by C).
  assert (U' := rrma_steady p Hp (2 * e) _ _ ltac:(lra) U). assert (D' := rrma_steady p Hp (2 * e) _ _ ltac:(lra) D). rewrite Rmult_1_l in U', D'.
  assert (S1 := average_split p (rchanges h)). assert (S2 := average_split p (rchanges k)). fold (average_move p h) in S1. fold (average_move p k) in S2.
  rewrite Rabs_minus_sym in U', D'.
  destruct (ratio_lip _ _ _ _ (2 * e) (rrma_up_nonneg p up (rchanges h) Hp up_ge) (rrma_up_nonneg p dn (rchanges h) Hp dn_ge)
     (rrma_up_nonneg p up (rchanges k) Hp up_ge) (rrma_up_nonneg p dn (rchanges k) Hp dn_ge) U' D') as [P' R]; [lra|lra|].
  do 2 eexists. split; [now apply rsi_exact|]. split; [apply rsi_exact; [exact Hp|exact Lk|lra]|]. rewrite Rabs_minus_sym, S1.
  replace (400 * e / (rrma p (map up (rchanges h)) + rrma p (map dn (rchanges h)))) with (200 * (2 * e) / (rrma p (map up (rchanges h)) + rrma p (map dn (rchanges h)))) by (field; lra). exact R.
Qed.
Lemma reals_ok u v (s i s' i' : @val ER) : Ok (reals u, s, i) = Ok (reals v, s', i') -> u = v.
Proof.
  intros E. unfold reals, scalars in E. injection E as _ E _ _. revert v E. induction u as [|x u IH]; intros [|y v] E; try discriminate; [reflexivity|].
  cbn [map] in E. injection E as -> E. now rewrite (IH v E).
Qed.
(** Without a lower bound on prices, no factor bounds the error of a return. *)
Theorem return_not_steady K : ~ steady_on (@Return ER 1) (fun x => 0 < x) by_at_most reals (fun e => by_at_most (K * e)) reals.
Proof.
  intros S. set (d := / (4 * (1 + Rabs K))). assert (PK := Rabs_pos K). assert (D : 0 < d) by (apply Rinv_0_lt_compat; lra).
  destruct (S d [d; 1] [2 * d; 1]) as (ox & oy & sx & ix & sy & iy & E1 & E2 & L & A).
  - lra.
  - discriminate.
  - reflexivity.
  - repeat constructor; lra.
  - repeat constructor; lra.
  - repeat constructor; unfold by_at_most; [replace (d - 2 * d) with (- d) by ring; rewrite Rabs_Ropp, Rabs_right; lra|rewrite Rminus_eq_0, Rabs_R0; lra].
  - destruct (return_reals [d; 1] 1 (le_n 1)) as (s1 & i1 & F1); [discriminate|unfold short; cbn; lia|repeat constructor; lra|].
    destruct (return_reals [2 * d; 1] 1 (le_n 1)) as (s2 & i2 & F2); [discriminate|unfold short; cbn; lia|repeat constructor; lra|].
    change (Z.of_nat 1) with 1%Z in F1, F2.
    rewrite F1 in E1. rewrite F2 in E2. apply reals_ok in E1, E2. subst ox oy. cbn in A. unfold change_at in A. cbn in A.
    inversion A as [|? ? ? ? _ A2]; subst. inversion A2 as [|? ? ? ? A3 _]; subst. unfold by_at_most in A3.
    replace (1 / d - 1 - (1 / (2 * d) - 1)) with (/ d / 2) in A3 by (field; lra).
    assert (I : / d = 4 * (1 + Rabs K)) by (unfold d; now rewrite Rinv_inv). rewrite I, Rabs_right in A3 by lra.
    assert (Kd : K * d <= 1). { apply (Rle_trans _ (Rabs K * d)); [apply Rmult_le_compat_r; [lra|apply Rle_abs]|]. apply (Rmult_le_reg_r (/ d)); [rewrite I; lra|]. rewrite Rmult_assoc, Rinv_r, I by lra. lra. }
    lra.
Qed.
