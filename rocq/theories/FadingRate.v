(** * FadingRate: how fast the averages forget (C83). *)
From Coq Require Import Reals Lra List ZArith Bool Lia.
From Verif Require Import Num Py Tensor Streamable Common Finance Series Formulas Positions ER Linear RealFacts RealMarket RealLinear MarketReal Steady
  Agree AgreeFacts Halt HaltFacts HaltMarket Fading FadingFacts.
Import ListNotations.
Local Open Scope R_scope.

Lemma pow_exp q a k : 0 <= q <= exp a -> q ^ k <= exp (INR k * a).
Proof.
  intros H. induction k as [|k IH]; [cbn; rewrite Rmult_0_l, exp_0; lra|]. rewrite S_INR. replace ((INR k + 1) * a) with (a + INR k * a) by ring. rewrite exp_plus. cbn [pow].
  apply Rmult_le_compat; [apply H|apply pow_le, H|apply H|exact IH].
Qed.
Lemma rate_from g (p : nat) q a : 0 <= q <= exp a ->
  (forall z h h', (p <= length h)%nat -> (p <= length h')%nat -> g (z ++ h) - g (z ++ h') = q ^ length z * (g h - g h')) ->
  (forall M h, 0 <= M -> bounded M h -> Rabs (g h) <= M) ->
  forall M xs ys zs n, bounded M (xs ++ zs) -> bounded M (ys ++ zs) -> (p <= n + 1)%nat -> (n < length zs)%nat ->
  Rabs (at_pos (run g (xs ++ zs)) (length xs + n) - at_pos (run g (ys ++ zs)) (length ys + n)) <= 2 * M * exp (INR (n + 1 - p) * a).
Proof.
  intros Q F B M xs ys zs n Bx By Lp Ln. rewrite !run_at by (rewrite app_length; lia). rewrite !upto_app by exact Ln.
  apply Forall_app in Bx as [Bx Bz], By as [By _]. assert (HM : 0 <= M). { destruct Bz as [|x l Hx _]; [cbn in Ln; lia|]. assert (P := Rabs_pos x). lra. }
  assert (Bu := bounded_upto M n zs Bz). assert (Lu := upto_length n zs Ln). set (u := upto n zs) in *. set (k := (n + 1 - p)%nat).
  rewrite <- (firstn_skipn k u), <- !app_assoc. assert (Bs : bounded M (skipn k u)) by (rewrite <- (firstn_skipn k u) in Bu; now apply Forall_app in Bu).
  assert (Ls : length (skipn k u) = p) by (rewrite skipn_length; unfold k; lia). assert (Lf : length (firstn k u) = k) by (rewrite firstn_length; unfold k; lia).
  rewrite F by (rewrite app_length; lia). rewrite Lf, Rabs_mult, Rabs_right by (apply Rle_ge, pow_le, Q). rewrite Rmult_comm. apply Rmult_le_compat; [apply Rabs_pos|apply pow_le, Q| |now apply pow_exp].
  eapply Rle_trans; [apply Rabs_triang|]. rewrite Rabs_Ropp. replace (2 * M) with (M + M) by ring. apply Rplus_le_compat; (apply B; [exact HM|]); apply Forall_app; (split; [exact Bs|now apply Forall_rev]).
Qed.
Theorem averages_rate p M xs ys zs : (1 <= p)%nat -> bounded M (xs ++ zs) -> bounded M (ys ++ zs) -> countable (xs ++ zs) -> countable (ys ++ zs) ->
  exists ema ema' rma rma', outputs (ExponentialMovingAverage (Z.of_nat p)) (xs ++ zs) ema /\ outputs (ExponentialMovingAverage (Z.of_nat p)) (ys ++ zs) ema' /\
    outputs (RollingMovingAverage (Z.of_nat p)) (xs ++ zs) rma /\ outputs (RollingMovingAverage (Z.of_nat p)) (ys ++ zs) rma' /\
    forall n, (p <= n + 1)%nat -> (n < length zs)%nat ->
      Rabs (at_pos ema (length xs + n) - at_pos ema' (length ys + n)) <= 2 * M * exp (- (2 * INR (n + 1 - p) / (INR p + 1))) /\
      Rabs (at_pos rma (length xs + n) - at_pos rma' (length ys + n)) <= 2 * M * exp (- (INR (n + 1 - p) / INR p)).
Proof.
  intros Hp Bx By Cx Cy. exists (run (rema p) (xs ++ zs)), (run (rema p) (ys ++ zs)), (run (rrma p) (xs ++ zs)), (run (rrma p) (ys ++ zs)).
  split; [exact (ema_outputs _ Cx p Hp)|]. split; [exact (ema_outputs _ Cy p Hp)|]. split; [exact (rma_outputs _ Cx p Hp)|]. split; [exact (rma_outputs _ Cy p Hp)|].
  clear Cx Cy. assert (P : 1 <= INR p) by (apply (le_INR 1); lia). intros n Lp Ln. split.
  - replace (- (2 * INR (n + 1 - p) / (INR p + 1))) with (INR (n + 1 - p) * - (2 / (INR p + 1))) by (field; lra).
    apply (rate_from (rema p) p (keep_ema p)); [|intros; now apply rema_fade|intros; now apply ema_bounded|exact Bx|exact By|exact Lp|exact Ln].
    split; [now apply keep_ema_range|]. eapply Rle_trans; [|apply exp_ineq1_le]. unfold keep_ema. right. field. lra.
  - replace (- (INR (n + 1 - p) / INR p)) with (INR (n + 1 - p) * - (1 / INR p)) by (field; lra).
    apply (rate_from (rrma p) p (keep_rma p)); [|intros; now apply rrma_fade|intros; now apply rma_bounded|exact Bx|exact By|exact Lp|exact Ln].
    split; [now apply keep_rma_range|]. eapply Rle_trans; [|apply exp_ineq1_le]. unfold keep_rma. right. field. lra.
Qed.
