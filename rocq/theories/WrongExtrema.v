(** * WrongExtrema: what one wrong number does to the extrema (C84). *)
From Coq Require Import Reals Lra List ZArith Bool Lia.
From Verif Require Import Num Py Tensor Streamable Common Finance Series Formulas Positions ER Linear RealFacts RealStats RealMarket RealLinear
  Steady Agree AgreeFacts Halt HaltFacts HaltMarket SwappedFacts Fading FadingFacts Wrong WrongFacts.
Import ListNotations.
Local Open Scope R_scope.

Lemma high_wrong hi hi' z x e h : is_high hi -> is_high hi' -> 0 <= e -> hi' (z ++ (x + e) :: h) = Rmax (hi (z ++ x :: h)) (x + e).
Proof.
  intros A B E. destruct (A (z ++ x :: h)) as [A1 A2]; [intros Q; now destruct z|]. destruct (B (z ++ (x + e) :: h)) as [B1 B2]; [intros Q; now destruct z|]. apply Rle_antisym.
  - apply in_app_or in B1. destruct B1 as [Q|[Q|Q]]; [|rewrite <- Q; apply Rmax_r|]; (eapply Rle_trans; [|apply Rmax_l]; apply A2, in_or_app; cbn; tauto).
  - apply Rmax_lub; [|apply B2, in_or_app; cbn; tauto]. apply in_app_or in A1. destruct A1 as [Q|[Q|Q]]; [apply B2, in_or_app; tauto| |apply B2, in_or_app; cbn; tauto].
    rewrite <- Q. apply Rle_trans with (x + e); [lra|]. apply B2, in_or_app; cbn; tauto.
Qed.
Lemma low_wrong lo lo' z x e h : is_low lo -> is_low lo' -> e <= 0 -> lo' (z ++ (x + e) :: h) = Rmin (lo (z ++ x :: h)) (x + e).
Proof.
  intros A B E. destruct (A (z ++ x :: h)) as [A1 A2]; [intros Q; now destruct z|]. destruct (B (z ++ (x + e) :: h)) as [B1 B2]; [intros Q; now destruct z|]. apply Rle_antisym.
  - apply Rmin_glb; [|apply B2, in_or_app; cbn; tauto]. apply in_app_or in A1. destruct A1 as [Q|[Q|Q]]; [apply B2, in_or_app; tauto| |apply B2, in_or_app; cbn; tauto].
    rewrite <- Q. apply Rle_trans with (x + e); [|lra]. apply B2, in_or_app; cbn; tauto.
  - apply in_app_or in B1. destruct B1 as [Q|[Q|Q]]; [|rewrite <- Q; apply Rmin_r|]; (eapply Rle_trans; [apply Rmin_l|]; apply A2, in_or_app; cbn; tauto).
Qed.
Lemma window_wrong p z (x : R) h : (length z < p)%nat -> firstn p (z ++ x :: h) = z ++ x :: firstn (p - length z - 1) h.
Proof. intros L. rewrite firstn_app, firstn_all2 by lia. destruct (p - length z)%nat as [|k] eqn:K; [lia|]. cbn [firstn]. now replace (S k - 1)%nat with k by lia. Qed.
Lemma window_right p z (x : R) h : (p <= length z)%nat -> firstn p (z ++ x :: h) = firstn p z.
Proof. intros L. rewrite firstn_app. replace (p - length z)%nat with 0%nat by lia. cbn [firstn]. apply app_nil_r. Qed.
Lemma window_full p (l : list R) : (1 <= p)%nat -> l <> [] -> firstn p l <> [].
Proof. intros Hp NE Q. destruct l; [now apply NE|]. destruct p; [lia|discriminate Q]. Qed.

Theorem extrema_wrong p xs ys n e : (1 <= p)%nat -> (Z.of_nat p < 2147483648)%Z -> countable xs -> one_wrong xs ys n e ->
  exists high high' low low' top top' bottom bottom',
    outputs GlobalMaximum xs high /\ outputs GlobalMaximum ys high' /\ outputs GlobalMinimum xs low /\ outputs GlobalMinimum ys low' /\
    outputs (LocalMaximum (Z.of_nat p)) xs top /\ outputs (LocalMaximum (Z.of_nat p)) ys top' /\ outputs (LocalMinimum (Z.of_nat p)) xs bottom /\ outputs (LocalMinimum (Z.of_nat p)) ys bottom' /\
    forall m, (m < length xs)%nat ->
      ((m < n)%nat -> at_pos high' m = at_pos high m /\ at_pos low' m = at_pos low m) /\
      ((m < n \/ n + p <= m)%nat -> at_pos top' m = at_pos top m /\ at_pos bottom' m = at_pos bottom m) /\
      ((n <= m)%nat -> 0 <= e -> at_pos high' m = Rmax (at_pos high m) (at_pos ys n)) /\
      ((n <= m)%nat -> e <= 0 -> at_pos low' m = Rmin (at_pos low m) (at_pos ys n)) /\
      ((n <= m < n + p)%nat -> 0 <= e -> at_pos top' m = Rmax (at_pos top m) (at_pos ys n)) /\
      ((n <= m < n + p)%nat -> e <= 0 -> at_pos bottom' m = Rmin (at_pos bottom m) (at_pos ys n)).
Proof.
  intros Hp Hb C W. assert (Cy : countable ys). { destruct C as [NE S], W as (L & Ln & _). split; [intros Q; rewrite Q in L; cbn in L; lia|now rewrite L]. }
  destruct (gmax_outputs xs C) as (g1 & G1 & O1), (gmax_outputs ys Cy) as (g2 & G2 & O2), (gmin_outputs xs C) as (g3 & G3 & O3), (gmin_outputs ys Cy) as (g4 & G4 & O4).
  destruct (lmax_outputs xs C p Hp Hb) as (g5 & G5 & O5), (lmax_outputs ys Cy p Hp Hb) as (g6 & G6 & O6), (lmin_outputs xs C p Hp Hb) as (g7 & G7 & O7), (lmin_outputs ys Cy p Hp Hb) as (g8 & G8 & O8).
  do 8 eexists. split; [exact O1|]. split; [exact O2|]. split; [exact O3|]. split; [exact O4|]. split; [exact O5|]. split; [exact O6|]. split; [exact O7|]. split; [exact O8|].
  clear O1 O2 O3 O4 O5 O6 O7 O8 C Cy Hb. intros m M. assert (L := proj1 W). rewrite !run_at by lia. assert (NE := upto_some m xs M).
  assert (Q : at_pos ys n = at_pos xs n + e) by (rewrite (proj2 (proj2 W)) by apply W; now rewrite Nat.eqb_refl).
  split; [|split; [|split; [|split; [|split]]]].
  - intros A. rewrite (same_before xs ys n e m W A). split; [now apply high_unique|now apply low_unique].
  - intros [A|A].
    + rewrite (same_before xs ys n e m W A). split; [apply high_unique|apply low_unique]; try assumption; now apply window_full.
    + destruct (wrong_at xs ys n e m W ltac:(lia)) as (z & h & Lz & Lh & E1 & E2). rewrite E1, E2, !window_right by lia. assert (Nz : firstn p z <> []) by (apply window_full; [exact Hp|]; intros Z; rewrite Z in Lz; cbn in Lz; lia).
      split; [now apply high_unique|now apply low_unique].
  - intros A E. destruct (wrong_at xs ys n e m W ltac:(lia)) as (z & h & Lz & Lh & E1 & E2). rewrite E1, E2, Q. now apply high_wrong.
  - intros A E. destruct (wrong_at xs ys n e m W ltac:(lia)) as (z & h & Lz & Lh & E1 & E2). rewrite E1, E2, Q. now apply low_wrong.
  - intros A E. destruct (wrong_at xs ys n e m W ltac:(lia)) as (z & h & Lz & Lh & E1 & E2). rewrite E1, E2, Q, !window_wrong by lia. now apply high_wrong.
  - intros A E. destruct (wrong_at xs ys n e m W ltac:(lia)) as (z & h & Lz & Lh & E1 & E2). rewrite E1, E2, Q, !window_wrong by lia. now apply low_wrong.
Qed.

(** ** Drawdown *)
Lemma fins_inj (a b : list R) : map Fin a = map Fin b -> a = b.
Proof. revert b. induction a as [|x a IH]; intros [|y b] E; try discriminate E; [reflexivity|]. cbn in E. injection E as E1 E2. f_equal; [exact E1|]. now apply IH. Qed.
Lemma outputs_unique op xs a b : outputs op xs a -> outputs op xs b -> a = b.
Proof. intros (_ & s1 & s2 & A) (_ & s3 & s4 & B). rewrite A in B. apply fins_inj. unfold reals, scalars in B. congruence. Qed.
Theorem drawdown_wrong xs ys n e : countable xs -> 1 / 10000 <= at_pos xs 0 -> one_wrong xs ys n e -> 0 <= e ->
  exists peaks depths depths' sf s0 sf' s0', outputs GlobalMaximum xs peaks /\
    call Drawdown (reals xs) None true = Ok (drawdown_reals depths, sf, s0) /\ call Drawdown (reals ys) None true = Ok (drawdown_reals depths', sf', s0') /\
    length depths = length xs /\ length depths' = length ys /\
    forall m, (m < length xs)%nat ->
      ((m < n)%nat -> fst (nth m depths' (0, 0%Z)) = fst (nth m depths (0, 0%Z))) /\
      ((n < m)%nat -> fst (nth m depths (0, 0%Z)) = at_pos xs m / at_pos peaks m - 1 /\ fst (nth m depths' (0, 0%Z)) = at_pos xs m / Rmax (at_pos peaks m) (at_pos ys n) - 1).
Proof.
  intros C H0 W E. assert (Cy : countable ys). { destruct C as [NE S], W as (L & Ln & _). split; [intros Q; rewrite Q in L; cbn in L; lia|now rewrite L]. }
  destruct (extrema_wrong 1 xs ys n e (le_n 1) eq_refl C W) as (high & high' & low & low' & top & top' & bottom & bottom' & O1 & O2 & _ & _ & _ & _ & _ & _ & X).
  assert (L0 : (0 < length xs)%nat) by (destruct W as (_ & Ln & _); lia). assert (Y0 : 1 / 10000 <= at_pos ys 0) by (rewrite (proj2 (proj2 W)) by exact L0; destruct (0 =? n)%nat; lra).
  assert (K : forall l, countable l -> 1 / 10000 <= at_pos l 0 -> exists peaks depths sf s0, outputs GlobalMaximum l peaks /\ call Drawdown (reals l) None true = Ok (drawdown_reals depths, sf, s0) /\ length depths = length l /\
    forall n, (n < length l)%nat -> fst (nth n depths (0, 0%Z)) = at_pos l n / at_pos peaks n - 1).
  { clear. intros [|x0 r] [NE S] H; [now destruct NE|]. destruct (drawdown_agrees x0 r S H) as (k & d & sf & s0 & A & B & D & F). exists k, d, sf, s0. split; [exact A|]. split; [exact B|]. split; [exact D|]. intros n Hn. apply F, Hn. }
  destruct (K xs C H0) as (k & d & sf & s0 & A & B & D & F). destruct (K ys Cy Y0) as (k' & d' & sf' & s0' & A' & B' & D' & F'). clear K.
  assert (Ek := outputs_unique _ _ _ _ A O1). assert (Ek' := outputs_unique _ _ _ _ A' O2). subst k k'. exists high, d, d', sf, s0, sf', s0'.
  split; [exact A|]. split; [exact B|]. split; [exact B'|]. split; [exact D|]. split; [exact D'|]. clear A A' B B' C Cy O1 O2. intros m M. assert (L := proj1 W). rewrite (F m M), (F' m) by lia.
  destruct (X m M) as (X1 & _ & X2 & _). split; intros Q.
  - rewrite (proj1 (X1 Q)), (proj2 (proj2 W)) by exact M. destruct (Nat.eqb_spec m n); [lia|]. now rewrite Rplus_0_r.
  - split; [reflexivity|]. rewrite X2 by (lia || exact E). rewrite (proj2 (proj2 W) m M). destruct (Nat.eqb_spec m n); [lia|]. now rewrite Rplus_0_r.
Qed.
