(** * WrongFacts: what one wrong number does (C84). *)
From Coq Require Import Reals Lra List ZArith Bool Lia.
From Verif Require Import Num Py Tensor Streamable Common Finance Series Formulas Positions ER Linear RealFacts RealStats RealMarket RealLinear RealScale RealScale2 MarketReal Steady
  Agree AgreeFacts Halt HaltFacts HaltMarket SwappedFacts Fading FadingFacts Wrong.
Import ListNotations.
Local Open Scope R_scope.

(** ** Histories *)
Lemma same_before xs ys n e m : one_wrong xs ys n e -> (m < n)%nat -> upto m ys = upto m xs.
Proof.
  intros (L & Ln & H) Lm. induction m as [|m IH].
  - rewrite !SignalFacts.upto_0 with (d := 0) by lia. f_equal. assert (Q := H 0%nat ltac:(lia)). unfold at_pos in Q. rewrite Q. destruct (Nat.eqb_spec 0 n); [lia|ring].
  - rewrite !upto_next by lia. rewrite IH by lia. f_equal. assert (Q := H (S m) ltac:(lia)). unfold at_pos in Q. rewrite Q. destruct (Nat.eqb_spec (S m) n); [lia|ring].
Qed.
Lemma wrong_history xs ys n e : one_wrong xs ys n e -> exists h, length h = n /\ upto n xs = at_pos xs n :: h /\ upto n ys = (at_pos xs n + e) :: h.
Proof.
  intros W. assert (W' := W). destruct W as (L & Ln & H). assert (Q := H n Ln). rewrite Nat.eqb_refl in Q. destruct n as [|n].
  - exists []. rewrite !SignalFacts.upto_0 with (d := 0) by lia. unfold at_pos in *. now rewrite Q.
  - exists (upto n xs). rewrite !upto_next by lia. rewrite (same_before xs ys (S n) e n W') by lia. unfold at_pos in *. rewrite Q. split; [apply upto_length; lia|now split].
Qed.
Lemma wrong_after xs ys n e : one_wrong xs ys n e -> forall m k, (n <= m)%nat -> (m + k < length xs)%nat ->
  exists z, length z = k /\ upto (m + k) xs = z ++ upto m xs /\ upto (m + k) ys = z ++ upto m ys.
Proof.
  intros (L & Ln & H) m k Hm. induction k as [|k IH]; intros Hk; [exists []; rewrite Nat.add_0_r; repeat split|].
  destruct IH as (z & Lz & E1 & E2); [lia|]. rewrite Nat.add_succ_r in *. exists (nth (S (m + k)) xs 0 :: z). cbn [length app]. rewrite !upto_next by lia. rewrite E1, E2, Lz.
  assert (Q := H (S (m + k)) ltac:(lia)). unfold at_pos in Q. rewrite Q. destruct (Nat.eqb_spec (S (m + k)) n); [lia|]. now rewrite Rplus_0_r.
Qed.
Lemma wrong_at xs ys n e m : one_wrong xs ys n e -> (n <= m < length xs)%nat ->
  exists z h, length z = (m - n)%nat /\ length h = n /\ upto m xs = z ++ at_pos xs n :: h /\ upto m ys = z ++ (at_pos xs n + e) :: h.
Proof.
  intros W M. destruct (wrong_history xs ys n e W) as (h & Lh & E1 & E2). destruct (wrong_after xs ys n e W n (m - n) ltac:(lia) ltac:(lia)) as (z & Lz & E3 & E4).
  replace (n + (m - n))%nat with m in * by lia. exists z, h. now rewrite E3, E4, E1, E2.
Qed.

(** ** The simple average *)
Lemma rsum_app a b : rsum (a ++ b) = rsum a + rsum b.
Proof. unfold rsum. induction a as [|x a IH]; cbn [app fold_right]; [ring|]. rewrite IH. ring. Qed.
Lemma rsma_wrong p z x e h : (1 <= p)%nat -> (p <= length z + S (length h))%nat ->
  rsma p (z ++ (x + e) :: h) - rsma p (z ++ x :: h) = if (length z <? p)%nat then e / INR p else 0.
Proof.
  intros Hp L. assert (P := INR_pos p Hp). unfold rsma. rewrite !app_length. cbn [length]. destruct (Nat.ltb_spec (length z + S (length h)) p); [lia|]. rewrite !firstn_app.
  destruct (Nat.ltb_spec (length z) p) as [Q|Q].
  - rewrite !(firstn_all2 z) by lia. destruct (p - length z)%nat as [|k] eqn:K; [lia|]. cbn [firstn]. unfold rmean. rewrite !app_length, !rsum_app. cbn [length].
    replace (length z + S (length (firstn k h)))%nat with p by (rewrite firstn_length; lia). unfold rsum at 2 4. cbn [fold_right]. fold (rsum (firstn k h)). field. lra.
  - replace (p - length z)%nat with 0%nat by lia. cbn [firstn]. ring.
Qed.

(** ** The averages with memory *)
Lemma rema_wrong p x e h : (1 <= p)%nat -> (p <= length h)%nat -> rema p ((x + e) :: h) - rema p (x :: h) = 2 * e / (INR p + 1).
Proof. intros Hp L. assert (P := INR_pos p Hp). cbn [rema length]. destruct (Nat.leb_spec (S (length h)) p); [lia|]. field. lra. Qed.
Lemma rrma_wrong p x e h : (1 <= p)%nat -> (p <= length h)%nat -> rrma p ((x + e) :: h) - rrma p (x :: h) = e / INR p.
Proof. intros Hp L. assert (P := INR_pos p Hp). cbn [rrma length]. destruct (Nat.leb_spec (S (length h)) p); [lia|]. field. lra. Qed.
Lemma rema_first p h : (1 <= p)%nat -> length h = p -> rema p h = rsma p h.
Proof. intros Hp L. destruct h as [|x h]; [cbn in L; lia|]. cbn [rema]. destruct (Nat.leb_spec (length (x :: h)) p); [reflexivity|lia]. Qed.
Lemma rrma_first p h : (1 <= p)%nat -> length h = p -> rrma p h = rsma p h.
Proof. intros Hp L. destruct h as [|x h]; [cbn in L; lia|]. cbn [rrma]. destruct (Nat.leb_spec (length (x :: h)) p); [reflexivity|lia]. Qed.
(** An average [g] that is [rsma] at first and then moves by a part [a] of a wrong number, of which it keeps a part [q] at every step. *)
Lemma memory_wrong g p a q xs ys n e : (1 <= p)%nat ->
  (forall z h h', (p <= length h)%nat -> (p <= length h')%nat -> g (z ++ h) - g (z ++ h') = q ^ length z * (g h - g h')) ->
  (forall x e h, (p <= length h)%nat -> g ((x + e) :: h) - g (x :: h) = a * e) -> (forall h, length h = p -> g h = rsma p h) -> (forall h, (length h < p)%nat -> g h = 0) ->
  one_wrong xs ys n e -> forall m, (m < length xs)%nat ->
  at_pos (run g ys) m - at_pos (run g xs) m =
    if ((m <? n) || (m + 1 <? p))%nat then 0 else if (n <? p)%nat then q ^ (m + 1 - p) * (e / INR p) else q ^ (m - n) * (a * e).
Proof.
  intros Hp F S1 I Z W m M. assert (W' := W). destruct W' as (L & Ln & _). rewrite !run_at by lia. destruct (Nat.ltb_spec m n) as [A|A]; cbn [orb]; [rewrite (same_before xs ys n e m W A); ring|].
  destruct (Nat.ltb_spec (m + 1) p) as [B|B]; [rewrite !Z by (rewrite upto_length; lia); ring|]. destruct (Nat.ltb_spec n p) as [C|C].
  - destruct (wrong_after xs ys n e W (p - 1) (m + 1 - p) ltac:(lia) ltac:(lia)) as (z & Lz & E1 & E2). replace (p - 1 + (m + 1 - p))%nat with m in * by lia. rewrite E1, E2.
    assert (U1 : length (upto (p - 1) xs) = p) by (rewrite upto_length; lia). assert (U2 : length (upto (p - 1) ys) = p) by (rewrite upto_length; lia).
    rewrite F by lia. rewrite !I by assumption. rewrite Lz. f_equal. destruct (wrong_at xs ys n e (p - 1) W ltac:(lia)) as (w & h & Lw & Lh & E3 & E4). rewrite E3, E4, rsma_wrong by lia. destruct (Nat.ltb_spec (length w) p); [reflexivity|lia].
  - destruct (wrong_at xs ys n e m W ltac:(lia)) as (z & h & Lz & Lh & E1 & E2). rewrite E1, E2, F by (cbn [length]; lia). rewrite S1, Lz by lia. reflexivity.
Qed.
Lemma rema_error p xs ys n e m : (1 <= p)%nat -> one_wrong xs ys n e -> (m < length xs)%nat -> at_pos (run (rema p) ys) m - at_pos (run (rema p) xs) m = ema_error p n e m.
Proof.
  intros Hp W M. assert (P := INR_pos p Hp). unfold ema_error.
  rewrite (memory_wrong (rema p) p (2 / (INR p + 1)) ((INR p - 1) / (INR p + 1)) xs ys n e Hp); [|intros; now apply rema_fade|intros; rewrite rema_wrong by assumption; field; lra|intros; now apply rema_first|intros; now apply rema_early|exact W|exact M].
  destruct (_ || _); [reflexivity|]. destruct (n <? p)%nat; [reflexivity|]. f_equal. field. lra.
Qed.
Theorem averages_wrong p xs ys n e : (1 <= p)%nat -> countable xs -> one_wrong xs ys n e ->
  exists sma sma' ema ema' rma rma', outputs (SimpleMovingAverage (Z.of_nat p)) xs sma /\ outputs (SimpleMovingAverage (Z.of_nat p)) ys sma' /\
    outputs (ExponentialMovingAverage (Z.of_nat p)) xs ema /\ outputs (ExponentialMovingAverage (Z.of_nat p)) ys ema' /\
    outputs (RollingMovingAverage (Z.of_nat p)) xs rma /\ outputs (RollingMovingAverage (Z.of_nat p)) ys rma' /\
    forall m, (m < length xs)%nat ->
      at_pos sma' m - at_pos sma m = (if ((m <? n) || (m + 1 <? p) || (n + p <=? m))%nat then 0 else e / INR p) /\
      at_pos ema' m - at_pos ema m = ema_error p n e m /\
      at_pos rma' m - at_pos rma m = (if ((m <? n) || (m + 1 <? p))%nat then 0 else ((INR p - 1) / INR p) ^ (m - Nat.max n (p - 1)) * (e / INR p)).
Proof.
  intros Hp C W. assert (P := INR_pos p Hp). assert (Cy : countable ys). { destruct C as [NE S], W as (L & Ln & _). split; [intros Q; rewrite Q in L; cbn in L; lia|now rewrite L]. }
  exists (run (rsma p) xs), (run (rsma p) ys), (run (rema p) xs), (run (rema p) ys), (run (rrma p) xs), (run (rrma p) ys).
  split; [exact (sma_outputs _ C p Hp)|]. split; [exact (sma_outputs _ Cy p Hp)|]. split; [exact (ema_outputs _ C p Hp)|]. split; [exact (ema_outputs _ Cy p Hp)|]. split; [exact (rma_outputs _ C p Hp)|]. split; [exact (rma_outputs _ Cy p Hp)|].
  clear C Cy. intros m M. assert (L := proj1 W). split; [|split].
  - rewrite !run_at by lia. destruct (Nat.ltb_spec m n) as [A|A]; cbn [orb]; [rewrite (same_before xs ys n e m W A); ring|]. destruct (Nat.ltb_spec (m + 1) p) as [B|B]; cbn [orb].
    + unfold rsma. rewrite !upto_length by lia. destruct (Nat.ltb_spec (S m) p); [ring|lia].
    + destruct (wrong_at xs ys n e m W ltac:(lia)) as (z & h & Lz & Lh & E1 & E2). rewrite E1, E2, rsma_wrong by lia. destruct (Nat.ltb_spec (length z) p), (Nat.leb_spec (n + p) m); lia || reflexivity.
  - now apply rema_error.
  - rewrite (memory_wrong (rrma p) p (1 / INR p) ((INR p - 1) / INR p) xs ys n e Hp); [|intros; now apply rrma_fade|intros; rewrite rrma_wrong by assumption; field; lra|intros; now apply rrma_first|intros; now apply early_zero|exact W|exact M].
    destruct (Nat.ltb_spec m n) as [A|A]; cbn [orb]; [reflexivity|]. destruct (Nat.ltb_spec (m + 1) p) as [B|B]; [reflexivity|].
    destruct (Nat.ltb_spec n p) as [Q|Q]; [replace (m - Nat.max n (p - 1))%nat with (m + 1 - p)%nat by lia; reflexivity|]. replace (m - Nat.max n (p - 1))%nat with (m - n)%nat by lia. f_equal. field. lra.
Qed.

(** ** Changes *)
Lemma at_ago (xs : list R) m p : (p <= m < length xs)%nat -> nth p (upto m xs) 0 = at_pos xs (m - p).
Proof. intros H. unfold at_pos. apply nth_upto; lia. Qed.
Theorem momentum_wrong p xs ys n e : (1 <= p)%nat -> countable xs -> one_wrong xs ys n e ->
  exists mom mom', outputs (Momentum (Z.of_nat p)) xs mom /\ outputs (Momentum (Z.of_nat p)) ys mom' /\
    forall m, (m < length xs)%nat -> at_pos mom' m - at_pos mom m = if (m <? p)%nat then 0 else if (m =? n)%nat then e else if (m =? n + p)%nat then - e else 0.
Proof.
  intros Hp C W. assert (Cy : countable ys). { destruct C as [NE S], W as (L & Ln & _). split; [intros Q; rewrite Q in L; cbn in L; lia|now rewrite L]. }
  exists (run (rmomentum p) xs), (run (rmomentum p) ys). split; [exact (momentum_outputs _ C p Hp)|]. split; [exact (momentum_outputs _ Cy p Hp)|]. clear C Cy. destruct W as (L & Ln & H). intros m M. rewrite !run_at by lia.
  unfold rmomentum. rewrite !upto_length by lia. destruct (Nat.leb_spec (S m) p), (Nat.ltb_spec m p); try lia; [ring|]. rewrite !at_ago by lia. rewrite !H by lia. rewrite Nat.sub_0_r.
  destruct (Nat.eqb_spec m n), (Nat.eqb_spec (m - p) n), (Nat.eqb_spec m (n + p)); try lia; ring.
Qed.
Theorem macd_wrong slow fast q xs ys n e : (1 <= slow)%nat -> (1 <= fast)%nat -> (1 <= q)%nat -> countable xs -> one_wrong xs ys n e ->
  exists s f macd signal histogram s' f' macd' signal' histogram' sf s0 sf' s0',
    call (MovingAverageConvergenceDivergence (Z.of_nat slow) (Z.of_nat fast) (Z.of_nat q)) (reals xs) None true = Ok (Tup [reals s; reals f; reals macd; reals signal; reals histogram], sf, s0) /\
    call (MovingAverageConvergenceDivergence (Z.of_nat slow) (Z.of_nat fast) (Z.of_nat q)) (reals ys) None true = Ok (Tup [reals s'; reals f'; reals macd'; reals signal'; reals histogram'], sf', s0') /\
    length macd = length xs /\ length macd' = length ys /\
    forall m, (m < length xs)%nat ->
      at_pos macd' m - at_pos macd m = if (m + 1 <? slow)%nat then 0 else ema_error fast n e m - ema_error slow n e m.
Proof.
  intros Hs Hf Hq C W. assert (Cy : countable ys). { destruct C as [NE S], W as (L & Ln & _). split; [intros Q; rewrite Q in L; cbn in L; lia|now rewrite L]. }
  destruct (macd_outputs slow fast q xs Hf Hs Hq C) as (sf & s0 & O). destruct (macd_outputs slow fast q ys Hf Hs Hq Cy) as (sf' & s0' & O').
  do 14 eexists. split; [exact O|]. split; [exact O'|]. clear O O' C Cy. split; [apply run_length|]. split; [apply run_length|]. intros m M. assert (L := proj1 W). rewrite <- (rema_error fast xs ys n e m Hf W M), <- (rema_error slow xs ys n e m Hs W M), !run_at by lia.
  unfold rmacd. rewrite !upto_length by lia. destruct (Nat.ltb_spec (S m) slow), (Nat.ltb_spec (m + 1) slow); lia || ring.
Qed.
