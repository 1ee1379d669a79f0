(** * FadingFacts: which operators forget a bounded past in bounded time (C83). *)
From Coq Require Import Reals Lra List ZArith Bool Lia.
From Verif Require Import Num Py Tensor Streamable Common Finance Series Formulas Positions ER MovingFacts Linear RealFacts RealStats RealMarket RealMirror RealLinear RealScale RealScale2 NormFacts ReturnFacts
  SignalFacts ImplBasic ImplComp ImplScalar ImplWindow ImplCorr ImplMarket MarketFacts MarketReal StatFacts Accuracy AccuracyMain AccuracyMarket Index AccuracyIndex Order OrderFacts Steady SteadyFacts SteadyMarket
  Super SuperFacts SuperNum Agree AgreeFacts Line LineFacts Halt HaltFacts HaltMarket Rise RiseFacts FallFacts SwappedFacts Fading.
Import ListNotations.
Local Open Scope R_scope.

(** ** Histories *)
Lemma upto_app {X} (xs zs : list X) n : (n < length zs)%nat -> upto (length xs + n) (xs ++ zs) = upto n zs ++ rev xs.
Proof. intros H. unfold upto. rewrite <- Nat.add_succ_r, firstn_app_2. apply rev_app_distr. Qed.
Definition fading (g : list R -> R) : Prop := forall M eps, 0 <= M -> 0 < eps -> exists K, forall z h h',
  bounded M z -> bounded M h -> bounded M h' -> (K <= length z)%nat -> Rabs (g (z ++ h) - g (z ++ h')) <= eps.
Lemma bounded_upto M n l : bounded M l -> bounded M (upto n l).
Proof. intros H. apply Forall_rev, Forall_firstn, H. Qed.
Lemma bounded_more M M' l : M <= M' -> bounded M l -> bounded M' l.
Proof. intros L. apply Forall_impl. intros x Hx. lra. Qed.
Lemma fading_run g M eps : fading g -> 0 < eps -> exists K, forall xs ys zs, bounded M (xs ++ zs) -> bounded M (ys ++ zs) ->
  agree_from K eps (length xs) (length ys) (length zs) (run g (xs ++ zs)) (run g (ys ++ zs)).
Proof.
  intros F E. destruct (F (Rmax M 0) eps (Rmax_r _ _) E) as [K H]. exists K. intros xs ys zs B B' n [L1 L2].
  rewrite !run_at by (rewrite app_length; lia). rewrite !upto_app by exact L2.
  apply (bounded_more _ (Rmax M 0)) in B, B'; try apply Rmax_l. apply Forall_app in B as [B1 B2], B' as [B3 _].
  apply H; [now apply bounded_upto|now apply Forall_rev|now apply Forall_rev|]. rewrite upto_length by exact L2. lia.
Qed.
Lemma fading_settles op g : (forall xs, countable xs -> outputs op xs (run g xs)) -> fading g -> settles op.
Proof.
  intros O F M eps E. destruct (fading_run g M eps F E) as [K H]. exists K. intros xs ys zs B B' C C'. exists (run g (xs ++ zs)), (run g (ys ++ zs)).
  split; [now apply O|]. split; [now apply O|]. now apply H.
Qed.

(** ** The averages with memory *)
Lemma bounded_between M l : bounded M l <-> Forall (between (- M) M) l.
Proof.
  split; apply Forall_impl; intros x Hx; unfold between in *.
  - unfold Rabs in Hx. destruct (Rcase_abs x); lra.
  - now apply Rabs_le.
Qed.
Lemma early_zero p h : (length h < p)%nat -> rrma p h = 0.
Proof. intros L. destruct h as [|x h]; [reflexivity|]. cbn [rrma]. destruct (Nat.leb_spec (length (x :: h)) p); [|lia]. unfold rsma. destruct (Nat.ltb_spec (length (x :: h)) p); [reflexivity|lia]. Qed.
Lemma ema_bounded p M h : (1 <= p)%nat -> 0 <= M -> bounded M h -> Rabs (rema p h) <= M.
Proof.
  intros Hp HM H. destruct (Nat.lt_ge_cases (length h) p) as [L|L]; [rewrite rema_early, Rabs_R0 by exact L; exact HM|].
  apply Rabs_le, rema_between; [lia|now apply bounded_between].
Qed.
Lemma rma_bounded p M h : (1 <= p)%nat -> 0 <= M -> bounded M h -> Rabs (rrma p h) <= M.
Proof.
  intros Hp HM H. destruct (Nat.lt_ge_cases (length h) p) as [L|L]; [rewrite early_zero, Rabs_R0 by exact L; exact HM|].
  apply Rabs_le, rrma_between; [lia|now apply bounded_between].
Qed.
Lemma keep_ema_range p : (1 <= p)%nat -> 0 <= keep_ema p < 1.
Proof.
  intros Hp. assert (1 <= INR p) by (apply (le_INR 1); lia). unfold keep_ema. split; [apply Rmult_le_pos; [lra|]; apply Rlt_le, Rinv_0_lt_compat; lra|].
  apply (Rmult_lt_reg_r (INR p + 1)); [lra|]. unfold Rdiv. rewrite Rmult_assoc, Rinv_l by lra. lra.
Qed.
Lemma keep_rma_range p : (1 <= p)%nat -> 0 <= keep_rma p < 1.
Proof.
  intros Hp. assert (1 <= INR p) by (apply (le_INR 1); lia). unfold keep_rma. split; [apply Rmult_le_pos; [lra|]; apply Rlt_le, Rinv_0_lt_compat; lra|].
  apply (Rmult_lt_reg_r (INR p)); [lra|]. unfold Rdiv. rewrite Rmult_assoc, Rinv_l by lra. lra.
Qed.
(** Some power of [q] makes [D] smaller than [eps]. *)
Lemma small_power q D eps : 0 <= q < 1 -> 0 <= D -> 0 < eps -> exists K, forall n, (K <= n)%nat -> q ^ n * D <= eps.
Proof.
  intros Q HD E. destruct (pow_lt_1_zero q) with (y := eps / (D + 1)) as [K H]; [rewrite Rabs_right; lra|apply Rdiv_lt_0_compat; lra|].
  exists K. intros n L. specialize (H n L). rewrite Rabs_right in H by (apply Rle_ge, pow_le; lra). assert (P := pow_le q n (proj1 Q)).
  apply Rlt_le in H. apply (Rmult_le_compat_r (D + 1)) in H; [|lra]. unfold Rdiv in H. rewrite Rmult_assoc, Rinv_l in H by lra. lra.
Qed.
Lemma fading_from g (p : nat) q : 0 <= q < 1 ->
  (forall z h h', (p <= length h)%nat -> (p <= length h')%nat -> g (z ++ h) - g (z ++ h') = q ^ length z * (g h - g h')) ->
  (forall M h, 0 <= M -> bounded M h -> Rabs (g h) <= M) -> fading g.
Proof.
  intros Q F B M eps HM E. destruct (small_power q (M + M) eps Q) as [K H]; [lra|exact E|]. exists (K + p)%nat. intros z h h' Bz Bh Bh' L.
  set (k := (length z - p)%nat). rewrite <- (firstn_skipn k z), <- !app_assoc. assert (Bs : bounded M (skipn k z)) by (rewrite <- (firstn_skipn k z) in Bz; now apply Forall_app in Bz).
  assert (Ls : length (skipn k z) = p) by (rewrite skipn_length; unfold k; lia).
  rewrite F by (rewrite app_length; lia). rewrite Rabs_mult, Rabs_right by (apply Rle_ge, pow_le; lra).
  eapply Rle_trans; [|apply (H (length (firstn k z))); rewrite firstn_length; unfold k; lia]. apply Rmult_le_compat_l; [apply pow_le; lra|].
  eapply Rle_trans; [apply Rabs_triang|]. rewrite Rabs_Ropp. apply Rplus_le_compat; apply B; try exact HM; apply Forall_app; now split.
Qed.
Lemma ema_fading p : (1 <= p)%nat -> fading (rema p).
Proof. intros Hp. apply (fading_from _ p (keep_ema p)); [now apply keep_ema_range|intros; now apply rema_fade|intros; now apply ema_bounded]. Qed.
Lemma rma_fading p : (1 <= p)%nat -> fading (rrma p).
Proof. intros Hp. apply (fading_from _ p (keep_rma p)); [now apply keep_rma_range|intros; now apply rrma_fade|intros; now apply rma_bounded]. Qed.
Theorem averages_settle p : (1 <= p)%nat -> settles (ExponentialMovingAverage (Z.of_nat p)) /\ settles (RollingMovingAverage (Z.of_nat p)).
Proof.
  intros Hp. split.
  - apply (fading_settles _ (rema p)); [intros xs C; exact (ema_outputs xs C p Hp)|now apply ema_fading].
  - apply (fading_settles _ (rrma p)); [intros xs C; exact (rma_outputs xs C p Hp)|now apply rma_fading].
Qed.

(** ** MACD *)
Lemma app_long {X} (z h : list X) k : (k <= length z)%nat -> (length (z ++ h) <? k)%nat = false.
Proof. intros L. apply Nat.ltb_ge. rewrite app_length. lia. Qed.
Lemma macd_fading slow fast : (1 <= slow)%nat -> (1 <= fast)%nat -> fading (rmacd slow fast).
Proof.
  intros Hs Hf M eps HM E. destruct (ema_fading fast Hf M (eps / 2) HM) as [K1 H1]; [lra|]. destruct (ema_fading slow Hs M (eps / 2) HM) as [K2 H2]; [lra|].
  exists (slow + K1 + K2)%nat. intros z h h' Bz Bh Bh' L. specialize (H1 z h h' Bz Bh Bh' ltac:(lia)). specialize (H2 z h h' Bz Bh Bh' ltac:(lia)).
  unfold rmacd. rewrite !app_long by lia. replace (_ - _) with ((rema fast (z ++ h) - rema fast (z ++ h')) + - (rema slow (z ++ h) - rema slow (z ++ h'))) by ring.
  eapply Rle_trans; [apply Rabs_triang|]. rewrite Rabs_Ropp. lra.
Qed.
Lemma macd_bounded slow fast M h : (1 <= slow)%nat -> (1 <= fast)%nat -> 0 <= M -> bounded M h -> Rabs (rmacd slow fast h) <= M + M.
Proof.
  intros Hs Hf HM B. unfold rmacd. destruct (_ <? _)%nat; [rewrite Rabs_R0; lra|]. eapply Rle_trans; [apply Rabs_triang|]. rewrite Rabs_Ropp. apply Rplus_le_compat; now apply ema_bounded.
Qed.
Lemma trail_bounded g M B h : (forall h, bounded M h -> Rabs (g h) <= B) -> bounded M h -> bounded B (trail g h).
Proof. intros G. induction 1 as [|x h Hx Hh IH]; [constructor|]. cbn [trail]. constructor; [apply G; now constructor|exact IH]. Qed.
Lemma trail_near g M e z w w' : (forall u, bounded M u -> Rabs (g (u ++ w) - g (u ++ w')) <= e) -> bounded M z ->
  exists a a', trail g (z ++ w) = a ++ trail g w /\ trail g (z ++ w') = a' ++ trail g w' /\ length a = length z /\ Forall2 (fun x y => Rabs (x - y) <= e) a a'.
Proof.
  intros G. induction 1 as [|x z Hx Hz (a & a' & E1 & E2 & L & N)]; [exists [], []; repeat split; constructor|].
  exists (g (x :: z ++ w) :: a), (g (x :: z ++ w') :: a'). cbn [app trail length]. rewrite E1, E2, L. repeat split. constructor; [|exact N]. apply (G (x :: z)). now constructor.
Qed.
Lemma ema_near q e D b b' : (1 <= q)%nat -> (q <= length b)%nat -> (q <= length b')%nat -> Rabs (rema q b - rema q b') <= D ->
  forall a a', Forall2 (fun x y => Rabs (x - y) <= e) a a' -> Rabs (rema q (a ++ b) - rema q (a' ++ b')) <= e * (1 - keep_ema q ^ length a) + keep_ema q ^ length a * D.
Proof.
  intros Hq L L' HD. assert (1 <= INR q) by (apply (le_INR 1); lia). assert (R := keep_ema_range q Hq). induction 1 as [|x y a a' Hxy N IH]; [cbn; lra|].
  cbn [app rema length pow]. rewrite !app_length. destruct (Nat.leb_spec (S (length a + length b)) q); [lia|]. destruct (Nat.leb_spec (S (length a' + length b')) q); [lia|].
  assert (K : 1 - 2 / (INR q + 1) = keep_ema q) by (unfold keep_ema; field; lra). rewrite K. assert (K2 : 2 / (INR q + 1) = 1 - keep_ema q) by lra. rewrite K2. set (k := keep_ema q) in *.
  replace (_ - _) with ((1 - k) * (x - y) + k * (rema q (a ++ b) - rema q (a' ++ b'))) by ring. eapply Rle_trans; [apply Rabs_triang|]. rewrite !Rabs_mult, (Rabs_right (1 - k)), (Rabs_right k) by lra.
  apply Rle_trans with ((1 - k) * e + k * (e * (1 - k ^ length a) + k ^ length a * D)); [|right; ring]. apply Rplus_le_compat; apply Rmult_le_compat_l; lra.
Qed.
Lemma signal_fading slow fast q : (1 <= slow)%nat -> (1 <= fast)%nat -> (1 <= q)%nat -> fading (rmacd_signal slow fast q).
Proof.
  intros Hs Hf Hq M eps HM E. destruct (macd_fading slow fast Hs Hf M (eps / 2) HM) as [K1 H1]; [lra|]. set (B := M + M).
  destruct (small_power (keep_ema q) (B + B) (eps / 2) (keep_ema_range q Hq)) as [K2 H2]; [unfold B; lra|lra|].
  exists (K2 + (K1 + slow + q))%nat. intros z h h' Bz Bh Bh' L. set (k := (length z - (K1 + slow + q))%nat).
  unfold rmacd_signal. rewrite !app_long by lia. rewrite <- (firstn_skipn k z), <- !app_assoc. set (z1 := firstn k z). set (z2 := skipn k z).
  assert (Bs : bounded M z1 /\ bounded M z2) by (rewrite <- (firstn_skipn k z) in Bz; now apply Forall_app in Bz). destruct Bs as [B1 B2].
  assert (L2 : length z2 = (K1 + slow + q)%nat) by (unfold z2; rewrite skipn_length; unfold k; lia). assert (L1 : (K2 <= length z1)%nat) by (unfold z1; rewrite firstn_length; unfold k; lia).
  assert (Bw : bounded M (z2 ++ h)) by (apply Forall_app; now split). assert (Bw' : bounded M (z2 ++ h')) by (apply Forall_app; now split).
  destruct (trail_near (rmacd slow fast) M (eps / 2) z1 (z2 ++ h) (z2 ++ h')) as (a & a' & E1 & E2 & La & N).
  { intros u Bu. rewrite !app_assoc. apply H1; [apply Forall_app; now split|exact Bh|exact Bh'|rewrite app_length; lia]. }
  { exact B1. }
  assert (La' : length a' = length z1) by (rewrite <- La; symmetry; clear -N; induction N; cbn; congruence).
  rewrite E1, E2. rewrite (app_length z1 (z2 ++ h)), (app_length z1 (z2 ++ h')).
  replace (length z1 + length (z2 ++ h) + 1 - slow)%nat with (length a + (length (z2 ++ h) + 1 - slow))%nat by (rewrite app_length; lia).
  replace (length z1 + length (z2 ++ h') + 1 - slow)%nat with (length a' + (length (z2 ++ h') + 1 - slow))%nat by (rewrite app_length; lia).
  rewrite !firstn_app_2.
  assert (T : forall g : list R, bounded M g -> bounded B (firstn (length g + 1 - slow) (trail (rmacd slow fast) g))).
  { intros g Bg. apply Forall_firstn, (trail_bounded _ M); [|exact Bg]. intros u Bu. now apply macd_bounded. }
  assert (Lt : forall g : list R, (slow + q <= length g)%nat -> (q <= length (firstn (length g + 1 - slow) (trail (rmacd slow fast) g)))%nat).
  { intros g Lg. rewrite firstn_length, ReturnFacts.trail_length. lia. }
  eapply Rle_trans; [apply (ema_near q (eps / 2) (B + B)); [exact Hq|apply Lt; rewrite app_length; lia|apply Lt; rewrite app_length; lia| |exact N]|].
  - eapply Rle_trans; [apply Rabs_triang|]. rewrite Rabs_Ropp. apply Rplus_le_compat; (apply ema_bounded; [exact Hq|unfold B; lra|now apply T]).
  - specialize (H2 (length a) ltac:(lia)). assert (P := pow_le (keep_ema q) (length a) (proj1 (keep_ema_range q Hq))). nra.
Qed.
Lemma histogram_fading slow fast q : (1 <= slow)%nat -> (1 <= fast)%nat -> (1 <= q)%nat -> fading (rmacd_histogram slow fast q).
Proof.
  intros Hs Hf Hq M eps HM E. destruct (macd_fading slow fast Hs Hf M (eps / 2) HM) as [K1 H1]; [lra|]. destruct (signal_fading slow fast q Hs Hf Hq M (eps / 2) HM) as [K2 H2]; [lra|].
  exists (slow + q + K1 + K2)%nat. intros z h h' Bz Bh Bh' L. specialize (H1 z h h' Bz Bh Bh' ltac:(lia)). specialize (H2 z h h' Bz Bh Bh' ltac:(lia)).
  unfold rmacd_histogram. rewrite !app_length. destruct (Nat.ltb_spec (length z + length h + 1) (slow + q)); [lia|]. destruct (Nat.ltb_spec (length z + length h' + 1) (slow + q)); [lia|].
  replace (_ - _) with ((rmacd slow fast (z ++ h) - rmacd slow fast (z ++ h')) + - (rmacd_signal slow fast q (z ++ h) - rmacd_signal slow fast q (z ++ h'))) by ring.
  eapply Rle_trans; [apply Rabs_triang|]. rewrite Rabs_Ropp. lra.
Qed.
Lemma macd_outputs slow fast q xs : (1 <= fast)%nat -> (1 <= slow)%nat -> (1 <= q)%nat -> countable xs ->
  exists sf s0, call (MovingAverageConvergenceDivergence (Z.of_nat slow) (Z.of_nat fast) (Z.of_nat q)) (reals xs) None true =
    Ok (Tup [reals (run (rema slow) xs); reals (run (rema fast) xs); reals (run (rmacd slow fast) xs); reals (run (rmacd_signal slow fast q) xs); reals (run (rmacd_histogram slow fast q) xs)], sf, s0).
Proof.
  intros Hf Hs' Hq C. destruct (@macd_streams ER [] slow fast q Hs' Hf Hq) as (st & B & _). specialize (B (map (@sing ER) (map Fin xs))). do 2 eexists.
  rewrite one_input in B. rewrite B; [|apply map_some, map_some, C|now apply one_ok].
  rewrite (one_series _ (rema slow)), (one_series _ (rema fast)), (one_series _ (rmacd slow fast)), (one_series _ (rmacd_signal slow fast q)), (one_series _ (rmacd_histogram slow fast q)); [reflexivity|..]; intros h.
  - now apply macd_histogram_eq.
  - now apply macd_signal_eq.
  - now apply macd_eq.
  - now apply ema_eq.
  - now apply ema_eq.
Qed.
Theorem macd_settles slow fast q M eps : (1 <= slow)%nat -> (1 <= fast)%nat -> (1 <= q)%nat -> 0 < eps -> exists K, forall xs ys zs,
  bounded M (xs ++ zs) -> bounded M (ys ++ zs) -> countable (xs ++ zs) -> countable (ys ++ zs) ->
  exists o1 o2 o3 o4 o5 o1' o2' o3' o4' o5' sf s0 sf' s0',
    call (MovingAverageConvergenceDivergence (Z.of_nat slow) (Z.of_nat fast) (Z.of_nat q)) (reals (xs ++ zs)) None true = Ok (Tup [reals o1; reals o2; reals o3; reals o4; reals o5], sf, s0) /\
    call (MovingAverageConvergenceDivergence (Z.of_nat slow) (Z.of_nat fast) (Z.of_nat q)) (reals (ys ++ zs)) None true = Ok (Tup [reals o1'; reals o2'; reals o3'; reals o4'; reals o5'], sf', s0') /\
    Forall2 (fun o o' => length o = length (xs ++ zs) /\ length o' = length (ys ++ zs) /\ agree_from K eps (length xs) (length ys) (length zs) o o') [o1; o2; o3; o4; o5] [o1'; o2'; o3'; o4'; o5'].
Proof.
  intros Hs Hf Hq E. destruct (fading_run _ M eps (ema_fading slow Hs) E) as [K1 H1]. destruct (fading_run _ M eps (ema_fading fast Hf) E) as [K2 H2].
  destruct (fading_run _ M eps (macd_fading slow fast Hs Hf) E) as [K3 H3]. destruct (fading_run _ M eps (signal_fading slow fast q Hs Hf Hq) E) as [K4 H4].
  destruct (fading_run _ M eps (histogram_fading slow fast q Hs Hf Hq) E) as [K5 H5]. exists (K1 + K2 + K3 + K4 + K5)%nat. intros xs ys zs B B' C C'.
  destruct (macd_outputs slow fast q (xs ++ zs) Hf Hs Hq C) as (sf & s0 & O). destruct (macd_outputs slow fast q (ys ++ zs) Hf Hs Hq C') as (sf' & s0' & O').
  do 14 eexists. split; [exact O|]. split; [exact O'|].
  assert (W : forall g k, (k <= K1 + K2 + K3 + K4 + K5)%nat -> agree_from k eps (length xs) (length ys) (length zs) (run g (xs ++ zs)) (run g (ys ++ zs)) ->
    length (run g (xs ++ zs)) = length (xs ++ zs) /\ length (run g (ys ++ zs)) = length (ys ++ zs) /\
    agree_from (K1 + K2 + K3 + K4 + K5) eps (length xs) (length ys) (length zs) (run g (xs ++ zs)) (run g (ys ++ zs))).
  { intros g k Lk A. split; [apply run_length|]. split; [apply run_length|]. intros n Hn. apply A. lia. }
  apply Forall2_cons; [apply (W _ K1); [lia|now apply H1]|]. apply Forall2_cons; [apply (W _ K2); [lia|now apply H2]|]. apply Forall2_cons; [apply (W _ K3); [lia|now apply H3]|].
  apply Forall2_cons; [apply (W _ K4); [lia|now apply H4]|]. apply Forall2_cons; [apply (W _ K5); [lia|now apply H5]|]. apply Forall2_nil.
Qed.

(** ** The average true range *)
Lemma rranges_app z b r : exists a, length a = length z /\ rranges (z ++ b :: r) = a ++ rranges (b :: r) /\ forall r', rranges (z ++ b :: r') = a ++ rranges (b :: r').
Proof.
  induction z as [|x z (a & L & E & E')]; [exists []; repeat split|]. exists (rrange (rlast_close (z ++ [b])) x :: a). cbn [app rranges length]. rewrite L.
  assert (G : forall r', rlast_close (z ++ b :: r') = rlast_close (z ++ [b])) by (intros r'; destruct z; reflexivity).
  repeat split; [now rewrite E, G|]. intros r'. now rewrite E', G.
Qed.
Lemma rrange_bounded M prev b : Rabs prev <= M -> Rabs (r_high b) <= M /\ Rabs (r_low b) <= M /\ Rabs (r_close b) <= M -> Rabs (rrange prev b) <= M + M.
Proof.
  intros P (H & L & _). unfold rrange. assert (T : forall x y, Rabs x <= M -> Rabs y <= M -> Rabs (x - y) <= M + M).
  { intros x y X Y. eapply Rle_trans; [apply Rabs_triang|]. rewrite Rabs_Ropp. lra. }
  assert (HM : 0 <= M) by (assert (Q := Rabs_pos prev); lra). assert (X : Rabs (r_high b - r_low b) <= M + M) by (now apply T).
  assert (A : forall x, Rabs x <= M -> 0 <= (if Req_EM_T prev 0 then 0 else Rabs (x - prev)) <= M + M).
  { intros x Hx. destruct (Req_EM_T prev 0); [lra|]. split; [apply Rabs_pos|now apply T]. }
  assert (A1 := A _ H). assert (A2 := A _ L). apply Rabs_le. assert (X1 := Rle_abs (r_high b - r_low b)). split.
  - apply Rle_trans with 0; [lra|]. eapply Rle_trans; [apply A2|apply Rmax_r].
  - apply Rmax_lub; [apply Rmax_lub; lra|lra].
Qed.
Lemma rranges_bounded M h : 0 <= M -> bounded_bars M h -> bounded (M + M) (rranges h).
Proof.
  intros HM. induction 1 as [|b h Hb Hh IH]; [constructor|]. cbn [rranges]. constructor; [|exact IH]. apply rrange_bounded; [|exact Hb].
  destruct Hh as [|x h Hx Hh]; [cbn; rewrite Rabs_R0; exact HM|apply Hx].
Qed.
Theorem ranges_fade p M eps : (1 <= p)%nat -> 0 < eps -> exists K, forall xs ys zs, bounded_bars M (xs ++ zs) -> bounded_bars M (ys ++ zs) -> zs <> [] ->
  (Z.of_nat (length (xs ++ zs)) < 2147483648)%Z -> (Z.of_nat (length (ys ++ zs)) < 2147483648)%Z ->
  exists o o' sf s0 sf' s0', call (AverageTrueRange (Z.of_nat p)) (bars_of (xs ++ zs)) None true = Ok (reals o, sf, s0) /\
    call (AverageTrueRange (Z.of_nat p)) (bars_of (ys ++ zs)) None true = Ok (reals o', sf', s0') /\
    length o = length (xs ++ zs) /\ length o' = length (ys ++ zs) /\ agree_from K eps (length xs) (length ys) (length zs) o o'.
Proof.
  intros Hp E. set (B := Rmax M 0). assert (HB : 0 <= B) by apply Rmax_r. destruct (rma_fading p Hp (B + B) eps) as [K H]; [lra|exact E|]. exists K. intros xs ys zs Bx By NE Lx Ly.
  destruct (atr_outputs p (xs ++ zs) Hp) as (sf & s0 & O); [intros Q; apply app_eq_nil in Q; apply NE, Q|exact Lx|]. destruct (atr_outputs p (ys ++ zs) Hp) as (sf' & s0' & O'); [intros Q; apply app_eq_nil in Q; apply NE, Q|exact Ly|].
  do 6 eexists. split; [exact O|]. split; [exact O'|]. split; [rewrite map_length; apply hists_length|]. split; [rewrite map_length; apply hists_length|]. clear O O' Lx Ly.
  intros n [L1 L2]. unfold at_pos. rewrite !nth_map_hists by (rewrite app_length; lia). rewrite !upto_app by exact L2.
  assert (W : forall l, bounded_bars M l -> bounded_bars B l) by (intros l; apply Forall_impl; intros b (H1 & H2 & H3); unfold B; assert (Q := Rmax_l M 0); repeat split; lra).
  apply W, Forall_app in Bx as [Bx Bz]. apply W, Forall_app in By as [By _].
  assert (U : upto n zs <> []) by (intros Q; apply (f_equal (@length _)) in Q; rewrite upto_length in Q by exact L2; exact (Nat.neq_succ_0 _ Q)).
  destruct (exists_last U) as (z & b & Eu). assert (Lz : length z = n) by (assert (Q := upto_length n zs L2); rewrite Eu, app_length in Q; cbn in Q; lia).
  assert (Bu : bounded_bars B (upto n zs)) by (apply Forall_rev, Forall_firstn, Bz). rewrite Eu in *. rewrite <- !app_assoc. cbn [app].
  assert (Bf : forall l, bounded_bars B l -> bounded (B + B) (rranges (b :: l))). { intros l Hl. apply rranges_bounded; [exact HB|]. apply Forall_app in Bu as [_ Bb]. inversion Bb; subst. now constructor. }
  destruct (rranges_app z b (rev xs)) as (a & La & Ea & Ea'). rewrite Ea, Ea'. apply H; [|apply Bf; now apply Forall_rev|apply Bf; now apply Forall_rev|lia].
  assert (Q : bounded (B + B) (rranges (z ++ b :: rev xs))). { apply rranges_bounded; [exact HB|]. change (b :: rev xs) with ([b] ++ rev xs). rewrite app_assoc. apply Forall_app. split; [exact Bu|now apply Forall_rev]. }
  rewrite Ea in Q. now apply Forall_app in Q.
Qed.
