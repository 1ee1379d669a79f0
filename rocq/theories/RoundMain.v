(** * RoundMain: accuracy of the streamed averages, momentum, crossover and MACD (C55). *)
From Coq Require Import Reals Lra Lia List ZArith Bool.
From Verif Require Import Num Py Tensor Streamable Meta Common Finance Series Formulas Positions
  ImplBasic ImplComp ER RealFacts RealStats MovingFacts ReturnFacts Linear MemoryFacts RealLinear RealScale2 Rounding RoundFacts.
Import ListNotations.
Local Open Scope R_scope.

Section Main.
Context {N : FOps} {fin : F -> Prop} {val : F -> R} (A : accurate N fin val).
Definition close (M eps : R) (f : list F -> F) (g : list R -> R) : Prop :=
  forall h, Forall (fun x => fin x /\ Rabs (val x) <= M) h -> fin (f h) /\ Rabs (val (f h) - g (map val h)) <= eps.

Lemma moderate_good M s xs n j : moderate fin val M xs -> ok_rows s (rev xs) -> (n < length xs)%nat -> (j < prod s)%nat ->
  Forall (fun x => fin x /\ Rabs (val x) <= M) (upto n (numbers xs j)).
Proof.
  intros H [W _] Hn Hj. apply Forall_forall. intros x I. apply (upto_in n (numbers xs j) f0) in I as (i & Hi & <-); [|now rewrite numbers_length].
  rewrite nth_numbers by lia. unfold moderate in H. rewrite Forall_forall in H.
  assert (Ir : In (nth i xs []) xs) by (apply nth_In; lia). specialize (H _ Ir). rewrite Forall_forall in H. apply H.
  unfold number. apply nth_In. apply Forall_rev in W. rewrite rev_involutive in W. rewrite Forall_forall in W. rewrite (W _ Ir). exact Hj.
Qed.
Lemma exactly_ok s xs : ok_rows s (rev xs) -> rshaped s (map (map val) xs).
Proof.
  intros [W L]. split.
  - apply Forall_map. apply Forall_rev in W. rewrite rev_involutive in W. revert W. apply Forall_impl. intros r H. now rewrite map_length.
  - unfold short in *. rewrite map_length. now rewrite rev_length in L.
Qed.
Lemma vals_upto s xs n j : ok_rows s (rev xs) -> (j < prod s)%nat ->
  upto n (rnumbers (map (map val) xs) j) = map val (upto n (numbers xs j)).
Proof.
  intros [W _] Hj. rewrite <- upto_map. f_equal. unfold rnumbers, numbers. rewrite !map_map. apply map_ext_in. intros r I.
  apply Forall_rev in W. rewrite rev_involutive in W. rewrite Forall_forall in W. specialize (W _ I).
  rewrite (nth_indep _ 0 (val f0)) by (rewrite map_length, W; exact Hj). apply map_nth.
Qed.
Lemma exactly_ne xs : xs <> [] -> map (map val) xs <> [].
Proof. now destruct xs. Qed.
Theorem within_from op (exact : @operator ER) s f fe g M eps :
  streams op (ok_rows s) (tensors s) (fun hs => tensors s (map (each s f) hs)) ->
  @streams ER _ exact (ok_rows s) (tensors s) (fun hs => tensors s (map (each s fe) hs)) ->
  known fe g -> close M eps f g -> within fin val eps op exact s M.
Proof.
  intros ST SE K C xs NE OK MO. destruct (tensor_positions _ _ _ _ ST xs NE OK) as (o & sf & s0 & E & L & H).
  destruct (stream_fins exact s fe g (map (map val) xs) SE K (exactly_ne xs NE) (exactly_ok s xs OK)) as (sf' & s0' & E').
  exists o, (map (reach s g) (hists [] (map (map val) xs))), sf, s0, sf', s0'. split; [exact E|]. split; [exact E'|]. split; [exact L|].
  split; [now rewrite map_length, hists_length, map_length|]. intros n j Hn Hj.
  rewrite H by assumption. rewrite reach_number by (rewrite ?map_length; assumption). rewrite (vals_upto s) by assumption.
  apply C. now apply (moderate_good M s).
Qed.
Theorem within_all_from op (exact : @operator ER) s fs fes gs M epss :
  streams op (ok_rows s) (tensors s) (fun hs => Tup (map (fun f => tensors s (map (each s f) hs)) fs)) ->
  @streams ER _ exact (ok_rows s) (tensors s) (fun hs => Tup (map (fun f => tensors s (map (each s f) hs)) fes)) ->
  Forall2 known fes gs -> length fs = length epss -> length gs = length epss ->
  (forall i, (i < length epss)%nat -> close M (nth i epss 0) (nth i fs (fun _ => f0)) (nth i gs (fun _ => 0))) ->
  within_all fin val epss op exact s M.
Proof.
  intros (st & ST & _) (ste & SE & _) K L1 L2 C xs NE OK MO.
  exists (map (fun f => map (each s f) (hists [] xs)) fs), (map (fun g => map (reach s g) (hists [] (map (map val) xs))) gs). do 4 eexists.
  split; [rewrite (ST xs NE OK), map_map; reflexivity|]. split.
  { refine (eq_trans (SE _ (fins_ne _ (exactly_ne xs NE)) (fins_ok s _ (exactly_ok s xs OK))) _).
    exact (f_equal (fun z => Ok (Tup z, _, _)) (RealScale2.each_streams s fes gs _ K)). }
  split; [now rewrite map_length|]. split; [now rewrite map_length|]. intros i n j Hi Hn Hj.
  rewrite (nth_indep _ [] ((fun f => map (each s f) (hists [] xs)) (fun _ => f0))) by (rewrite map_length; lia).
  rewrite (map_nth (fun f => map (each s f) (hists [] xs))).
  rewrite (nth_indep _ [] ((fun g => map (reach s g) (hists [] (map (map val) xs))) (fun _ => 0))) by (rewrite map_length; lia).
  rewrite (map_nth (fun g => map (reach s g) (hists [] (map (map val) xs)))).
  rewrite reach_number by (rewrite ?map_length; assumption). rewrite (vals_upto s) by assumption.
  replace (number (map (each s (nth i fs (fun _ => f0))) (hists [] xs)) j n) with (nth i fs (fun _ => f0) (upto n (numbers xs j))).
  - apply C; [exact Hi|]. now apply (moderate_good M s).
  - unfold number. rewrite nth_map_hists by exact Hn. rewrite each_nth by exact Hj. f_equal. unfold column, numbers, upto. now rewrite map_rev, firstn_map.
Qed.

(** ** Averages and momentum *)
Variables (M : R).
Hypothesis (HM : 0 <= M <= 2 ^ 90).
Notation base := (half_ulp * M + tiny).
Lemma M100 : 0 <= M <= 2 ^ 100.
Proof. split; [apply HM|]. eapply Rle_trans; [apply HM|]. apply Rle_pow; [lra|lia]. Qed.
Lemma sma_within s p : (1 <= p)%nat -> (Z.of_nat p <= 2 ^ 20)%Z ->
  within fin val (2 * (INR p + 1) * base) (SimpleMovingAverage (Z.of_nat p)) (@SimpleMovingAverage ER (Z.of_nat p)) s M.
Proof.
  intros H1 H2. apply (within_from _ _ s (sma p) (@sma ER p) (rsma p)); [now apply sma_streams|now apply (@sma_streams ER)|intros l; now apply sma_eq|].
  intros h. apply (sma_error A p M H1 H2 M100).
Qed.
Lemma ema_within s p : (1 <= p)%nat -> (Z.of_nat p <= 2 ^ 20)%Z ->
  within fin val (6 * (INR p + 1) * base) (ExponentialMovingAverage (Z.of_nat p)) (@ExponentialMovingAverage ER (Z.of_nat p)) s M.
Proof.
  intros H1 H2. apply (within_from _ _ s (ema p) (@ema ER p) (rema p)); [now apply ema_streams|now apply (@ema_streams ER)|intros l; now apply ema_eq|].
  intros h. apply (ema_error A p M H1 H2 M100).
Qed.
Lemma rma_within s p : (1 <= p)%nat -> (Z.of_nat p <= 2 ^ 20)%Z ->
  within fin val (8 * (INR p + 1) * base) (RollingMovingAverage (Z.of_nat p)) (@RollingMovingAverage ER (Z.of_nat p)) s M.
Proof.
  intros H1 H2. apply (within_from _ _ s (rma p) (@rma ER p) (rrma p)); [now apply rma_streams|now apply (@rma_streams ER)|intros l; now apply rma_eq|].
  intros h. apply (rma_error A p M H1 H2 M100).
Qed.
(** A difference of two numbers close to their exact values. *)
Lemma sub_close x y X Y a b B : fin x -> fin y -> Rabs (val x - X) <= a -> Rabs (val y - Y) <= b ->
  Rabs (X - Y) <= B -> B + a + b <= 2 ^ 100 ->
  fin (fsub x y) /\ Rabs (val (fsub x y) - (X - Y)) <= a + b + half_ulp * (B + a + b).
Proof.
  intros Fx Fy Hx Hy HB HL. assert (U := ulp_pos). assert (C100 := two100). assert (BG := big_split).
  assert (D : Rabs (val x - val y - (X - Y)) <= a + b).
  { replace (val x - val y - (X - Y)) with ((val x - X) + - (val y - Y)) by ring. eapply Rle_trans; [apply Rabs_triang|]. rewrite Rabs_Ropp. lra. }
  assert (D2 := abs_sub_le _ _ _ D).
  destruct (a_sub _ _ _ A x y Fx Fy) as [F1 F2]; [rewrite BG; lra|]. split; [exact F1|].
  eapply Rle_trans; [exact (abs_via _ _ _ _ _ F2 D)|]. 
  assert (half_ulp * Rabs (val x - val y) <= half_ulp * (B + a + b)) by (apply Rmult_le_compat_l; lra). lra.
Qed.
Lemma const_fin c : c = f0 -> fin c /\ val c = 0.
Proof. intros ->. apply (a_of_Z _ _ _ A 0). cbn. lia. Qed.
Lemma base0 : 0 <= base.
Proof. assert (U := ulp_pos). assert (T := tiny_pos). assert (0 <= half_ulp * M) by (apply Rmult_le_pos; lra). lra. Qed.
Lemma M92 : 4 * M + 4 <= 2 ^ 100.
Proof. replace (2 ^ 100) with (2 ^ 90 * 1024) by (replace 100%nat with (90 + 10)%nat by reflexivity; rewrite pow_add; lra). assert (1 <= 2 ^ 90) by (apply pow_R1_Rle; lra). lra. Qed.
Lemma momentum_within s p : (1 <= p)%nat ->
  within fin val (2 * base) (Momentum (Z.of_nat p)) (@Momentum ER (Z.of_nat p)) s M.
Proof.
  intros H1. assert (B0 := base0). assert (U := ulp_pos). assert (T := tiny_pos). assert (M92 := M92).
  apply (within_from _ _ s (momentum p) (@momentum ER p) (rmomentum p)); [now apply momentum_streams|now apply (@momentum_streams ER)|..].
  - intros l. unfold momentum, rmomentum. change (@F ER) with ext. rewrite map_length. destruct (length l <=? p)%nat; [reflexivity|].
    unfold now, ago. change (@f0 ER) with (Fin 0). rewrite !(map_nth Fin). cbn. f_equal.
  - intros h H. unfold momentum, rmomentum. rewrite map_length. destruct (Nat.leb_spec (length h) p) as [L|L].
    { destruct (const_fin f0 eq_refl) as [Z1 Z2]. split; [exact Z1|]. rewrite Z2, Rminus_eq_0, Rabs_R0. lra. }
    rewrite Forall_forall in H. unfold now, ago.
    assert (I : forall i, (i < length h)%nat -> fin (nth i h f0) /\ Rabs (val (nth i h f0)) <= M) by (intros i Hi; apply H; now apply nth_In).
    assert (V : forall i, (i < length h)%nat -> nth i (map val h) 0 = val (nth i h f0)).
    { intros i Hi. rewrite (nth_indep _ 0 (val f0)) by (rewrite map_length; exact Hi). apply map_nth. }
    rewrite !V by lia. destruct (I O) as [Fx Bx]; [lia|]. destruct (I p L) as [Fy By]. 
    destruct (sub_close (nth 0 h f0) (nth p h f0) (val (nth 0 h f0)) (val (nth p h f0)) 0 0 (2 * M) Fx Fy) as [G1 G2].
    + rewrite Rminus_eq_0, Rabs_R0. lra.
    + rewrite Rminus_eq_0, Rabs_R0. lra.
    + unfold Rminus. eapply Rle_trans; [apply Rabs_triang|]. rewrite Rabs_Ropp. lra.
    + lra.
    + split; [exact G1|]. eapply Rle_trans; [exact G2|]. lra.
Qed.

(** ** Crossover of two simple averages *)
Definition rcross (slow fast : nat) (h : list R) : R := (if (length h <? slow)%nat then 0 else rsma fast h) - rsma slow h.
Lemma cross_within s slow fast : (1 <= slow)%nat -> (Z.of_nat slow <= 2 ^ 20)%Z -> (1 <= fast)%nat -> (Z.of_nat fast <= 2 ^ 20)%Z ->
  within fin val (3 * (INR slow + INR fast + 2) * base) (SimpleMovingAverageCrossover (Z.of_nat slow) (Z.of_nat fast))
    (@SimpleMovingAverageCrossover ER (Z.of_nat slow) (Z.of_nat fast)) s M.
Proof.
  intros Hs Hs2 Hf Hf2. assert (B0 := base0). assert (U := ulp_pos). assert (T := tiny_pos). assert (M92 := M92). assert (V := ulp_val).
  assert (P1 := period_bounds slow Hs Hs2). assert (P2 := period_bounds fast Hf Hf2).
  assert (Q1 := base_small slow M Hs Hs2 M100). assert (Q2 := base_small fast M Hf Hf2 M100).
  assert (N1 : 2 * base <= (INR slow + 1) * base) by (apply Rmult_le_compat_r; lra). assert (N2 : 2 * base <= (INR fast + 1) * base) by (apply Rmult_le_compat_r; lra).
  apply (within_from _ _ s (crossover_code slow fast) (@crossover_code ER slow fast) (rcross slow fast));
    [now apply crossover_streams|now apply (@crossover_streams ER)|..].
  - intros l. unfold crossover_code, rcross. change (@F ER) with ext. rewrite map_length, (sma_eq slow l Hs), (sma_eq fast l Hf).
    destruct (length l <? slow)%nat; reflexivity.
  - intros h H. unfold crossover_code, rcross. rewrite map_length.
    destruct (sma_error A slow M Hs Hs2 M100 h H) as [F2 E2]. assert (B2 := rsma_bound slow M Hs Hs2 M100 _ (good_vals M h H)).
    assert (X : exists x X, x = (if (length h <? slow)%nat then f0 else sma fast h) /\ X = (if (length h <? slow)%nat then 0 else rsma fast (map val h)) /\
      fin x /\ Rabs (val x - X) <= 2 * (INR fast + 1) * base /\ Rabs X <= M).
    { do 2 eexists. split; [reflexivity|]. split; [reflexivity|]. destruct (length h <? slow)%nat.
      - destruct (const_fin f0 eq_refl) as [Z1 Z2]. split; [exact Z1|]. rewrite Z2, Rminus_eq_0, Rabs_R0. lra.
      - destruct (sma_error A fast M Hf Hf2 M100 h H) as [F1 E1]. split; [exact F1|]. split; [exact E1|]. apply (rsma_bound fast M Hf Hf2 M100 _ (good_vals M h H)). }
    destruct X as (x & X & <- & <- & F1 & E1 & B1).
    destruct (sub_close _ _ _ _ _ _ (2 * M) F1 F2 E1 E2) as [G1 G2].
    + unfold Rminus. eapply Rle_trans; [apply Rabs_triang|]. rewrite Rabs_Ropp. lra.
    + lra.
    + split; [exact G1|]. eapply Rle_trans; [exact G2|].
      assert (half_ulp * ((INR slow + 1) * base) <= 1 / 1000 * ((INR slow + 1) * base)) by (apply Rmult_le_compat_r; [lra|rewrite V; lra]).
      assert (half_ulp * ((INR fast + 1) * base) <= 1 / 1000 * ((INR fast + 1) * base)) by (apply Rmult_le_compat_r; [lra|rewrite V; lra]). 
      assert (0 <= half_ulp * M) by (apply Rmult_le_pos; lra). lra.
Qed.

(** ** MACD *)
Lemma rema_lip p d x y : (1 <= p)%nat -> (Z.of_nat p <= 2 ^ 20)%Z -> 0 <= d -> d <= 2 ^ 100 -> length x = length y ->
  (forall i, (i < length x)%nat -> Rabs (nth i x 0 - nth i y 0) <= d) -> Rabs (rema p x - rema p y) <= d.
Proof.
  intros H1 H2 Hd Hd2 L H. replace (rema p x - rema p y) with (rema p (blend 1 (-1) x y)) by (rewrite rema_linear by exact L; ring).
  apply (rema_bound p d H1 H2 (conj Hd Hd2)). apply Forall_forall. intros z I. unfold blend in I. apply in_map_iff in I as ((a & b) & <- & I). cbn [fst snd].
  apply (In_nth _ _ (0, 0)) in I as (i & Hi & E). rewrite combine_length in Hi. rewrite combine_nth in E by exact L. injection E as <- <-.
  replace (1 * nth i x 0 + -1 * nth i y 0) with (nth i x 0 - nth i y 0) by ring. apply H. lia.
Qed.
Section MACD.
Variables (slow fast m : nat).
Hypotheses (Hs : (1 <= slow)%nat) (Hs2 : (Z.of_nat slow <= 2 ^ 20)%Z) (Hf : (1 <= fast)%nat) (Hf2 : (Z.of_nat fast <= 2 ^ 20)%Z)
  (Hm : (1 <= m)%nat) (Hm2 : (Z.of_nat m <= 2 ^ 20)%Z).
Notation sf := (INR slow + INR fast + 2).
Lemma sf_bounds : 4 <= sf <= 2097154 /\ sf * half_ulp <= 1 / 7.
Proof.
  assert (B1 := period_bounds slow Hs Hs2). assert (B2 := period_bounds fast Hf Hf2). split; [lra|]. rewrite ulp_val. lra.
Qed.
Lemma sf_base : sf * base <= M / 7 + 1.
Proof.
  destruct sf_bounds as [S1 S2]. assert (T := tiny_ulp). assert (sf * half_ulp * M <= 1 / 7 * M) by (apply Rmult_le_compat_r; lra).
  assert (sf * tiny <= sf * half_ulp) by (apply Rmult_le_compat_l; lra). lra.
Qed.
Lemma rmacd_bound h : Forall (fun x => Rabs x <= M) h -> Rabs (rmacd slow fast h) <= 2 * M.
Proof.
  intros H. unfold rmacd. destruct (length h <? slow)%nat; [rewrite Rabs_R0; lra|]. unfold Rminus. eapply Rle_trans; [apply Rabs_triang|]. rewrite Rabs_Ropp.
  assert (Q1 := rema_bound slow M Hs Hs2 M100 h H). assert (Q2 := rema_bound fast M Hf Hf2 M100 h H). lra.
Qed.
Lemma macd_close : close M (7 * sf * base) (macd slow fast) (rmacd slow fast).
Proof.
  intros h H. assert (B0 := base0). destruct sf_bounds as [S1 S2]. assert (SB := sf_base). assert (U := ulp_pos). assert (M9 := M92).
  assert (SP : 0 <= sf * base) by (apply Rmult_le_pos; lra).
  unfold macd, rmacd. rewrite map_length. destruct (length h <? slow)%nat eqn:L.
  { destruct (const_fin f0 eq_refl) as [Z1 Z2]. split; [exact Z1|]. rewrite Z2, Rminus_eq_0, Rabs_R0. lra. }
  destruct (ema_error A fast M Hf Hf2 M100 h H) as [F1 E1]. destruct (ema_error A slow M Hs Hs2 M100 h H) as [F2 E2].
  assert (BD := rmacd_bound _ (good_vals M h H)). unfold rmacd in BD. rewrite map_length, L in BD.
  destruct (sub_close _ _ _ _ _ _ (2 * M) F1 F2 E1 E2 BD) as [G1 G2]; [lra|].
  split; [exact G1|]. eapply Rle_trans; [exact G2|]. 
  replace (6 * (INR fast + 1) * base + 6 * (INR slow + 1) * base) with (6 * (sf * base)) by ring.
  replace (2 * M + 6 * (INR fast + 1) * base + 6 * (INR slow + 1) * base) with (2 * M + 6 * (sf * base)) by ring.
  assert (V := ulp_val). assert (T := tiny_pos). assert (half_ulp * (sf * base) <= 1 / 1000 * (sf * base)) by (apply Rmult_le_compat_r; [lra|rewrite V; lra]).
  assert (4 * base <= sf * base) by (apply Rmult_le_compat_r; lra). assert (0 <= half_ulp * M) by (apply Rmult_le_pos; lra). lra.
Qed.
Lemma trail_vals h i : (i < length h)%nat -> nth i (trail (rmacd slow fast) (map val h)) 0 = rmacd slow fast (map val (skipn i h)) /\
  nth i (trail (macd slow fast) h) f0 = macd slow fast (skipn i h).
Proof.
  revert i. induction h as [|x h IH]; intros i Hi; [easy|]. destruct i as [|i]; [easy|]. cbn [map trail nth skipn]. apply IH. cbn in Hi. lia.
Qed.
Lemma signal_close : close M (18 * (INR m + 1) * base + 7 * sf * base) (macd_signal slow fast m) (rmacd_signal slow fast m).
Proof.
  intros h H. assert (B0 := base0). destruct sf_bounds as [S1 S2]. assert (SB := sf_base). assert (U := ulp_pos). assert (M9 := M92). assert (T := tiny_pos).
  assert (SP : 0 <= sf * base) by (apply Rmult_le_pos; lra). assert (Bm := period_bounds m Hm Hm2). assert (MB : 0 <= (INR m + 1) * base) by (apply Rmult_le_pos; lra).
  unfold macd_signal, rmacd_signal. rewrite map_length. destruct (Nat.ltb_spec (length h) slow) as [L|L].
  { destruct (const_fin f0 eq_refl) as [Z1 Z2]. split; [exact Z1|]. rewrite Z2, Rminus_eq_0, Rabs_R0. lra. }
  set (k := (length h + 1 - slow)%nat). set (D := 7 * sf * base).
  assert (HD : 0 <= D <= M + 7) by (unfold D; split; lra).
  assert (Sk : forall i, Forall (fun x => fin x /\ Rabs (val x) <= M) (skipn i h)).
  { intros i. apply Forall_forall. intros x I. rewrite Forall_forall in H. apply H. rewrite <- (firstn_skipn i h). apply in_or_app. now right. }
  assert (HM2 : 0 <= 2 * M + D <= 2 ^ 100) by (split; [lra|]; assert (2 ^ 100 = 2 ^ 90 * 1024) by (replace 100%nat with (90 + 10)%nat by reflexivity; rewrite pow_add; lra); assert (1 <= 2 ^ 90) by (apply pow_R1_Rle; lra); lra).
  set (l := firstn k (trail (macd slow fast) h)). set (le := firstn k (trail (rmacd slow fast) (map val h))).
  assert (Ll : length l = length le) by (unfold l, le; rewrite !firstn_length, !RealScale2.trail_length, map_length; reflexivity).
  assert (Li : forall i, (i < length l)%nat -> nth i l f0 = macd slow fast (skipn i h) /\ nth i le 0 = rmacd slow fast (map val (skipn i h))).
  { intros i Hi. unfold l in Hi. rewrite firstn_length, RealScale2.trail_length in Hi. unfold l, le. rewrite !nth_firstn by lia.
    destruct (trail_vals h i) as [T1 T2]; [lia|]. now split. }
  assert (G : Forall (fun x => fin x /\ Rabs (val x) <= 2 * M + D) l).
  { apply Forall_forall. intros x I. apply (In_nth _ _ f0) in I as (i & Hi & <-). destruct (Li i Hi) as [-> _].
    destruct (macd_close (skipn i h) (Sk i)) as [F1 E1]. split; [exact F1|]. assert (Q := abs_sub_le _ _ _ E1).
    assert (R := rmacd_bound _ (good_vals M _ (Sk i))). fold D in Q. lra. }
  destruct (ema_error A m (2 * M + D) Hm Hm2 HM2 l G) as [F1 E1]. split; [exact F1|].
  assert (E2 : Rabs (rema m (map val l) - rema m le) <= D).
  { apply rema_lip; try assumption; try lra; [now rewrite map_length|]. rewrite map_length. intros i Hi. destruct (Li i Hi) as [Q1 Q2].
    rewrite (nth_indep _ 0 (val f0)) by (rewrite map_length; exact Hi). rewrite map_nth, Q1, Q2. apply (macd_close (skipn i h) (Sk i)). }
  eapply Rle_trans; [exact (abs_via _ _ _ _ _ E1 E2)|]. fold D. apply Rplus_le_compat_r.
  assert (UD : half_ulp * D <= base).
  { unfold D. replace (half_ulp * (7 * sf * base)) with (7 * (sf * half_ulp) * base) by ring. rewrite <- (Rmult_1_l base) at 2. apply Rmult_le_compat_r; lra. }
  assert (0 <= half_ulp * M) by (apply Rmult_le_pos; lra).
  replace (18 * (INR m + 1) * base) with (6 * (INR m + 1) * (3 * base)) by ring. apply Rmult_le_compat_l; lra.
Qed.
Lemma signal_bound h : Forall (fun x => Rabs x <= M) h -> Rabs (rmacd_signal slow fast m h) <= 2 * M.
Proof.
  intros H. assert (M9 := M92). unfold rmacd_signal. destruct (length h <? slow)%nat; [rewrite Rabs_R0; lra|].
  apply (rema_bound m (2 * M) Hm Hm2); [lra|]. apply Forall_firstn. clear - H HM Hs Hs2 Hf Hf2. induction h as [|x h IH]; [constructor|]. cbn [trail].
  constructor; [now apply rmacd_bound|]. apply IH. now inversion H.
Qed.
Lemma histogram_close : close M (19 * (INR m + 1) * base + 15 * sf * base) (macd_histogram slow fast m) (rmacd_histogram slow fast m).
Proof.
  intros h H. assert (B0 := base0). destruct sf_bounds as [S1 S2]. assert (SB := sf_base). assert (U := ulp_pos). assert (T := tiny_pos). assert (V := ulp_val).
  assert (SP : 0 <= sf * base) by (apply Rmult_le_pos; lra). assert (Bm := period_bounds m Hm Hm2). assert (MB : 0 <= (INR m + 1) * base) by (apply Rmult_le_pos; lra).
  assert (MB2 := base_small m M Hm Hm2 M100).
  unfold macd_histogram, rmacd_histogram. rewrite map_length. destruct (length h + 1 <? slow + m)%nat.
  { destruct (const_fin f0 eq_refl) as [Z1 Z2]. split; [exact Z1|]. rewrite Z2, Rminus_eq_0, Rabs_R0. lra. }
  destruct (macd_close h H) as [F1 E1]. destruct (signal_close h H) as [F2 E2].
  assert (R1 := rmacd_bound _ (good_vals M h H)). assert (R2 := signal_bound _ (good_vals M h H)).
  assert (HL : 20 * M + 60 <= 2 ^ 100) by (assert (2 ^ 100 = 2 ^ 90 * 1024) by (replace 100%nat with (90 + 10)%nat by reflexivity; rewrite pow_add; lra); assert (1 <= 2 ^ 90) by (apply pow_R1_Rle; lra); lra).
  destruct (sub_close _ _ _ _ _ _ (4 * M) F1 F2 E1 E2) as [G1 G2].
  - unfold Rminus. eapply Rle_trans; [apply Rabs_triang|]. rewrite Rabs_Ropp. lra.
  - lra.
  - split; [exact G1|]. eapply Rle_trans; [exact G2|].
    assert (0 <= half_ulp * M) by (apply Rmult_le_pos; lra).
    assert (half_ulp * (sf * base) <= 1 / 1000 * (sf * base)) by (apply Rmult_le_compat_r; [lra|rewrite V; lra]).
    assert (half_ulp * ((INR m + 1) * base) <= 1 / 1000 * ((INR m + 1) * base)) by (apply Rmult_le_compat_r; [lra|rewrite V; lra]).
    assert (4 * base <= sf * base) by (apply Rmult_le_compat_r; lra). assert (2 * base <= (INR m + 1) * base) by (apply Rmult_le_compat_r; lra). lra.
Qed.
Theorem macd_within s :
  within_all fin val [6 * (INR slow + 1) * base; 6 * (INR fast + 1) * base; 7 * sf * base;
      18 * (INR m + 1) * base + 7 * sf * base; 19 * (INR m + 1) * base + 15 * sf * base]
    (MovingAverageConvergenceDivergence (Z.of_nat slow) (Z.of_nat fast) (Z.of_nat m))
    (@MovingAverageConvergenceDivergence ER (Z.of_nat slow) (Z.of_nat fast) (Z.of_nat m)) s M.
Proof.
  apply (within_all_from _ _ s [ema slow; ema fast; macd slow fast; macd_signal slow fast m; macd_histogram slow fast m]
    [@ema ER slow; @ema ER fast; @macd ER slow fast; @macd_signal ER slow fast m; @macd_histogram ER slow fast m]
    [rema slow; rema fast; rmacd slow fast; rmacd_signal slow fast m; rmacd_histogram slow fast m]); try reflexivity.
  - exact (macd_streams s slow fast m Hs Hf Hm).
  - exact (@macd_streams ER s slow fast m Hs Hf Hm).
  - constructor; [intros l; now apply ema_eq|]. constructor; [intros l; now apply ema_eq|]. constructor; [intros l; now apply macd_eq|].
    constructor; [intros l; now apply macd_signal_eq|]. constructor; [intros l; now apply macd_histogram_eq|]. constructor.
  - intros i Hi. cbn [length] in Hi. destruct i as [|[|[|[|[|i]]]]]; cbn [nth]; [..|lia].
    + intros h. apply (ema_error A slow M Hs Hs2 M100).
    + intros h. apply (ema_error A fast M Hf Hf2 M100).
    + apply macd_close.
    + apply signal_close.
    + apply histogram_close.
Qed.
End MACD.
End Main.
