(** * AccuracyMarket: accuracy of returns, volatility, ranges, candles and drawdowns (C60). *)
From Coq Require Import Reals Lra Lia List ZArith Bool.
From Verif Require Import Num Py Tensor Streamable Finance Series Formulas Positions ImplBasic ImplScalar ImplComp ImplMarket ER RealFacts RealStats
  RealMarket RealLinear RealScale RealScale2 MovingFacts ReturnFacts MarketFacts Linear Rounding RoundFacts RoundMain NormFacts Accuracy AccuracyFacts AccuracyMain.
Import ListNotations.
Local Open Scope R_scope.

Section Market.
Context {N : FOps} {fin : F -> Prop} {val : F -> R} (A : accurate N fin val) (O : ordered N fin val).
Lemma zero_fin : fin f0 /\ val f0 = 0.
Proof. exact (const_fin A f0 eq_refl). Qed.
Lemma one_fin : fin f1 /\ val f1 = 1.
Proof. exact (a_of_Z _ _ _ A 1 ltac:(cbn; lia)). Qed.
Lemma zero_known : feq f0 f0 = true.
Proof. destruct zero_fin as [Z1 Z2]. now apply (o_eq _ _ _ O). Qed.

(** ** Returns *)
Definition rchange (G : R -> R) (p : nat) (h : list F) : R := if (length h <=? p)%nat then 0 else G (val (now h) / val (ago p h)).
Section Returns.
Variables (lo hi : R).
Hypotheses (Hlo : 0 < lo <= hi) (HQ : hi / lo <= 2 ^ 90).
Notation Q := (hi / lo).
Notation good := (priced fin val lo hi).
Lemma Q_one : 1 <= Q.
Proof. apply quotient_ge; lra. Qed.
Lemma ratio x y : good x -> good y -> / Q <= val x / val y <= Q.
Proof.
  intros [_ Hx] [_ Hy]. replace (/ Q) with (lo / hi) by (field; lra). split; [apply quotient_ge|apply quotient_le]; try lra.
  - apply (Rle_trans _ (lo / hi * hi)); [apply Rmult_le_compat_l; [apply Rlt_le, Rdiv_lt_0_compat; lra|lra]|]. rewrite quotient; lra.
  - apply (Rle_trans _ (Q * lo)); [rewrite quotient; lra|]. assert (P := Q_one). apply Rmult_le_compat_l; lra.
Qed.
Lemma quotient_close x y : good x -> good y ->
  fin (fdiv x y) /\ Rabs (val (fdiv x y) - val x / val y) <= half_ulp * (val x / val y) + tiny.
Proof.
  intros Gx Gy. destruct (ratio x y Gx Gy) as [R1 R2]. assert (BG := big_split). assert (C100 := two100).
  assert (P := Q_one). assert (0 < / Q) by (apply Rinv_0_lt_compat; lra).
  assert (W : 2 ^ 90 <= 2 ^ 100) by (apply Rle_pow; [lra|lia]). destruct Gx as [Fx Hx], Gy as [Fy Hy].
  assert (E : Rabs (val x / val y) = val x / val y) by (apply Rabs_right; lra).
  destruct (a_div _ _ _ A x y Fx Fy) as [F1 F2]; [lra|rewrite E, BG; lra|]. rewrite E in F2. now split.
Qed.
Lemma nth_good n h : (n < length h)%nat -> Forall good h -> good (nth n h f0).
Proof. intros Hn H. rewrite Forall_forall in H. now apply H, nth_In. Qed.
Lemma change_close f G p eps : 0 <= eps ->
  (forall x y, good x -> good y -> fin (f (fdiv x y)) /\ Rabs (val (f (fdiv x y)) - G (val x / val y)) <= eps) ->
  forall h, Forall good h -> fin (change f p h) /\ Rabs (val (change f p h) - rchange G p h) <= eps.
Proof.
  intros He H h Hh. unfold change, rchange. destruct zero_fin as [Z1 Z2]. destruct (Nat.leb_spec (length h) p) as [L|L]; cbn [orb].
  - split; [exact Z1|]. rewrite Z2, Rminus_eq_0, Rabs_R0. exact He.
  - assert (Gy := nth_good p h L Hh). assert (Gx := nth_good 0 h ltac:(lia) Hh). fold (ago p h) in Gy. fold (ago 0 h) in Gx. fold (now h) in Gx.
    destruct (feq (ago p h) f0) eqn:E; [|now apply H]. exfalso. destruct Gy as [Fy Hy].
    apply (o_eq _ _ _ O) in E; [|exact Fy|exact Z1]. rewrite Z2 in E. lra.
Qed.
Lemma change_exact (fe : ext -> ext) G p h : (forall r, 0 < r -> fe (Fin r) = Fin (G r)) -> Forall good h ->
  @change ER fe p (map (fun x => Fin (val x)) h) = Fin (rchange G p h).
Proof.
  intros H Hh. unfold change, rchange. change (@F ER) with ext. rewrite map_length. destruct (Nat.leb_spec (length h) p) as [L|L]; cbn [orb]; [reflexivity|].
  assert (Gy := nth_good p h L Hh). assert (Gx := nth_good 0 h ltac:(lia) Hh).
  unfold now, ago. change (@F ER) with ext. change (@f0 ER) with (Fin 0).
  rewrite !(nth_indep (map (fun x => Fin (val x)) h) (Fin 0) (Fin (val f0))) by (rewrite map_length; lia).
  rewrite !(map_nth (fun x => Fin (val x))). destruct (ratio _ _ Gx Gy) as [R1 _]. destruct Gx as [_ Hx], Gy as [_ Hy].
  cbn [feq ER e_eq]. unfold Reqb. destruct (Req_EM_T (val (nth p h f0)) 0); [lra|]. cbn [fdiv ER]. rewrite e_div_fin by lra. apply H.
  apply Rdiv_lt_0_compat; lra.
Qed.
Lemma tiny_Q : tiny * Q <= half_ulp / 1000.
Proof.
  assert (T := tiny_pos). apply (Rle_trans _ (tiny * 2 ^ 90)); [apply Rmult_le_compat_l; lra|]. unfold tiny.
  replace (/ 2 ^ 150 * 2 ^ 90) with (/ 2 ^ 60) by (replace 150%nat with (60 + 90)%nat by reflexivity; rewrite pow_add; field; split; apply pow_nonzero; lra).
  rewrite ulp_val. replace 60%nat with (24 + 36)%nat by reflexivity. rewrite pow_add, Rinv_mult. assert (/ 2 ^ 36 <= / 1000) by (apply Rinv_le_contravar; lra).
  apply (Rle_trans _ (/ 2 ^ 24 * / 1000)); [apply Rmult_le_compat_l; lra|]. lra.
Qed.
Theorem ret_within p : (1 <= p)%nat -> scalars_within fin val (3 * half_ulp * Q) (Return (Z.of_nat p)) (@Return ER (Z.of_nat p))
  scalars (@scalars ER) (fun x => Fin (val x)) good.
Proof.
  intros Hp. assert (P := Q_one). assert (U := ulp_pos). assert (V := ulp_val). assert (T := tiny_pos). assert (TQ := tiny_Q).
  assert (T1 : tiny <= tiny * Q) by (rewrite <- (Rmult_1_r tiny) at 1; apply Rmult_le_compat_l; lra).
  assert (BG := big_split). assert (C100 := two100). assert (W : 2 ^ 90 <= 2 ^ 100) by (apply Rle_pow; [lra|lia]).
  assert (UQ : half_ulp <= half_ulp * Q) by (rewrite <- (Rmult_1_r half_ulp) at 1; apply Rmult_le_compat_l; lra).
  assert (UQ2 : half_ulp * (half_ulp * Q) <= 1 / 1000 * (half_ulp * Q)) by (apply Rmult_le_compat_r; [apply Rmult_le_pos; lra|rewrite V; lra]).
  assert (UQ3 : half_ulp * Q <= 1 / 1000 * Q) by (apply Rmult_le_compat_r; [lra|rewrite V; lra]).
  apply (scalars_from _ _ _ _ (ret p) (@ret ER p) (rchange (fun q => q - 1) p)).
  - apply ret_streams; [exact Hp|exact zero_known].
  - apply ret_streams; [exact Hp|exact zero_er].
  - intros h Hh. split; [apply change_exact; [reflexivity|exact Hh]|]. unfold ret.
    apply (change_close (fun q => fsub q f1) (fun q => q - 1)); [lra| |exact Hh].
    intros x y Gx Gy. destruct (quotient_close x y Gx Gy) as [F1 E1]. destruct (ratio x y Gx Gy) as [R1 R2]. destruct one_fin as [O1 O2].
    assert (0 < / Q) by (apply Rinv_0_lt_compat; lra). set (r := val x / val y) in *.
    assert (Ur : half_ulp * r <= half_ulp * Q) by (apply Rmult_le_compat_l; lra).
    assert (UT : half_ulp * tiny <= tiny) by (rewrite <- (Rmult_1_l tiny) at 2; apply Rmult_le_compat_r; [lra|rewrite V; lra]).
    assert (E2 : Rabs (val f1 - 1) <= 0) by (rewrite O2, Rminus_eq_0, Rabs_R0; lra).
    assert (B : Rabs (r - 1) <= Q) by (apply Rabs_le; lra).
    destruct (sub_close A _ _ _ _ _ _ _ F1 O1 E1 E2 B) as [G1 G2]; [lra|]. split; [exact G1|]. eapply Rle_trans; [exact G2|].
    assert (half_ulp * (Q + (half_ulp * r + tiny) + 0) <= half_ulp * Q + half_ulp * (half_ulp * Q) + tiny).
    { rewrite !Rmult_plus_distr_l. assert (half_ulp * (half_ulp * r) <= half_ulp * (half_ulp * Q)) by (apply Rmult_le_compat_l; lra). lra. }
    lra.
Qed.
(** ** Logarithmic returns *)
Variables (e : R).
Hypotheses (He : 0 <= e <= 1) (HL : log_within fin val e (/ (2 * Q)) (2 * Q)).
Lemma log_close x y : good x -> good y -> fin (flog (fdiv x y)) /\ Rabs (val (flog (fdiv x y)) - ln (val x / val y)) <= e + 2 * half_ulp.
Proof.
  intros Gx Gy. destruct (quotient_close x y Gx Gy) as [F1 E1]. destruct (ratio x y Gx Gy) as [R1 R2]. assert (P := Q_one).
  assert (Q0 : 0 < / Q) by (apply Rinv_0_lt_compat; lra). set (r := val x / val y) in *. set (q := val (fdiv x y)) in *.
  assert (U := ulp_pos). assert (V := ulp_val). assert (T := tiny_pos). assert (TQ := tiny_Q).
  assert (IQ : / Q * Q = 1) by (apply Rinv_l; lra).
  assert (TR : tiny <= half_ulp / 1000 * r).
  { assert (tiny <= half_ulp / 1000 * / Q). { apply (Rmult_le_reg_r Q); [lra|]. rewrite Rmult_assoc, IQ. lra. }
    assert (half_ulp / 1000 * / Q <= half_ulp / 1000 * r) by (apply Rmult_le_compat_l; lra). lra. }
  assert (E2 : Rabs (q - r) <= 1.001 * half_ulp * r) by lra.
  assert (D : - (1.001 * half_ulp * r) <= q - r <= 1.001 * half_ulp * r) by (clear - E2; unfold Rabs in E2; destruct (Rcase_abs _); lra).
  assert (HU : half_ulp * r <= 1 / 1000 * r) by (apply Rmult_le_compat_r; [lra|rewrite V; lra]).
  destruct (HL (fdiv x y) F1) as [F2 E3].
  { fold q. rewrite Rinv_mult. lra. }
  fold q in E3. split; [exact F2|]. eapply Rle_trans; [exact (abs_via _ _ _ _ _ E3 (Rle_refl _))|]. apply Rplus_le_compat_l.
  assert (q0 : 0 < q) by lra. assert (r0 : 0 < r) by lra.
  assert (LD : ln q - ln r = ln (q / r)) by (unfold Rdiv; rewrite ln_mult, ln_Rinv by (try apply Rinv_0_lt_compat; lra); ring).
  rewrite LD. assert (qr0 : 0 < q / r) by (apply Rdiv_lt_0_compat; lra). assert (L1 := ln_below _ qr0). assert (L2 := ln_above _ qr0).
  assert (B1 : q / r <= 1 + 1.001 * half_ulp) by (apply quotient_le; lra).
  assert (B2 : / (q / r) <= 1 + 2 * half_ulp).
  { replace (/ (q / r)) with (r / q) by (field; lra). apply quotient_le; [lra|].
    assert (half_ulp * (half_ulp * r) <= 1 / 1000 * (half_ulp * r)) by (apply Rmult_le_compat_r; [apply Rmult_le_pos|rewrite V]; lra).
    apply (Rle_trans _ ((1 + 2 * half_ulp) * (r - 1.001 * half_ulp * r))); [|apply Rmult_le_compat_l; lra]. lra. }
  apply Rabs_le. lra.
Qed.
Lemma log_ret_close p h : Forall good h -> fin (log_ret p h) /\ Rabs (val (log_ret p h) - rchange ln p h) <= e + 2 * half_ulp.
Proof. assert (U := ulp_pos). apply (change_close flog ln p); [lra|exact log_close]. Qed.
Lemma log_ret_exact p h : Forall good h -> @log_ret ER p (map (fun x => Fin (val x)) h) = Fin (rchange ln p h).
Proof. apply change_exact. intros r Hr. cbn [flog ER e_log]. destruct (Rlt_dec 0 r); [reflexivity|lra]. Qed.
Theorem log_ret_within p : (1 <= p)%nat -> scalars_within fin val (e + 2 * half_ulp) (LogarithmicReturn (Z.of_nat p)) (@LogarithmicReturn ER (Z.of_nat p))
  scalars (@scalars ER) (fun x => Fin (val x)) good.
Proof.
  intros Hp. apply (scalars_from _ _ _ _ (log_ret p) (@log_ret ER p) (rchange ln p)).
  - apply log_ret_streams; [exact Hp|exact zero_known].
  - apply log_ret_streams; [exact Hp|exact zero_er].
  - intros h Hh. split; [now apply log_ret_exact|now apply log_ret_close].
Qed.
(** ** Volatility *)
Notation L := (ln Q).
Notation D := (e + 2 * half_ulp).
Lemma L_bounds : 0 <= L <= 90.
Proof.
  assert (P := Q_one). split; [rewrite <- ln_1; destruct (Req_dec 1 Q) as [<-|]; [lra|left; apply ln_increasing; lra]|].
  apply (Rle_trans _ (ln (2 ^ 90))); [destruct (Req_dec Q (2 ^ 90)) as [->|]; [lra|left; apply ln_increasing; lra]|].
  rewrite ln_pow by lra. assert (B := ln_below 2 ltac:(lra)). change (INR 90) with (IZR (Z.of_nat 90)) || rewrite INR_IZR_INZ. 
  apply (Rle_trans _ (IZR (Z.of_nat 90) * 1)); [apply Rmult_le_compat_l; [apply IZR_le; lia|lra]|]. cbn. lra.
Qed.
Lemma ln_mono x y : 0 < x -> x <= y -> ln x <= ln y.
Proof. intros H [K|<-]; [left; now apply ln_increasing|lra]. Qed.
Lemma rlog_bound p h : Forall good h -> Rabs (rchange ln p h) <= L.
Proof.
  intros Hh. assert (B := L_bounds). unfold rchange. destruct (Nat.leb_spec (length h) p) as [K|K]; [rewrite Rabs_R0; lra|].
  assert (Gy := nth_good p h K Hh). assert (Gx := nth_good 0 h ltac:(lia) Hh). destruct (ratio _ _ Gx Gy) as [R1 R2]. unfold now, ago.
  assert (P := Q_one). assert (0 < / Q) by (apply Rinv_0_lt_compat; lra). set (r := val (nth 0 h f0) / val (nth p h f0)) in *.
  assert (L1 := ln_mono r Q ltac:(lra) R2). assert (L2 := ln_mono (/ Q) r ltac:(lra) R1). rewrite ln_Rinv in L2 by lra. apply Rabs_le. lra.
Qed.
Definition rvolatility (m r : nat) (h : list F) : R := if (length h <=? Nat.max m r)%nat then 0 else rmsd m (trail (rchange ln r) h).
Lemma trail_nth {X Y} (f : list X -> Y) d : forall h i, (i < length h)%nat -> nth i (trail f h) d = f (skipn i h).
Proof. induction h as [|x h IH]; intros i Hi; [easy|]. destruct i as [|i]; [easy|]. cbn [trail nth skipn]. apply IH. cbn in Hi. lia. Qed.
Lemma trail_forall {X Y} (f : list X -> Y) (G : X -> Prop) (P : Y -> Prop) : (forall h, Forall G h -> P (f h)) -> forall h, Forall G h -> Forall P (trail f h).
Proof. intros H. induction h as [|x h IH]; intros K; [constructor|]. cbn [trail]. constructor; [now apply H|]. apply IH. now inversion K. Qed.
Lemma trail_exact r : forall h, Forall good h -> trail (@log_ret ER r) (map (fun x => Fin (val x)) h) = map Fin (trail (rchange ln r) h).
Proof.
  induction h as [|x h IH]; intros K; [reflexivity|]. cbn [trail map]. f_equal; [now apply (log_ret_exact r (x :: h))|]. apply IH. now inversion K.
Qed.
Lemma volatility_close m r h : (1 <= m)%nat -> (Z.of_nat m <= 2 ^ 20)%Z -> Forall good h ->
  fin (volatility m r h) /\ Rabs (val (volatility m r h) - rvolatility m r h) <= D + (10 * (INR m + 1) * (half_ulp * (L + D) + tiny) + 2 * root_tiny).
Proof.
  intros Hm Hm2 Hh. assert (LB := L_bounds). assert (U := ulp_pos). assert (V := ulp_val). assert (RT := root_tiny_pos).
  assert (HM : 0 <= L + D <= 2 ^ 50) by (rewrite V; lra). assert (T := tiny_pos). assert (PB := period_bounds m Hm Hm2).
  assert (B0 : 0 <= half_ulp * (L + D)) by (apply Rmult_le_pos; lra).
  assert (C0 : 0 <= 10 * (INR m + 1) * (half_ulp * (L + D) + tiny)) by (apply Rmult_le_pos; lra).
  unfold volatility, rvolatility. destruct (Nat.leb_spec (length h) (Nat.max m r)) as [K|K].
  { destruct zero_fin as [Z1 Z2]. split; [exact Z1|]. rewrite Z2, Rminus_eq_0, Rabs_R0. lra. }
  set (l := trail (log_ret r) h).
  assert (G : Forall (fun x => fin x /\ Rabs (val x) <= L + D) l).
  { apply (trail_forall _ good); [|exact Hh]. intros k Hk. destruct (log_ret_close r k Hk) as [F1 E1]. split; [exact F1|].
    assert (B := rlog_bound r k Hk). assert (X := abs_sub_le _ _ _ E1). lra. }
  destruct (msd_error A O m (L + D) Hm Hm2 HM l G) as [F1 E1]. split; [exact F1|]. rewrite Rplus_comm.
  eapply Rle_trans; [refine (abs_via _ _ _ _ D E1 _)|lra].
  assert (LL : length l = length h) by apply RealScale2.trail_length. assert (LE : length (trail (rchange ln r) h) = length h) by apply RealScale2.trail_length.
  unfold rmsd. rewrite map_length, LL, LE. destruct (Nat.ltb_spec (length h) m); [lia|]. apply deviation_lip; [lra| |].
  - intros E. apply (f_equal (@length R)) in E. rewrite firstn_length, map_length, LL in E. cbn in E. lia.
  - split; [rewrite !firstn_length, map_length; lia|]. rewrite firstn_length, map_length, LL. intros i Hi. rewrite !nth_firstn by lia.
    rewrite (nth_indep _ 0 (val f0)) by (rewrite map_length; lia). rewrite map_nth. unfold l. rewrite !trail_nth by lia. apply log_ret_close.
    now apply Forall_skipn.
Qed.
Theorem volatility_within m r : (1 <= m)%nat -> (Z.of_nat m <= 2 ^ 20)%Z -> (1 <= r)%nat ->
  scalars_within fin val (D + (10 * (INR m + 1) * (half_ulp * (L + D) + tiny) + 2 * root_tiny))
    (Volatility (Z.of_nat m) (Z.of_nat r)) (@Volatility ER (Z.of_nat m) (Z.of_nat r)) scalars (@scalars ER) (fun x => Fin (val x)) good.
Proof.
  intros Hm Hm2 Hr. apply (scalars_from _ _ _ _ (volatility m r) (@volatility ER m r) (rvolatility m r)).
  - apply volatility_streams; [exact Hm|exact Hr|exact zero_known].
  - apply volatility_streams; [exact Hm|exact Hr|exact zero_er].
  - intros h Hh. split; [|now apply volatility_close]. unfold volatility, rvolatility. change (@F ER) with ext. rewrite map_length.
    destruct (length h <=? Nat.max m r)%nat; [reflexivity|]. change (@F ER) with ext in *. rewrite trail_exact by exact Hh. now apply msd_eq.
Qed.
End Returns.

(** ** Candles *)
Section Candles.
Variables (M : R).
Hypotheses (HM : 0 <= M <= 2 ^ 90).
Notation base := (half_ulp * M + tiny).
Notation real := (real_candle val).
Notation good := (fun x => fin x /\ Rabs (val x) <= M).
Lemma close_real h : Forall (sized fin val M) h -> good (last_close h) /\ rlast_close (map real h) = val (last_close h).
Proof.
  destruct zero_fin as [Z1 Z2]. intros H. destruct h as [|c h]; cbn; [rewrite Z2, Rabs_R0; repeat split; [exact Z1|lra]|].
  inversion H as [|? ? Hc _]; subst. unfold sized in Hc. rewrite !Forall_cons_iff in Hc. destruct Hc as (_ & _ & _ & Hc & _). now split.
Qed.
Lemma open_real h : Forall (sized fin val M) h -> good (last_open h) /\ rlast_open (map real h) = val (last_open h).
Proof.
  destruct zero_fin as [Z1 Z2]. intros H. destruct h as [|c h]; cbn; [rewrite Z2, Rabs_R0; repeat split; [exact Z1|lra]|].
  inversion H as [|? ? Hc _]; subst. unfold sized in Hc. rewrite !Forall_cons_iff in Hc. destruct Hc as (Hc & _). now split.
Qed.
Lemma diff_close x y : good x -> good y ->
  fin (fsub x y) /\ Rabs (val (fsub x y) - (val x - val y)) <= 2 * half_ulp * M /\ Rabs (val (fsub x y)) <= 3 * M.
Proof.
  intros [Fx Hx] [Fy Hy]. assert (U := ulp_pos). assert (V := ulp_val). assert (BG := big_split). assert (C100 := two100).
  assert (W : 2 ^ 90 <= 2 ^ 100) by (apply Rle_pow; [lra|lia]).
  assert (B : Rabs (val x - val y) <= 2 * M) by (unfold Rminus; eapply Rle_trans; [apply Rabs_triang|]; rewrite Rabs_Ropp; lra).
  destruct (a_sub _ _ _ A x y Fx Fy) as [F1 E1]; [rewrite BG; lra|]. split; [exact F1|].
  assert (half_ulp * Rabs (val x - val y) <= half_ulp * (2 * M)) by (apply Rmult_le_compat_l; lra).
  assert (half_ulp * M <= 1 / 1000 * M) by (apply Rmult_le_compat_r; [lra|rewrite V; lra]).
  split; [lra|]. assert (X := abs_sub_le _ _ _ E1). lra.
Qed.
Lemma abs_gap a b e : Rabs (a - b) <= e -> Rabs (Rabs a - Rabs b) <= e.
Proof. intros H. eapply Rle_trans; [apply Rabs_triang_inv2|exact H]. Qed.
Lemma range_close c h : sized fin val M c -> Forall (sized fin val M) h ->
  fin (range (last_close h) c) /\ Rabs (val (range (last_close h) c) - rrange (rlast_close (map real h)) (real c)) <= 2 * half_ulp * M /\
  Rabs (val (range (last_close h) c)) <= 3 * M.
Proof.
  intros Hc Hh. destruct (close_real h Hh) as [[Fp Hp] Ep]. rewrite Ep. set (p := last_close h) in *. destruct zero_fin as [Z1 Z2].
  unfold sized in Hc. rewrite !Forall_cons_iff in Hc. destruct Hc as (_ & Gh & Gl & _ & _). assert (U := ulp_pos).
  assert (UM : 0 <= half_ulp * M) by (apply Rmult_le_pos; lra).
  destruct (diff_close _ _ Gh Gl) as (F1 & E1 & B1).
  assert (P : forall x, good x -> let d := if feq p f0 then f0 else fabs (fsub x p) in let r := if Req_EM_T (val p) 0 then 0 else Rabs (val x - val p) in
     fin d /\ Rabs (val d - r) <= 2 * half_ulp * M /\ Rabs (val d) <= 3 * M).
  { intros x Gx d r. unfold d, r. destruct (feq p f0) eqn:E, (Req_EM_T (val p) 0) as [K|K].
    - rewrite Z2, Rminus_eq_0, Rabs_R0. repeat split; [exact Z1|lra|lra].
    - apply (o_eq _ _ _ O) in E; [|exact Fp|exact Z1]. congruence.
    - assert (feq p f0 = true) by (apply (o_eq _ _ _ O); congruence). congruence.
    - destruct (diff_close x p Gx (conj Fp Hp)) as (F2 & E2 & B2). destruct (o_abs _ _ _ O (fsub x p) F2) as [F3 V3]. rewrite V3, Rabs_Rabsolu.
      split; [exact F3|]. split; [now apply abs_gap|exact B2]. }
  destruct (P _ Gh) as (F2 & E2 & B2). destruct (P _ Gl) as (F3 & E3 & B3). clear P. unfold range, rrange, real_candle. cbn [r_high r_low].
  set (x2 := if feq p f0 then f0 else fabs (fsub (c_high c) p)) in *. set (x3 := if feq p f0 then f0 else fabs (fsub (c_low c) p)) in *.
  destruct (o_rmax _ _ _ O (fsub (c_high c) (c_low c)) [x2; x3] F1) as [G1 G2]; [now repeat constructor|]. split; [exact G1|]. rewrite G2. cbn [map fold_left].
  split; [apply max_lip; [apply max_lip|]; assumption|].
  unfold Rmax. repeat destruct (Rle_dec _ _); assumption.
Qed.
Lemma rrma_lip p d x y : (1 <= p)%nat -> (Z.of_nat p <= 2 ^ 20)%Z -> 0 <= d <= 2 ^ 100 -> off d x y -> Rabs (rrma p x - rrma p y) <= d.
Proof.
  intros H1 H2 Hd [L H]. replace (rrma p x - rrma p y) with (rrma p (blend 1 (-1) x y)) by (rewrite rrma_linear by exact L; ring).
  apply (rrma_bound p d H1 H2 Hd). apply Forall_forall. intros z I. unfold blend in I. apply in_map_iff in I as ((a & b) & <- & I). cbn [fst snd].
  apply (In_nth _ _ (0, 0)) in I as (i & Hi & E). rewrite combine_length in Hi. rewrite combine_nth in E by exact L. injection E as <- <-.
  replace (1 * nth i x 0 + -1 * nth i y 0) with (nth i x 0 - nth i y 0) by ring. apply H. lia.
Qed.
Lemma ranges_close h : Forall (sized fin val M) h ->
  Forall (fun x => fin x /\ Rabs (val x) <= 3 * M) (ranges h) /\ off (2 * half_ulp * M) (map val (ranges h)) (rranges (map real h)).
Proof.
  induction h as [|c h IH]; intros H; [split; [constructor|split; [reflexivity|intros i Hi; cbn in Hi; lia]]|]. inversion H as [|? ? Hc Hh]; subst.
  destruct (IH Hh) as (I1 & I2 & I3). destruct (range_close c h Hc Hh) as (F1 & E1 & B1). cbn [ranges map rranges]. split; [constructor; [now split|exact I1]|].
  split; [cbn [length]; now rewrite I2|]. intros [|i] Hi; cbn [nth]; [exact E1|]. apply I3. cbn in Hi. lia.
Qed.
Lemma small : 3 * M <= 2 ^ 100.
Proof.
  apply (Rle_trans _ (4 * 2 ^ 90)); [lra|]. replace (4 * 2 ^ 90) with (2 ^ 92) by (replace 92%nat with (2 + 90)%nat by reflexivity; rewrite pow_add; lra). apply Rle_pow; [lra|lia].
Qed.
Theorem atr_within p : (1 <= p)%nat -> (Z.of_nat p <= 2 ^ 20)%Z ->
  scalars_within fin val (25 * (INR p + 1) * base) (AverageTrueRange (Z.of_nat p)) (@AverageTrueRange ER (Z.of_nat p))
    bars (@bars ER) (fun c => cfin (real_candle val c)) (sized fin val M).
Proof.
  intros H1 H2. assert (U := ulp_pos). assert (T := tiny_pos). assert (SM := small). assert (UM : 0 <= half_ulp * M) by (apply Rmult_le_pos; lra).
  assert (V := ulp_val). assert (UM1 : half_ulp * M <= 1 / 1000 * M) by (apply Rmult_le_compat_r; [lra|rewrite V; lra]).
  assert (PB := period_bounds p H1 H2).
  apply (scalars_from _ _ _ _ (atr p) (@atr ER p) (fun h => rrma p (rranges (map real h)))).
  - now apply atr_streams.
  - now apply atr_streams.
  - intros h Hh. split.
    { unfold atr. rewrite <- map_map. rewrite ranges_fin. now apply rma_eq. }
    destruct (ranges_close h Hh) as [G1 G2]. unfold atr. destruct (rma_error A p (3 * M) H1 H2 ltac:(lra) (ranges h) G1) as [F1 E1]. split; [exact F1|].
    eapply Rle_trans; [refine (abs_via _ _ _ _ (2 * half_ulp * M) E1 _); apply rrma_lip; [exact H1|exact H2|lra|exact G2]|].
    assert (0 <= (INR p + 1) * tiny) by (apply Rmult_le_pos; lra). assert (2 * (half_ulp * M) <= (INR p + 1) * (half_ulp * M)) by (apply Rmult_le_compat_r; lra). lra.
Qed.

(** ** Heikin-Ashi *)
Definition rheikin (h : list rcandle) : rcandle :=
  match h with
  | [] => RC 0 0 0 0
  | c :: r =>
      if Req_EM_T (rlast_open r) 0 then c
      else
        let cl := (r_open c + r_high c + r_low c + r_close c) / 4 in
        let o := (rlast_open r + rlast_close r) / 2 in
        RC o (Rmax (r_high c) (Rmax o cl)) (Rmin (r_low c) (Rmin o cl)) cl
  end.
Lemma rheikin_fin h : heikin_ashi (map cfin h) = cfin (rheikin h).
Proof.
  destruct h as [|c h]; [reflexivity|]. unfold rheikin. destruct (Req_EM_T (rlast_open h) 0) as [E|E].
  - cbn [map heikin_ashi]. rewrite last_open_fin, E. unfold f0. cbn [feq ER f_of_Z e_eq]. unfold Reqb. destruct (Req_EM_T 0 0); [reflexivity|lra].
  - destruct (ha_fin h c E) as (o & hi & lo' & cl & -> & E1 & E2 & E3 & E4 & _). unfold cfin. cbn [r_open r_high r_low r_close]. now rewrite <- E1, <- E2, <- E3, <- E4.
Qed.
Notation near := (candle_within fin val (8 * base)).
Lemma ha_close h : h <> [] -> Forall (sized fin val M) h -> near (heikin_ashi h) (rheikin (map real h)).
Proof.
  intros NE H. destruct h as [|c h]; [easy|]. inversion H as [|? ? Hc Hh]; subst. destruct zero_fin as [Z1 Z2].
  assert (U := ulp_pos). assert (T := tiny_pos). assert (V := ulp_val). assert (UM : 0 <= half_ulp * M) by (apply Rmult_le_pos; lra).
  assert (BG := big_split). assert (C100 := two100). assert (SM := small).
  unfold sized in Hc. rewrite !Forall_cons_iff in Hc. destruct Hc as ([Fo Bo] & [Fh Bh] & [Fl Bl] & [Fc Bc] & _).
  destruct (open_real h Hh) as [[Fpo Bpo] Epo]. destruct (close_real h Hh) as [[Fpc Bpc] Epc].
  unfold candle_within. cbn [map heikin_ashi rheikin]. rewrite Epo, Epc. destruct (feq (last_open h) f0) eqn:E, (Req_EM_T (val (last_open h)) 0) as [K|K].
  - unfold real_candle. cbn [r_open r_high r_low r_close]. rewrite !Rminus_eq_0, !Rabs_R0. repeat split; try assumption; lra.
  - apply (o_eq _ _ _ O) in E; [|exact Fpo|exact Z1]. congruence.
  - assert (feq (last_open h) f0 = true) by (apply (o_eq _ _ _ O); congruence). congruence.
  - unfold real_candle. cbn [r_open r_high r_low r_close c_open c_high c_low c_close].
    set (l4 := [c_close c; c_low c; c_high c; c_open c]).
    assert (UM1 : half_ulp * (half_ulp * M) <= 1 / 1000 * (half_ulp * M)) by (apply Rmult_le_compat_r; [lra|rewrite V; lra]).
    (* close *)
    destruct (mean_error A O l4 M) as [F1 E1]; [cbn; lia|cbn; lia|now repeat constructor| |split; [lra|apply (Rle_trans _ (2 ^ 90)); [lra|apply Rle_pow; [lra|lia]]]|].
    { unfold rmean, rsum, l4. cbn. lra. }
    rewrite (o_mean _ _ _ O) in F1, E1 by discriminate. change (Z.of_nat (length l4)) with 4%Z in F1, E1. change (INR (length l4)) with (INR 4) in E1.
    set (cl := fdiv (fsum l4) (f_of_Z 4)) in *.
    assert (Ecl : Rabs (val cl - (val (c_open c) + val (c_high c) + val (c_low c) + val (c_close c)) / 4) <= 8 * base).
    { replace ((val (c_open c) + val (c_high c) + val (c_low c) + val (c_close c)) / 4) with (rmean (map val l4)) by (unfold rmean, rsum, l4; cbn; field).
      eapply Rle_trans; [exact E1|]. cbn [INR]. lra. }
    (* open *)
    set (po := last_open h) in *. set (pc := last_close h) in *.
    assert (B2 : Rabs (val po + val pc) <= 2 * M) by (eapply Rle_trans; [apply Rabs_triang|lra]).
    destruct (add_close A po pc (val po) (val pc) 0 0 (2 * M) Fpo Fpc) as [F2 E2]; [rewrite Rminus_eq_0, Rabs_R0; lra|rewrite Rminus_eq_0, Rabs_R0; lra|exact B2|lra|].
    destruct (a_of_Z _ _ _ A 2 ltac:(cbn; lia)) as [Ft Vt].
    assert (B3 := abs_sub_le _ _ _ E2).
    assert (AH : forall x, Rabs (x / 2) = Rabs x / 2) by (intros x; unfold Rdiv; rewrite Rabs_mult, (Rabs_right (/ 2)); lra).
    assert (UM2 : half_ulp * M <= 1 / 1000 * M) by (apply Rmult_le_compat_r; [lra|rewrite V; lra]).
    destruct (a_div _ _ _ A (fadd po pc) (f_of_Z 2) F2 Ft) as [F3 E3]; [rewrite Vt; lra|rewrite Vt, AH, BG; lra|]. rewrite Vt, AH in E3.
    set (o := fdiv (fadd po pc) (f_of_Z 2)) in *.
    assert (Eo : Rabs (val o - (val po + val pc) / 2) <= 8 * base).
    { eapply Rle_trans; [refine (abs_via _ _ _ _ (half_ulp * M) E3 _)|].
      - replace (val (fadd po pc) / 2 - (val po + val pc) / 2) with ((val (fadd po pc) - (val po + val pc)) / 2) by lra. rewrite AH. lra.
      - assert (half_ulp * (Rabs (val (fadd po pc)) / 2) <= half_ulp * (2 * M)) by (apply Rmult_le_compat_l; lra). lra. }
    set (ro := (val po + val pc) / 2) in *. set (rc := (val (c_open c) + val (c_high c) + val (c_low c) + val (c_close c)) / 4) in *.
    assert (Z0 : forall x, Rabs (x - x) <= 8 * base) by (intros x; rewrite Rminus_eq_0, Rabs_R0; lra).
    destruct (o_rmax _ _ _ O (c_high c) [cl; o] Fh) as [G1 G2]; [now repeat constructor|]. destruct (o_rmin _ _ _ O (c_low c) [cl; o] Fl) as [G3 G4]; [now repeat constructor|].
    rewrite G2, G4. cbn [map fold_left].
    replace (Rmax (val (c_high c)) (Rmax ro rc)) with (Rmax (Rmax (val (c_high c)) rc) ro) by (rewrite (Rmax_comm ro), Rmax_assoc; reflexivity).
    replace (Rmin (val (c_low c)) (Rmin ro rc)) with (Rmin (Rmin (val (c_low c)) rc) ro) by (rewrite (Rmin_comm ro), Rmin_assoc; reflexivity).
    repeat split; try assumption; [apply max_lip; [apply max_lip|]|apply min_lip; [apply min_lip|]]; auto.
Qed.
Theorem ha_within xs : xs <> [] -> Forall (sized fin val M) xs ->
  exists o oe sf s0 sf' s0',
    call HeikinAshi (candles xs) None true = Ok (candles o, sf, s0) /\
    @call ER HeikinAshi (@candles ER (map (fun c => cfin (real_candle val c)) xs)) None true = Ok (@candles ER (map cfin oe), sf', s0') /\
    length o = length xs /\ length oe = length xs /\
    forall n, (n < length xs)%nat -> near (nth n o no_candle) (nth n oe (RC 0 0 0 0)).
Proof.
  intros NE G. destruct (ha_streams (N := N)) as (st & S1 & _). destruct (@ha_streams ER) as (ste & S2 & _).
  exists (map heikin_ashi (hists [] xs)), (map (fun h => rheikin (map real h)) (hists [] xs)). do 4 eexists. split; [apply S1; [exact NE|exact I]|]. split.
  { rewrite S2 by (try exact I; now destruct xs). do 3 f_equal. f_equal. change (@nil (@candle ER)) with (map (fun c => cfin (real_candle val c)) []).
    rewrite RealScale.hists_map, !map_map. apply map_ext. intros h. rewrite <- (map_map (real_candle val) cfin). apply rheikin_fin. }
  rewrite !map_length, !hists_length. split; [reflexivity|]. split; [reflexivity|]. intros n Hn. rewrite !nth_map_hists by exact Hn. apply ha_close.
  - intros E. apply (f_equal (@length _)) in E. unfold upto in E. rewrite rev_length, firstn_length in E. change (length (@nil candle)) with 0%nat in E. lia.
  - apply Forall_forall. intros x Ix. apply in_upto in Ix. rewrite Forall_forall in G. now apply G.
Qed.
End Candles.

(** ** Drawdown *)
Definition rdrawdown (h : list R) : R :=
  match h with [] => 0 | x :: r => if Rlt_dec (rpeak r) (1 / 10000) then 0 else Rmin 0 (x / rpeak r - 1) end.
Lemma rdrawdown_fin h : @drawdown ER (map Fin h) = Fin (rdrawdown h).
Proof. destruct h as [|x h]; [reflexivity|]. apply drawdown_fin. Qed.
Lemma peak_close h : Forall fin h -> fin (peak h) /\ val (peak h) = rpeak (map val h).
Proof.
  induction h as [|x h IH]; intros H; [exact zero_fin|]. inversion H as [|? ? Hx Hh]; subst. destruct (IH Hh) as [I1 I2]. cbn [peak map rpeak].
  destruct (o_max _ _ _ O x (peak h) Hx I1) as [M1 M2]. now rewrite M2, I2.
Qed.
Lemma rpeak_ge x h : In x h -> x <= rpeak h.
Proof. assert (P := rpeak_upper h). rewrite Forall_forall in P. apply P. Qed.
Lemma drawdown_close h x0 : Forall (priced fin val 0 (2 ^ 80)) (h ++ [x0]) -> 1 / 1000 <= val x0 ->
  fin (drawdown (h ++ [x0])) /\ Rabs (val (drawdown (h ++ [x0])) - rdrawdown (map val (h ++ [x0]))) <= 4 * half_ulp.
Proof.
  intros H H0. destruct zero_fin as [Z1 Z2]. destruct one_fin as [O1 O2]. assert (U := ulp_pos). assert (V := ulp_val). assert (T := tiny_pos). assert (T1 := tiny_ulp).
  assert (BG := big_split). assert (C100 := two100). destruct (o_tolerance _ _ _ O) as [Ft Et].
  assert (Et' : 99 / 1000000 <= val tolerance <= 101 / 1000000) by (clear - Et; unfold Rabs in Et; destruct (Rcase_abs _); lra). clear Et.
  assert (Q : forall x r, Forall fin r -> drawdown (x :: r) = if flt (fabs (peak r)) tolerance then f0 else fmin f0 (fsub (fdiv x (peak r)) f1)) by reflexivity.
  assert (Hf : Forall fin (h ++ [x0])) by (eapply Forall_impl; [|exact H]; now intros a [? _]).
  assert (TT : tiny <= half_ulp / 1000).
  { assert (R1 := tiny_root). assert (R2 := root_tiny_pos). assert (root_tiny <= half_ulp); [|lra]. unfold root_tiny, half_ulp. apply Rinv_le_contravar; [apply pow_lt; lra|apply Rle_pow; [lra|lia]]. }
  destruct h as [|x h]; cbn [app] in *.
  { cbn [map rdrawdown rpeak drawdown]. cbn [peak]. destruct (o_abs _ _ _ O f0 Z1) as [A1 A2]. rewrite Z2, Rabs_R0 in A2.
    assert (L : flt (fabs f0) tolerance = true) by (apply (o_lt _ _ _ O); [exact A1|exact Ft|lra]). rewrite L. split; [exact Z1|].
    destruct (Rlt_dec 0 (1 / 10000)); [|lra]. rewrite Z2, Rminus_eq_0, Rabs_R0. lra. }
  inversion H as [|? ? [Fx Hx] Hr]; subst. inversion Hf as [|? ? _ Hrf]; subst. set (r := h ++ [x0]) in *.
  destruct (peak_close r Hrf) as [P1 P2]. assert (PB : 1 / 1000 <= rpeak (map val r)).
  { eapply Rle_trans; [exact H0|]. apply rpeak_ge, in_map. unfold r. apply in_or_app. right. now left. }
  cbn [map rdrawdown drawdown]. rewrite <- P2 in *. set (p := peak r) in *. destruct (o_abs _ _ _ O p P1) as [A1 A2]. rewrite Rabs_right in A2 by lra.
  destruct (flt (fabs p) tolerance) eqn:L; [apply (o_lt _ _ _ O) in L; [lra|exact A1|exact Ft]|]. destruct (Rlt_dec (val p) (1 / 10000)); [lra|].
  assert (q0 : 0 <= val x / val p) by (apply quotient_ge; lra). set (q := val x / val p) in *.
  assert (qb : q <= 2 ^ 90) by (apply quotient_le; [lra|]; apply (Rle_trans _ (2 ^ 90 * (1 / 1000))); [|apply Rmult_le_compat_l; [apply pow_le; lra|lra]];
    replace (2 ^ 90) with (2 ^ 80 * 1024) by (replace 90%nat with (80 + 10)%nat by reflexivity; rewrite pow_add; lra); assert (0 <= 2 ^ 80) by (apply pow_le; lra); lra).
  assert (W : 2 ^ 90 <= 2 ^ 100) by (apply Rle_pow; [lra|lia]).
  assert (Aq : Rabs q = q) by (apply Rabs_right; lra).
  destruct (a_div _ _ _ A x p Fx P1) as [F1 E1]; [lra|fold q; rewrite Aq, BG; lra|]. fold q in E1. rewrite Aq in E1. set (d := fdiv x p) in *.
  assert (Uq : half_ulp * q <= 1 / 1000 * q) by (apply Rmult_le_compat_r; [lra|rewrite V; lra]).
  assert (E2 : Rabs (val f1 - 1) <= 0) by (rewrite O2, Rminus_eq_0, Rabs_R0; lra).
  assert (B : Rabs (q - 1) <= q + 1) by (apply Rabs_le; lra).
  destruct (sub_close A d f1 q 1 _ 0 (q + 1) F1 O1 E1 E2 B) as [G1 G2]; [lra|].
  destruct (o_min _ _ _ O f0 (fsub d f1) Z1 G1) as [M1 M2]. split; [exact M1|]. rewrite M2, Z2.
  assert (D1 : val d - q <= half_ulp * q + tiny /\ - (half_ulp * q + tiny) <= val d - q) by (clear - E1; unfold Rabs in E1; destruct (Rcase_abs _); lra).
  destruct (a_sub _ _ _ A d f1 F1 O1) as [_ G3]; [rewrite O2, BG; apply Rabs_le; lra|]. rewrite O2 in G3.
  destruct (Rle_lt_dec q 2) as [C|C].
  - apply min_lip; [rewrite Rminus_eq_0, Rabs_R0; lra|]. eapply Rle_trans; [refine (abs_via _ _ _ _ (half_ulp * q + tiny) G3 _)|].
    + replace (val d - 1 - (q - 1)) with (val d - q) by ring. exact E1.
    + assert (half_ulp * q <= half_ulp * 2) by (apply Rmult_le_compat_l; lra).
      assert (Rabs (val d - 1) <= 1 + 1 / 100) by (apply Rabs_le; rewrite V in *; lra).
      assert (half_ulp * Rabs (val d - 1) <= half_ulp * (1 + 1 / 100)) by (apply Rmult_le_compat_l; lra). lra.
  - assert (D2 : 9 / 10 <= val d - 1) by (rewrite V in *; lra). rewrite (Rabs_right (val d - 1)) in G3 by lra.
    assert (half_ulp * (val d - 1) <= 1 / 1000 * (val d - 1)) by (apply Rmult_le_compat_r; [lra|rewrite V; lra]).
    assert (0 <= val (fsub d f1)) by (clear - G3 D2 H1; unfold Rabs in G3; destruct (Rcase_abs _); lra).
    rewrite !Rmin_left by lra. rewrite Rminus_eq_0, Rabs_R0. lra.
Qed.
Theorem drawdown_within xs x0 : below31 (x0 :: xs) -> Forall (priced fin val 0 (2 ^ 80)) (x0 :: xs) -> 1 / 1000 <= val x0 ->
  exists o oe sf s0 sf' s0',
    call Drawdown (scalars (x0 :: xs)) None true = Ok (drawdowns o, sf, s0) /\
    @call ER Drawdown (@scalars ER (map (fun x => Fin (val x)) (x0 :: xs))) None true =
      Ok (@drawdowns ER (map (fun q => (Fin (fst q), snd q)) oe), sf', s0') /\
    length o = length (x0 :: xs) /\ length oe = length (x0 :: xs) /\
    forall n, (n < length (x0 :: xs))%nat ->
      fin (fst (nth n o (f0, 0%Z))) /\ Rabs (val (fst (nth n o (f0, 0%Z))) - fst (nth n oe (0, 0%Z))) <= 4 * half_ulp.
Proof.
  intros OK G G0. set (ys := x0 :: xs) in *. assert (NE : ys <> []) by discriminate.
  destruct (drawdown_streams (N := N)) as (st & S1 & _). destruct (@drawdown_streams ER) as (ste & S2 & _).
  exists (map (fun h => (drawdown h, under_water h)) (hists [] ys)), (map (fun h => (rdrawdown (map val h), @under_water ER (map (fun x => Fin (val x)) h))) (hists [] ys)).
  do 4 eexists. split; [apply S1; [exact NE|unfold below31 in *; now rewrite rev_length]|]. split.
  { rewrite S2; [|discriminate|unfold below31 in *; now rewrite rev_length, map_length]. do 3 f_equal. f_equal.
    change (@nil (@F ER)) with (map (fun x => Fin (val x)) []). rewrite RealScale.hists_map, !map_map. apply map_ext. intros h. cbn [fst snd].
    f_equal. rewrite <- (map_map val Fin). apply rdrawdown_fin. }
  rewrite !map_length, !hists_length. split; [reflexivity|]. split; [reflexivity|]. intros n Hn. rewrite !nth_map_hists by exact Hn. cbn [fst].
  assert (E : upto n ys = rev (firstn n xs) ++ [x0]) by reflexivity. rewrite E. apply drawdown_close; [|exact G0]. rewrite <- E.
  apply Forall_forall. intros x Ix. apply in_upto in Ix. rewrite Forall_forall in G. now apply G.
Qed.
End Market.
