(** * AccuracyFacts: rounding errors of deviations, returns, ranges (C60). *)
From Coq Require Import Reals Lra Lia List ZArith Bool.
From Verif Require Import Num Py Tensor Streamable Finance Series Formulas Positions ImplBasic ER RealFacts RealStats RealMarket RealLinear RealScale2 MovingFacts
  Rounding RoundFacts RoundMain NormFacts Accuracy.
Import ListNotations.
Local Open Scope R_scope.

Section Facts.
Context {N : FOps} {fin : F -> Prop} {val : F -> R} (A : accurate N fin val) (O : ordered N fin val).
Lemma root_tiny_sq : root_tiny * root_tiny = 4 * tiny.
Proof.
  Transparent tiny. unfold root_tiny, tiny. rewrite <- Rinv_mult. replace (2 ^ 74 * 2 ^ 74) with (2 ^ 148) by (rewrite <- pow_add; reflexivity).
  replace (2 ^ 150) with (2 ^ 148 * 4) by (replace 150%nat with (148 + 2)%nat by reflexivity; rewrite pow_add; lra).
  assert (0 < 2 ^ 148) by (apply pow_lt; lra). field; lra.
Qed.
Opaque tiny.
Lemma root_tiny_pos : 0 < root_tiny.
Proof. unfold root_tiny. apply Rinv_0_lt_compat, pow_lt. lra. Qed.
Lemma tiny_root : tiny <= root_tiny / 1000.
Proof.
  assert (Q := root_tiny_sq). assert (P := root_tiny_pos). assert (S : root_tiny <= / 1000).
  { unfold root_tiny. apply Rinv_le_contravar; [lra|]. apply (Rle_trans _ (2 ^ 10)); [lra|]. apply Rle_pow; [lra|lia]. }
  assert (root_tiny * root_tiny <= / 1000 * root_tiny) by (apply Rmult_le_compat_r; lra). lra.
Qed.

(** Means. *)
Lemma mean_error l T : (1 <= length l)%nat -> (Z.of_nat (length l) <= 2 ^ 20)%Z -> Forall fin l ->
  rmean (map (fun x => Rabs (val x)) l) <= T -> 0 <= T <= 2 ^ 106 ->
  fin (fmean l) /\ Rabs (val (fmean l) - rmean (map val l)) <= 8 / 7 * ((INR (length l) + 1) * half_ulp) * T + tiny.
Proof.
  intros H1 H2 Fl HT BT. set (p := length l) in *. assert (PB := period_bounds p H1 H2). assert (PU := period_ulp p H1 H2). assert (U := ulp_pos).
  assert (T0 := tiny_pos). assert (BG := big_split). assert (C100 := two100).
  rewrite (o_mean _ _ _ O) by (intros ->; cbn in H1; lia). fold p.
  unfold rmean in *. rewrite map_length in *. fold p in HT |- *.
  set (S := rsum (map val l)). set (SA := rsum (map (fun x => Rabs (val x)) l)) in *.
  assert (SA0 : 0 <= SA) by apply (abs_total_pos l).
  assert (SAT : SA <= INR p * T).
  { apply (Rmult_le_compat_r (INR p)) in HT; [|lra]. unfold Rdiv in HT. rewrite Rmult_assoc, Rinv_l, Rmult_1_r in HT by lra. lra. }
  assert (SS : Rabs S <= SA) by apply (total_abs l).
  assert (PW := pow_ulp p). assert (PP : (1 + half_ulp) ^ p <= 1 + 8 / 7 * (INR p * half_ulp)) by (apply PW; lra). clear PW.
  assert (NP : INR p * half_ulp <= 1 / 8) by lra.
  assert (TB : INR p * T <= 2 ^ 100 * 67108864).
  { apply (Rle_trans _ (1048576 * 2 ^ 106)); [apply Rmult_le_compat; lra|]. replace (2 ^ 106) with (2 ^ 100 * 64) by (replace 106%nat with (100 + 6)%nat by reflexivity; rewrite pow_add; lra). lra. }
  destruct (a_sum _ _ _ A l Fl) as [F1 E1].
  { fold p. fold (rsum (map (fun x => Rabs (val x)) l)). fold SA. apply (Rle_trans _ (2 * SA)); [apply Rmult_le_compat_r; lra|]. rewrite BG. lra. }
  fold p in E1. fold (rsum (map (fun x => Rabs (val x)) l)) in E1. fold SA in E1. fold (rsum (map val l)) in E1. fold S in E1.
  set (s := fsum l) in *.
  assert (E2 : Rabs (val s - S) <= 8 / 7 * (INR p * half_ulp) * SA) by (eapply Rle_trans; [exact E1|]; apply Rmult_le_compat_r; lra).
  assert (SB : Rabs (val s) <= 8 / 7 * SA).
  { assert (Q := abs_sub_le _ _ _ E2). assert (8 / 7 * (INR p * half_ulp) * SA <= 1 / 7 * SA) by (apply Rmult_le_compat_r; lra). lra. }
  destruct (period_fin A p H1 H2) as [Fp Vp].
  assert (AD : forall x, Rabs (x / INR p) = Rabs x / INR p) by (intros x; unfold Rdiv; rewrite Rabs_mult, (Rabs_right (/ INR p)); [reflexivity|apply Rle_ge, Rlt_le, Rinv_0_lt_compat; lra]).
  assert (DI : forall x y, x <= y * INR p -> x / INR p <= y) by (intros x y H; apply (Rmult_le_reg_r (INR p)); [lra|]; unfold Rdiv; rewrite Rmult_assoc, Rinv_l, Rmult_1_r; lra).
  assert (SD : Rabs (val s / INR p) <= 8 / 7 * T) by (rewrite AD; apply DI; lra).
  destruct (a_div _ _ _ A s (f_of_Z (Z.of_nat p)) F1 Fp) as [F2 E3]; [rewrite Vp; lra|rewrite Vp, BG; replace (2 ^ 106) with (2 ^ 100 * 64) in BT by (replace 106%nat with (100 + 6)%nat by reflexivity; rewrite pow_add; lra); lra|].
  rewrite Vp in E3. split; [exact F2|].
  assert (E4 : Rabs (val s / INR p - S / INR p) <= 8 / 7 * (INR p * half_ulp) * T).
  { replace (val s / INR p - S / INR p) with ((val s - S) / INR p) by (field; lra). rewrite AD. apply DI.
    eapply Rle_trans; [exact E2|]. apply (Rle_trans _ (8 / 7 * (INR p * half_ulp) * (INR p * T))); [|right; ring].
    apply Rmult_le_compat_l; [|exact SAT]. apply Rmult_le_pos; [lra|]. apply Rmult_le_pos; lra. }
  assert (E5 := abs_via _ _ _ _ _ E3 E4). eapply Rle_trans; [exact E5|].
  assert (half_ulp * Rabs (val s / INR p) <= half_ulp * (8 / 7 * T)) by (apply Rmult_le_compat_l; lra). lra.
Qed.

(** ** Deviations *)
Section Deviation.
Variables (p : nat) (M : R).
Hypotheses (Hp : (1 <= p)%nat) (Hp20 : (Z.of_nat p <= 2 ^ 20)%Z) (HM : 0 <= M <= 2 ^ 50).
Notation good := (fun x => fin x /\ Rabs (val x) <= M).
Notation base := (half_ulp * M + tiny).
Lemma M_small : 4 * M + 4 <= 2 ^ 53.
Proof. replace (2 ^ 53) with (2 ^ 50 * 8) by (replace 53%nat with (50 + 3)%nat by reflexivity; rewrite pow_add; lra). assert (1 <= 2 ^ 50) by (apply pow_R1_Rle; lra). lra. Qed.
Lemma HM90 : 0 <= M <= 2 ^ 90.
Proof. split; [apply HM|]. eapply Rle_trans; [apply HM|]. apply Rle_pow; [lra|lia]. Qed.
Lemma HM100 : 0 <= M <= 2 ^ 100.
Proof. split; [apply HM|]. eapply Rle_trans; [apply HM|]. apply Rle_pow; [lra|lia]. Qed.
(** Distances to the mean. *)
Lemma distance_error w x : length w = p -> Forall good w -> good x ->
  fin (fsub x (fmean w)) /\ Rabs (val (fsub x (fmean w)) - (val x - rmean (map val w))) <= 4 * ((INR p + 1) * base).
Proof.
  intros L Hw [Fx Bx]. assert (SE := sma_error A p M Hp Hp20 HM100 w Hw). assert (B0 := base_nonneg M HM100). assert (U := ulp_pos). assert (T := tiny_pos). assert (V := ulp_val).
  assert (PB := period_bounds p Hp Hp20). assert (BS := base_small p M Hp Hp20 HM100). assert (MS := M_small).
  assert (E : sma p w = fmean w).
  { unfold sma. rewrite L, Nat.ltb_irrefl, firstn_all2 by lia. rewrite (o_mean _ _ _ O), L; [reflexivity|]. intros ->. cbn in L. lia. }
  assert (E' : rsma p (map val w) = rmean (map val w)) by (unfold rsma; rewrite map_length, L, Nat.ltb_irrefl, firstn_all2 by (rewrite map_length; lia); reflexivity).
  assert (RB := rsma_bound p M Hp Hp20 HM100 _ (good_vals M w Hw)).
  rewrite E, E' in *. destruct SE as [F1 E1].
  destruct (sub_close A x (fmean w) (val x) (rmean (map val w)) 0 (2 * (INR p + 1) * base) (2 * M) Fx F1) as [G1 G2].
  - rewrite Rminus_eq_0, Rabs_R0. lra.
  - exact E1.
  - unfold Rminus. eapply Rle_trans; [apply Rabs_triang|]. rewrite Rabs_Ropp. lra.
  - apply (Rle_trans _ (2 ^ 53)); [lra|]. apply Rle_pow; [lra|lia].
  - split; [exact G1|]. eapply Rle_trans; [exact G2|]. set (q := (INR p + 1) * base) in *.
    assert (Q : 2 * base <= q) by (unfold q; apply Rmult_le_compat_r; lra).
    replace (2 * (INR p + 1) * base) with (2 * q) by (unfold q; ring). 
    assert (half_ulp * q <= 1 / 1000 * q) by (apply Rmult_le_compat_r; [lra|rewrite V; lra]). assert (0 <= half_ulp * M) by (apply Rmult_le_pos; lra).
    lra.
Qed.
Lemma var_error w : length w = p -> Forall good w ->
  fin (fsqrt (fvar w)) /\ Rabs (val (fsqrt (fvar w)) - sqrt (rvar (map val w))) <= 10 * (INR p + 1) * base + 2 * root_tiny.
Proof.
  intros L Hw. assert (B0 := base_nonneg M HM100). assert (U := ulp_pos). assert (T := tiny_pos). assert (V := ulp_val).
  assert (PB := period_bounds p Hp Hp20). assert (PU := period_ulp p Hp Hp20). assert (BS := base_small p M Hp Hp20 HM100). assert (MS := M_small).
  assert (RT := root_tiny_pos). assert (TR := tiny_root). assert (T1 := tiny_ulp).
  assert (NE : w <> []) by (intros ->; cbn in L; lia).
  set (q := (INR p + 1) * base) in *. assert (Q : 2 * base <= q) by (unfold q; apply Rmult_le_compat_r; lra).
  assert (UM : 0 <= half_ulp * M) by (apply Rmult_le_pos; lra).
  set (m := fmean w) in *. set (ds := map (fun x => fsub x m) w). set (d := map val ds). set (dx := centred (map val w)).
  assert (DE : forall x, In x w -> fin (fsub x m) /\ Rabs (val (fsub x m) - (val x - rmean (map val w))) <= 4 * q).
  { intros x I. unfold q, m. apply distance_error; [exact L|exact Hw|]. rewrite Forall_forall in Hw. exact (Hw x I). }
  assert (OFF : off (4 * q) d dx).
  { unfold d, dx, ds, centred. split; [now rewrite !map_length|]. rewrite !map_length. intros i Hi.
    rewrite (nth_indep _ 0 (val (fsub f0 m))) by (rewrite !map_length; exact Hi). rewrite map_nth, (map_nth (fun x => fsub x m)).
    rewrite (nth_indep (map (fun x => x - rmean (map val w)) (map val w)) 0 ((fun x => x - rmean (map val w)) (val f0))) by (rewrite !map_length; exact Hi).
    rewrite (map_nth (fun x => x - rmean (map val w))), map_nth. apply DE. now apply nth_In. }
  assert (NEd : d <> []) by (unfold d, ds; intros E; apply NE; apply map_eq_nil in E; now apply map_eq_nil in E).
  assert (LIP := rms_lip (4 * q) d dx ltac:(lra) NEd OFF).
  assert (SD := deviation_le M (map val w) ltac:(lra) ltac:(intros E; apply NE; now apply map_eq_nil in E) (good_vals M w Hw)).
  rewrite rvar_rms in SD |- *. fold dx in SD |- *.
  set (r := rms d) in *. set (rx := rms dx) in *.
  assert (r0 : 0 <= r) by apply sqrt_pos.
  assert (rB : r <= M + 4 * q) by (assert (Z := Rle_abs (r - rx)); lra).
  (* squares *)
  assert (Dle : forall x, In x w -> Rabs (val (fsub x m)) <= 2 * M + 4 * q).
  { intros x I. destruct (DE x I) as [_ E]. assert (Z := abs_sub_le _ _ _ E). assert (B1 : Rabs (val x) <= M) by (rewrite Forall_forall in Hw; apply (Hw x I)).
    assert (B2 : Rabs (rmean (map val w)) <= M).
    { assert (RB := rsma_bound p M Hp Hp20 HM100 _ (good_vals M w Hw)). unfold rsma in RB. rewrite map_length, L, Nat.ltb_irrefl, firstn_all2 in RB by (rewrite map_length; lia). exact RB. }
    assert (Z2 := Rabs_triang (val x) (- rmean (map val w))). rewrite Rabs_Ropp in Z2. unfold Rminus in Z, Z2. lra. }
  assert (BSq : 8 * q <= M + 1) by (unfold q; lra). assert (D53 : 2 * M + 4 * q <= 2 ^ 53) by lra.
  assert (P53 : 2 ^ 53 * 2 ^ 53 = 2 ^ 106) by (rewrite <- pow_add; reflexivity).
  assert (BIG : 2 ^ 106 <= big) by (rewrite big_split; replace (2 ^ 106) with (2 ^ 100 * 64) by (replace 106%nat with (100 + 6)%nat by reflexivity; rewrite pow_add; lra); assert (Z := two100); lra).
  assert (SQ : forall x, In x w -> fin (fmul (fsub x m) (fsub x m)) /\
    Rabs (val (fmul (fsub x m) (fsub x m)) - val (fsub x m) * val (fsub x m)) <= half_ulp * (val (fsub x m) * val (fsub x m)) + tiny).
  { intros x I. destruct (DE x I) as [Fd _]. assert (Z := Dle x I). assert (Z0 := Rabs_pos (val (fsub x m))).
    assert (AB : Rabs (val (fsub x m) * val (fsub x m)) = val (fsub x m) * val (fsub x m)) by (apply Rabs_right, Rle_ge, Rle_0_sqr).
    destruct (a_mul _ _ _ A (fsub x m) (fsub x m) Fd Fd) as [G1 G2].
    - apply (Rle_trans _ (2 ^ 53 * 2 ^ 53)); [|lra]. rewrite Rabs_mult. apply Rmult_le_compat; lra.
    - split; [exact G1|]. now rewrite AB in G2. }
  set (sq := map (fun x => fmul (fsub x m) (fsub x m)) w) in *.
  assert (Lsq : length sq = p) by (unfold sq; now rewrite map_length).
  assert (Fsq : Forall fin sq) by (apply Forall_map, Forall_forall; intros x I; now apply SQ).
  set (VV := rmean (map (fun x => x * x) d)). assert (rV : r = sqrt VV) by reflexivity. assert (V0 : 0 <= VV) by apply squares_nonneg.
  assert (rr : r * r = VV) by (rewrite rV; now apply sqrt_sqrt).
  assert (V106 : VV <= 2 ^ 105).
  { rewrite <- rr. apply (Rle_trans _ (2 ^ 52 * 2 ^ 52)).
    - assert (2 ^ 53 = 2 * 2 ^ 52) by (replace 53%nat with (1 + 52)%nat by reflexivity; rewrite pow_add; lra). apply Rmult_le_compat; lra.
    - rewrite <- pow_add. apply Rle_pow; [lra|lia]. }
  assert (ME : Rabs (rmean (map val sq) - VV) <= half_ulp * VV + tiny /\ rmean (map (fun x => Rabs (val x)) sq) <= (1 + half_ulp) * VV + tiny).
  { unfold VV, d, ds, sq. rewrite !map_map. assert (P : 0 < INR p) by lra.
    assert (G : forall l, Forall (fun x => In x w) l ->
      Rabs (rsum (map (fun x => val (fmul (fsub x m) (fsub x m))) l) - rsum (map (fun x => val (fsub x m) * val (fsub x m)) l)) <=
        half_ulp * rsum (map (fun x => val (fsub x m) * val (fsub x m)) l) + INR (length l) * tiny /\
      rsum (map (fun x => Rabs (val (fmul (fsub x m) (fsub x m)))) l) <=
        (1 + half_ulp) * rsum (map (fun x => val (fsub x m) * val (fsub x m)) l) + INR (length l) * tiny).
    { induction 1 as [|x l I _ [IH1 IH2]]; [cbn; rewrite Rminus_eq_0, Rabs_R0; lra|]. cbn [map rsum fold_right length]. rewrite S_INR. destruct (SQ x I) as [_ E].
      unfold rsum in IH1, IH2. set (a := val (fmul (fsub x m) (fsub x m))) in *. set (b := val (fsub x m) * val (fsub x m)) in *.
      set (X := fold_right Rplus 0 (map (fun x0 => val (fmul (fsub x0 m) (fsub x0 m))) l)) in *. set (Y := fold_right Rplus 0 (map (fun x0 => val (fsub x0 m) * val (fsub x0 m)) l)) in *.
      assert (b0 : 0 <= b) by apply Rle_0_sqr.
      split.
      - replace (a + X - (b + Y)) with ((a - b) + (X - Y)) by ring. eapply Rle_trans; [apply Rabs_triang|]. lra.
      - assert (Z := abs_sub_le _ _ _ E). rewrite (Rabs_right b) in Z by lra. lra. }
    destruct (G w) as [G1 G2]; [now apply Forall_forall|]. rewrite L in *. unfold rmean. rewrite !map_length, L.
    assert (I0 : 0 < / INR p) by now apply Rinv_0_lt_compat.
    split.
    - unfold Rdiv. rewrite <- Rmult_minus_distr_r, Rabs_mult, (Rabs_right (/ INR p)) by lra.
      apply (Rmult_le_compat_r (/ INR p)) in G1; [|lra]. eapply Rle_trans; [exact G1|]. right. field. lra.
    - apply (Rmult_le_compat_r (/ INR p)) in G2; [|lra]. unfold Rdiv. eapply Rle_trans; [exact G2|]. right. field. lra. }
  destruct ME as [ME1 ME2].
  assert (UV : half_ulp * VV <= 1 / 1000 * VV) by (apply Rmult_le_compat_r; [lra|rewrite V; lra]).
  assert (T105 : (1 + half_ulp) * VV + tiny <= 2 ^ 106).
  { replace (2 ^ 106) with (2 * 2 ^ 105) by (replace 106%nat with (1 + 105)%nat by reflexivity; rewrite pow_add; lra). assert (1 <= 2 ^ 105) by (apply pow_R1_Rle; lra). rewrite V in *. lra. }
  assert (T0' : 0 <= (1 + half_ulp) * VV + tiny) by (assert (0 <= half_ulp * VV) by (apply Rmult_le_pos; lra); lra).
  destruct (mean_error sq ((1 + half_ulp) * VV + tiny) ltac:(lia) ltac:(rewrite Lsq; exact Hp20) Fsq ME2 (conj T0' T105)) as [Fm Em].
  rewrite Lsq in Em. set (pu := (INR p + 1) * half_ulp) in *. assert (PU2 : 2 * half_ulp <= pu) by (unfold pu; apply Rmult_le_compat_r; lra).
  assert (EV := abs_via _ _ _ _ _ Em ME1).
  change (fvar w) with (fmean sq). assert (VN : 0 <= val (fmean sq)) by (apply (o_var _ _ _ O w NE); [revert Hw; apply Forall_impl; now intros x []|exact Fm]).
  assert (PV : 0 <= pu * VV) by (apply Rmult_le_pos; lra).
  assert (PV2 : half_ulp * (pu * VV) <= 1 / 1000 * (pu * VV)) by (apply Rmult_le_compat_r; [exact PV|rewrite V; lra]).
  assert (PT : pu * tiny <= 1 / 8 * tiny) by (apply Rmult_le_compat_r; lra).
  assert (UP : half_ulp * VV <= 1 / 2 * (pu * VV)) by (rewrite <- Rmult_assoc; apply Rmult_le_compat_r; lra).
  assert (EV2 : Rabs (val (fmean sq) - VV) <= 2 * pu * VV + root_tiny * root_tiny).
  { rewrite root_tiny_sq. eapply Rle_trans; [exact EV|]. 
    replace (8 / 7 * pu * ((1 + half_ulp) * VV + tiny)) with (8 / 7 * (pu * VV) + 8 / 7 * (half_ulp * (pu * VV)) + 8 / 7 * (pu * tiny)) by ring. lra. }
  assert (NEAR := sqrt_near VV (val (fmean sq)) (2 * pu) root_tiny V0 VN ltac:(lra) ltac:(lra) EV2). rewrite <- rV in NEAR.
  destruct (o_sqrt _ _ _ O (fmean sq) Fm VN) as [Fs Es]. split; [exact Fs|].
  assert (SB : sqrt (val (fmean sq)) <= 5 / 4 * r + root_tiny).
  { assert (Z := Rle_abs (sqrt (val (fmean sq)) - r)). assert (2 * pu * r <= 1 / 4 * r) by (apply Rmult_le_compat_r; lra). lra. }
  assert (ALL := abs_via _ _ _ _ _ (abs_via _ _ _ _ _ Es NEAR) LIP).
  eapply Rle_trans; [exact ALL|].
  assert (B1 : half_ulp * sqrt (val (fmean sq)) <= half_ulp * (5 / 4 * r + root_tiny)) by (apply Rmult_le_compat_l; lra).
  assert (R1 : pu * r <= 3 / 2 * q).
  { apply (Rle_trans _ (pu * (M + 4 * q))); [apply Rmult_le_compat_l; lra|]. rewrite Rmult_plus_distr_l.
    assert (pu * M <= q) by (unfold pu, q; rewrite Rmult_assoc; apply Rmult_le_compat_l; lra).
    assert (pu * (4 * q) <= 1 / 8 * (4 * q)) by (apply Rmult_le_compat_r; lra). lra. }
  assert (R2 : half_ulp * r <= 3 / 4 * q) by (assert (2 * half_ulp * r <= pu * r) by (apply Rmult_le_compat_r; lra); lra).
  assert (R3 : half_ulp * root_tiny <= 1 / 1000 * root_tiny) by (apply Rmult_le_compat_r; [lra|rewrite V; lra]).
  replace (10 * (INR p + 1) * base) with (10 * q) by (unfold q; ring). lra.
Qed.
Lemma msd_error h : Forall good h -> fin (msd p h) /\ Rabs (val (msd p h) - rmsd p (map val h)) <= 10 * (INR p + 1) * base + 2 * root_tiny.
Proof.
  intros H. unfold msd, rmsd. rewrite map_length. destruct (Nat.ltb_spec (length h) p) as [Lt|Le].
  - destruct (const_fin A f0 eq_refl) as [Z1 Z2]. split; [exact Z1|]. rewrite Z2, Rminus_eq_0, Rabs_R0. assert (B0 := base_nonneg M HM100). assert (RT := root_tiny_pos).
    assert (PB := period_bounds p Hp Hp20). assert (0 <= 10 * (INR p + 1) * base) by (apply Rmult_le_pos; lra). lra.
  - rewrite firstn_map. apply var_error; [rewrite firstn_length; lia|]. apply Forall_forall. intros x I. rewrite Forall_forall in H. apply H.
    rewrite <- (firstn_skipn p h). apply in_or_app. now left.
Qed.
Lemma rmsd_bound h : Forall (fun x => Rabs x <= M) h -> Rabs (rmsd p h) <= M.
Proof.
  intros H. unfold rmsd. destruct (Nat.ltb_spec (length h) p) as [Lt|Le]; [rewrite Rabs_R0; lra|].
  rewrite Rabs_right by apply Rle_ge, sqrt_pos. apply deviation_le; [lra|now apply firstn_ne'|now apply Forall_firstn].
Qed.
Theorem msd_within s : within fin val (10 * (INR p + 1) * base + 2 * root_tiny) (MovingStandardDeviation (Z.of_nat p)) (@MovingStandardDeviation ER (Z.of_nat p)) s M.
Proof.
  apply (within_from _ _ s (msd p) (@msd ER p) (rmsd p)); [now apply msd_streams|now apply (@msd_streams ER)|intros l; now apply msd_eq|].
  intros h. apply msd_error.
Qed.
End Deviation.
End Facts.
