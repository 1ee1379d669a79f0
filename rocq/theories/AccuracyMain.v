(** * AccuracyMain: accuracy of the streamed bands, returns, volatility, ranges, candles and drawdowns (C60). *)
From Coq Require Import Reals Lra Lia List ZArith Bool.
From Verif Require Import Num Py Tensor Streamable Finance Series Formulas Positions ImplBasic ImplScalar ImplComp ImplMarket ER RealFacts RealStats
  RealMarket RealLinear RealScale2 MovingFacts ReturnFacts MarketFacts Rounding RoundFacts RoundMain NormFacts Accuracy AccuracyFacts.
Import ListNotations.
Local Open Scope R_scope.

Lemma max_lip a b a' b' e : Rabs (a - a') <= e -> Rabs (b - b') <= e -> Rabs (Rmax a b - Rmax a' b') <= e.
Proof. intros H1 H2. unfold Rmax. destruct (Rle_dec a b), (Rle_dec a' b'); unfold Rabs in *; repeat destruct (Rcase_abs _); lra. Qed.
Lemma min_lip a b a' b' e : Rabs (a - a') <= e -> Rabs (b - b') <= e -> Rabs (Rmin a b - Rmin a' b') <= e.
Proof. intros H1 H2. unfold Rmin. destruct (Rle_dec a b), (Rle_dec a' b'); unfold Rabs in *; repeat destruct (Rcase_abs _); lra. Qed.
Lemma ln_below x : 0 < x -> ln x <= x - 1.
Proof. intros H. assert (E := exp_ineq1_le (ln x)). rewrite exp_ln in E by exact H. lra. Qed.
Lemma ln_above x : 0 < x -> 1 - / x <= ln x.
Proof. intros H. assert (E := ln_below (/ x) (Rinv_0_lt_compat x H)). rewrite ln_Rinv in E by exact H. lra. Qed.
Lemma quotient x y : 0 < y -> x / y * y = x.
Proof. intros H. unfold Rdiv. rewrite Rmult_assoc, Rinv_l; lra. Qed.
Lemma quotient_le x y z : 0 < y -> (x / y <= z <-> x <= z * y).
Proof.
  intros H. assert (Q := quotient x y H). split; intros K.
  - apply (Rmult_le_compat_r y) in K; lra.
  - apply (Rmult_le_reg_r y); lra.
Qed.
Lemma quotient_ge x y z : 0 < y -> (z <= x / y <-> z * y <= x).
Proof.
  intros H. assert (Q := quotient x y H). split; intros K.
  - apply (Rmult_le_compat_r y) in K; lra.
  - apply (Rmult_le_reg_r y); lra.
Qed.

Section Main.
Context {N : FOps} {fin : F -> Prop} {val : F -> R} (A : accurate N fin val) (O : ordered N fin val).

Lemma add_close x y X Y a b B : fin x -> fin y -> Rabs (val x - X) <= a -> Rabs (val y - Y) <= b ->
  Rabs (X + Y) <= B -> B + a + b <= 2 ^ 100 ->
  fin (fadd x y) /\ Rabs (val (fadd x y) - (X + Y)) <= a + b + half_ulp * (B + a + b).
Proof.
  intros Fx Fy Hx Hy HB HL. assert (U := ulp_pos). assert (C100 := two100). assert (BG := big_split).
  assert (D : Rabs (val x + val y - (X + Y)) <= a + b).
  { replace (val x + val y - (X + Y)) with ((val x - X) + (val y - Y)) by ring. eapply Rle_trans; [apply Rabs_triang|]. lra. }
  assert (D2 := abs_sub_le _ _ _ D).
  destruct (a_add _ _ _ A x y Fx Fy) as [F1 F2]; [rewrite BG; lra|]. split; [exact F1|].
  eapply Rle_trans; [exact (abs_via _ _ _ _ _ F2 D)|].
  assert (half_ulp * Rabs (val x + val y) <= half_ulp * (B + a + b)) by (apply Rmult_le_compat_l; lra). lra.
Qed.
Lemma mul_close x y X K a B : fin x -> fin y -> Rabs (val x - X) <= a -> Rabs (val y) = K ->
  Rabs X <= B -> K * (B + a) <= 2 ^ 100 ->
  fin (fmul x y) /\ Rabs (val (fmul x y) - X * val y) <= K * a + half_ulp * (K * (B + a)) + tiny.
Proof.
  intros Fx Fy Hx HK HB HL. assert (U := ulp_pos). assert (C100 := two100). assert (BG := big_split). assert (K0 := Rabs_pos (val y)). rewrite HK in K0.
  assert (D2 := abs_sub_le _ _ _ Hx).
  assert (D3 : Rabs (val x * val y) <= K * (B + a)) by (rewrite Rabs_mult, HK, Rmult_comm; apply Rmult_le_compat_l; lra).
  destruct (a_mul _ _ _ A x y Fx Fy) as [F1 F2]; [rewrite BG; lra|]. split; [exact F1|].
  assert (D : Rabs (val x * val y - X * val y) <= K * a).
  { rewrite <- Rmult_minus_distr_r, Rabs_mult, HK, Rmult_comm. now apply Rmult_le_compat_l. }
  eapply Rle_trans; [exact (abs_via _ _ _ _ _ F2 D)|].
  assert (half_ulp * Rabs (val x * val y) <= half_ulp * (K * (B + a))) by (apply Rmult_le_compat_l; lra). lra.
Qed.

(** ** Bollinger bands *)
Section Bands.
Variables (p : nat) (M : R) (k : @pynum N) (ke : @pynum ER).
Hypotheses (Hp : (1 <= p)%nat) (Hp20 : (Z.of_nat p <= 2 ^ 20)%Z) (HM : 0 <= M <= 2 ^ 50)
  (Fz : fin (num k)) (Ek : @num ER ke = Fin (val (num k))) (Hz : Rabs (val (num k)) <= 2 ^ 20).
Notation base := (half_ulp * M + tiny).
Notation K := (Rabs (val (num k))).
Notation band := ((K + 1) * (12 * (INR p + 1) * base + 3 * root_tiny)).
Lemma bands_close :
  close (fin := fin) (val := val) M band (fun c => fsub (sma p c) (fmul (msd p c) (num k))) (fun h => rsma p h - rmsd p h * val (num k)) /\
  close (fin := fin) (val := val) M band (fun c => fadd (sma p c) (fmul (msd p c) (num k))) (fun h => rsma p h + rmsd p h * val (num k)).
Proof.
  assert (H100 := HM100 p M Hp HM).
  assert (B0 := base_nonneg M H100). assert (U := ulp_pos). assert (T := tiny_pos). assert (V := ulp_val). assert (T1 := tiny_ulp).
  assert (PB := period_bounds p Hp Hp20). assert (BS := base_small p M Hp Hp20 H100). assert (MS := M_small M HM).
  assert (RT := root_tiny_pos). assert (TR := tiny_root).
  assert (RT1 : root_tiny <= 1) by (unfold root_tiny; rewrite <- Rinv_1; apply Rinv_le_contravar; [lra|apply pow_R1_Rle; lra]).
  assert (KB : 0 <= K <= 1048576) by (split; [apply Rabs_pos|eapply Rle_trans; [exact Hz|lra]]).
  set (q := (INR p + 1) * base) in *. assert (Q : 2 * base <= q) by (unfold q; apply Rmult_le_compat_r; lra). assert (BSq : 8 * q <= M + 1) by (unfold q; lra).
  assert (UM : 0 <= half_ulp * M) by (apply Rmult_le_pos; lra).
  set (e := 10 * (INR p + 1) * base + 2 * root_tiny). assert (Ee : e = 10 * q + 2 * root_tiny) by (unfold e, q; ring).
  assert (Es : 2 * (INR p + 1) * base = 2 * q) by (unfold q; ring).
  assert (M100' : 1048577 * (16 * (M + 4)) <= 2 ^ 100).
  { apply (Rle_trans _ (2 ^ 53 * 2 ^ 47)); [|rewrite <- pow_add; right; reflexivity]. assert (1048577 * 16 <= 2 ^ 47) by lra.
    rewrite Rmult_comm, (Rmult_comm 16), Rmult_assoc. apply Rmult_le_compat; lra. }
  assert (KE : 0 <= K * e) by (apply Rmult_le_pos; lra). assert (KM : 0 <= K * M) by (apply Rmult_le_pos; lra).
  assert (KQ : 0 <= K * q) by (apply Rmult_le_pos; lra). assert (KR : 0 <= K * root_tiny) by (apply Rmult_le_pos; lra).
  assert (KE2 : K * e = 10 * (K * q) + 2 * (K * root_tiny)) by (rewrite Ee; ring).
  assert (KUM : half_ulp * (K * M) <= 1 / 2 * (K * q)).
  { replace (half_ulp * (K * M)) with (K * (half_ulp * M)) by ring. replace (1 / 2 * (K * q)) with (K * (1 / 2 * q)) by ring. apply Rmult_le_compat_l; lra. }
  assert (UK : forall x, 0 <= x -> half_ulp * x <= 1 / 1000 * x) by (intros x Hx; apply Rmult_le_compat_r; [exact Hx|rewrite V; lra]).
  assert (HB : K * (M + e) <= 1048576 * (3 * (M + 4))) by (apply Rmult_le_compat; lra).
  assert (P : forall h, Forall (fun x => fin x /\ Rabs (val x) <= M) h ->
     let a := K * e + half_ulp * (K * (M + e)) + tiny in
     (fin (sma p h) /\ Rabs (val (sma p h) - rsma p (map val h)) <= 2 * q /\ Rabs (rsma p (map val h)) <= M) /\
     (fin (fmul (msd p h) (num k)) /\ Rabs (val (fmul (msd p h) (num k)) - rmsd p (map val h) * val (num k)) <= a /\ Rabs (rmsd p (map val h) * val (num k)) <= K * M) /\
     2 * q + a + half_ulp * (M + K * M + 2 * q + a) <= band /\ M + K * M + 2 * q + a <= 2 ^ 100).
  { intros h H a. assert (GV := good_vals M h H). split; [|split; [|]].
    - destruct (sma_error A p M Hp Hp20 H100 h H) as [S1 S2]. rewrite Es in S2. split; [exact S1|]. split; [exact S2|]. now apply rsma_bound.
    - destruct (msd_error A O p M Hp Hp20 HM h H) as [S1 S2]. assert (S3 := rmsd_bound p M Hp HM _ GV). fold e in S2.
      destruct (mul_close (msd p h) (num k) (rmsd p (map val h)) K e M S1 Fz S2) as [G1 G2]; [reflexivity|exact S3|lra|].
      split; [exact G1|]. split; [exact G2|]. rewrite Rabs_mult, Rmult_comm. apply Rmult_le_compat_l; [lra|exact S3].
    - assert (UKe := UK _ KE). assert (E1 : a = K * e + half_ulp * (K * M) + half_ulp * (K * e) + tiny) by (unfold a; ring).
      assert (A1 : a <= 10.6 * (K * q) + 2.1 * (K * root_tiny) + tiny) by lra. assert (A0 : 0 <= a) by (assert (0 <= half_ulp * (K * M)) by (apply Rmult_le_pos; lra); assert (0 <= half_ulp * (K * e)) by (apply Rmult_le_pos; lra); lra).
      assert (Uq := UK q ltac:(lra)). assert (Ua := UK a A0).
      replace band with (12 * (K * q) + 12 * q + 3 * (K * root_tiny) + 3 * root_tiny) by (unfold q; ring).
      split; [|assert (K * M <= 1048576 * M) by (apply Rmult_le_compat_r; lra); assert (K * q <= 1048576 * (M + 1)) by (apply Rmult_le_compat; lra);
                assert (K * root_tiny <= 1048576 * 1) by (apply Rmult_le_compat; lra); lra].
      replace (half_ulp * (M + K * M + 2 * q + a)) with (half_ulp * M + half_ulp * (K * M) + 2 * (half_ulp * q) + half_ulp * a) by ring. lra. }
  split; intros h H; destruct (P h H) as ((F1 & E1 & B1) & (F2 & E2 & B2) & LE & L100).
  - assert (B : Rabs (rsma p (map val h) - rmsd p (map val h) * val (num k)) <= M + K * M).
    { unfold Rminus. eapply Rle_trans; [apply Rabs_triang|]. rewrite Rabs_Ropp. lra. }
    destruct (sub_close A _ _ _ _ _ _ _ F1 F2 E1 E2 B L100) as [G1 G2]. split; [exact G1|]. eapply Rle_trans; [exact G2|exact LE].
  - assert (B : Rabs (rsma p (map val h) + rmsd p (map val h) * val (num k)) <= M + K * M).
    { eapply Rle_trans; [apply Rabs_triang|]. lra. }
    destruct (add_close _ _ _ _ _ _ _ F1 F2 E1 E2 B L100) as [G1 G2]. split; [exact G1|]. eapply Rle_trans; [exact G2|exact LE].
Qed.
Theorem bands_within s : within_all fin val [band; 2 * (INR p + 1) * base; band]
  (BollingerBands (Z.of_nat p) k) (@BollingerBands ER (Z.of_nat p) ke) s M.
Proof.
  apply (within_all_from _ _ s
    [fun c => fsub (sma p c) (fmul (msd p c) (num k)); sma p; fun c => fadd (sma p c) (fmul (msd p c) (num k))]
    [fun c => @fsub ER (@sma ER p c) (@fmul ER (@msd ER p c) (@num ER ke)); @sma ER p; fun c => @fadd ER (@sma ER p c) (@fmul ER (@msd ER p c) (@num ER ke))]
    [fun h => rsma p h - rmsd p h * val (num k); rsma p; fun h => rsma p h + rmsd p h * val (num k)]); try reflexivity.
  - exact (bollinger_streams s p k Hp).
  - exact (@bollinger_streams ER s p ke Hp).
  - constructor; [intros l; rewrite sma_eq, msd_eq, Ek by exact Hp; reflexivity|]. constructor; [intros l; now apply sma_eq|].
    constructor; [intros l; rewrite sma_eq, msd_eq, Ek by exact Hp; reflexivity|]. constructor.
  - intros i Hi. cbn [length] in Hi. destruct i as [|[|[|i]]]; cbn [nth]; [..|lia].
    + apply bands_close.
    + intros h. apply (sma_error A p M Hp Hp20 (HM100 p M Hp HM)).
    + apply bands_close.
Qed.
End Bands.

(** ** Scalar streams *)
Theorem scalars_from {X Y} op (exact : @operator ER) (inp : list X -> Py.pyval tensor) (inpe : list Y -> Py.pyval (@tensor ER)) f fe g eps real (good : X -> Prop) :
  streams op short inp (fun hs => scalars (map f hs)) -> @streams ER Y exact short inpe (fun hs => @scalars ER (map fe hs)) ->
  (forall h, Forall good h -> fe (map real h) = Fin (g h) /\ fin (f h) /\ Rabs (val (f h) - g h) <= eps) ->
  scalars_within fin val eps op exact inp inpe real good.
Proof.
  intros ST SE H xs NE OK G.
  destruct (scalar_positions _ _ _ _ ST xs NE OK) as (o & sf & s0 & E & L & P).
  assert (NE' : map real xs <> []) by now destruct xs.
  assert (OK' : short (rev (map real xs))) by (unfold short in *; rewrite rev_length in *; now rewrite map_length).
  destruct SE as (st & SE & _). specialize (SE _ NE' OK').
  exists o, (map g (hists [] xs)), sf, s0, (st (rev (map real xs))), (st []). split; [exact E|]. split.
  { rewrite SE. do 3 f_equal. f_equal. change (@nil Y) with (map real []). rewrite RealScale.hists_map, !map_map. apply map_ext_in. intros h I.
    apply H. apply Forall_forall. intros x Ix. destruct (RealScale2.hists_in xs [] h x I Ix) as [J|[]]. rewrite Forall_forall in G. now apply G. }
  split; [exact L|]. split; [now rewrite map_length, hists_length|]. intros n Hn. rewrite P by exact Hn. rewrite nth_map_hists by exact Hn.
  apply H. apply Forall_forall. intros x I. apply in_upto in I. rewrite Forall_forall in G. now apply G.
Qed.
End Main.
