(** * RoundFacts: errors of the moving averages do not accumulate (C55). *)
From Coq Require Import Reals Lra Lia List ZArith Bool.
From Verif Require Import Num Py Tensor Streamable Meta Common Finance Series Formulas Positions
  ImplBasic ImplComp ER RealFacts RealStats MovingFacts ReturnFacts Linear MemoryFacts RealLinear Rounding.
Import ListNotations.
Local Open Scope R_scope.

(** ** Real arithmetic *)
Lemma ulp_pos : 0 < half_ulp.
Proof. unfold half_ulp. lra. Qed.
Lemma ulp_val : half_ulp = / 16777216.
Proof. unfold half_ulp. lra. Qed.
Lemma tiny_pos : 0 < tiny.
Proof. unfold tiny. apply Rinv_0_lt_compat, pow_lt. lra. Qed.
Lemma tiny_ulp : tiny <= half_ulp.
Proof. unfold tiny, half_ulp. apply Rinv_le_contravar; [apply pow_lt; lra|]. apply Rle_pow; [lra|lia]. Qed.
Lemma big_split : big = 2 ^ 100 * 134217728.
Proof. unfold big. replace 127%nat with (100 + 27)%nat by reflexivity. rewrite pow_add. lra. Qed.
Lemma two100 : 1 <= 2 ^ 100.
Proof. apply pow_R1_Rle. lra. Qed.
Opaque half_ulp tiny big.

Lemma abs_sub_le x y e : Rabs (x - y) <= e -> Rabs x <= Rabs y + e.
Proof. intros H. replace x with (y + (x - y)) by ring. eapply Rle_trans; [apply Rabs_triang|]. lra. Qed.
Lemma abs_via x y z a b : Rabs (x - y) <= a -> Rabs (y - z) <= b -> Rabs (x - z) <= a + b.
Proof. intros H1 H2. replace (x - z) with ((x - y) + (y - z)) by ring. eapply Rle_trans; [apply Rabs_triang|]. lra. Qed.
Lemma prod_err x x' y y' a b A B : Rabs (x' - x) <= a -> Rabs (y' - y) <= b -> Rabs x <= A -> Rabs y <= B ->
  Rabs (x' * y' - x * y) <= a * B + A * b + a * b.
Proof.
  intros H1 H2 H3 H4. replace (x' * y' - x * y) with ((x' - x) * y + x * (y' - y) + (x' - x) * (y' - y)) by ring.
  assert (P1 := Rabs_pos (x' - x)). assert (P2 := Rabs_pos (y' - y)). assert (P3 := Rabs_pos x). assert (P4 := Rabs_pos y).
  eapply Rle_trans; [apply Rabs_triang|]. apply Rplus_le_compat; [eapply Rle_trans; [apply Rabs_triang|]; apply Rplus_le_compat|];
    rewrite Rabs_mult; apply Rmult_le_compat; assumption.
Qed.
Lemma pow_ulp n : INR n * half_ulp <= 1 / 8 -> (1 + half_ulp) ^ n <= 1 + 8 / 7 * (INR n * half_ulp).
Proof.
  assert (U := ulp_pos). intros H.
  assert (K : forall m, (1 + half_ulp) ^ m * (1 - INR m * half_ulp) <= 1).
  { induction m as [|m IH]; [cbn; lra|]. rewrite S_INR. cbn [pow]. 
    assert (P : 0 < (1 + half_ulp) ^ m) by (apply pow_lt; lra). assert (I := pos_INR m).
    eapply Rle_trans; [|exact IH]. replace ((1 + half_ulp) * (1 + half_ulp) ^ m * (1 - (INR m + 1) * half_ulp))
      with ((1 + half_ulp) ^ m * ((1 + half_ulp) * (1 - (INR m + 1) * half_ulp))) by ring.
    apply Rmult_le_compat_l; [lra|]. assert (0 <= INR m * half_ulp * half_ulp) by (repeat apply Rmult_le_pos; lra). nra. }
  specialize (K n). set (q := INR n * half_ulp) in *. assert (0 <= q) by (apply Rmult_le_pos; [apply pos_INR|lra]).
  assert (P : 0 < (1 + half_ulp) ^ n) by (apply pow_lt; lra). set (z := (1 + half_ulp) ^ n) in *.
  assert (z <= 8 / 7) by nra. nra.
Qed.
(** One step of the exponential average. *)
Lemma ema_step_error P M e k c k' c' x y Y a b r : 1 <= P -> (P + 1) * half_ulp <= 1 / 8 -> 0 <= M -> 0 <= e ->
  k = 2 / (P + 1) -> c = 1 - k -> Rabs (k' - k) <= 2 * half_ulp * k -> Rabs (c' - c) <= 2 * half_ulp * c ->
  Rabs x <= M -> Rabs Y <= M -> Rabs (y - Y) <= e ->
  Rabs (a - x * k') <= half_ulp * Rabs (x * k') + tiny -> Rabs (b - y * c') <= half_ulp * Rabs (y * c') + tiny ->
  Rabs (r - (a + b)) <= half_ulp * Rabs (a + b) ->
  Rabs (a + b) <= 2 * M + 2 * e + 3 * tiny /\ Rabs (x * k') <= 2 * M /\ Rabs (y * c') <= 2 * (M + e) /\
  Rabs (r - (x * k + Y * c)) <= (1 - 1 / (P + 1)) * e + 6 * (half_ulp * M + tiny).
Proof.
  intros HP HU HM He Ek Ec Hk Hc Hx HY Hy Ha Hb Hr. assert (U := ulp_pos). assert (V := ulp_val). assert (T := tiny_pos).
  assert (Ik : 0 < k <= 1).
  { rewrite Ek. split; [apply Rdiv_lt_0_compat; lra|]. apply (Rmult_le_reg_r (P + 1)); [lra|]. unfold Rdiv. rewrite Rmult_assoc, Rinv_l by lra. lra. }
  assert (Ic : 0 <= c < 1) by lra. set (u := half_ulp) in *. 
  assert (Kp : k * (P + 1) = 2) by (rewrite Ek; field; lra).
  assert (U2 : u * u <= u / 16777216) by (rewrite V at 1; nra).
  (* products by the constant *)
  assert (A1 : Rabs (x * k' - x * k) <= M * (2 * u * k)).
  { eapply Rle_trans; [apply (prod_err x x k k' 0 (2 * u * k) M k); try assumption; [rewrite Rminus_eq_0, Rabs_R0; lra|rewrite Rabs_right; lra]|]. lra. }
  assert (Mk : 0 <= M * k) by (apply Rmult_le_pos; lra). assert (Mc : 0 <= M * c) by (apply Rmult_le_pos; lra).
  assert (ec : 0 <= e * c) by (apply Rmult_le_pos; lra).
  assert (Xk : Rabs (x * k) <= M * k) by (rewrite Rabs_mult, (Rabs_right k) by lra; apply Rmult_le_compat_r; lra).
  assert (A2 : Rabs (x * k') <= M * k * (1 + 2 * u)) by (apply abs_sub_le in A1; lra).
  assert (A3 : Rabs (a - x * k) <= 4 * u * (M * k) + tiny).
  { assert (Q := abs_via _ _ _ _ _ Ha A1). eapply Rle_trans; [exact Q|].
    assert (u * Rabs (x * k') <= u * (M * k * (1 + 2 * u))) by (apply Rmult_le_compat_l; lra). nra. }
  assert (Yc : Rabs (Y * c) <= M * c) by (rewrite Rabs_mult, (Rabs_right c) by lra; apply Rmult_le_compat_r; lra).
  assert (B1 : Rabs (y * c' - Y * c) <= e * c + M * (2 * u * c) + e * (2 * u * c)).
  { apply (prod_err Y y c c' e (2 * u * c) M c); try assumption. rewrite Rabs_right; lra. }
  assert (B2 : Rabs (y * c') <= (M * c + e * c) * (1 + 2 * u)) by (apply abs_sub_le in B1; lra).
  assert (B3 : Rabs (b - Y * c) <= (1 + 4 * u) * (e * c) + 4 * u * (M * c) + tiny).
  { assert (Q := abs_via _ _ _ _ _ Hb B1). eapply Rle_trans; [exact Q|].
    assert (u * Rabs (y * c') <= u * ((M * c + e * c) * (1 + 2 * u))) by (apply Rmult_le_compat_l; lra). nra. }
  set (Z := x * k + Y * c).
  assert (AB : Rabs (a + b - Z) <= (1 + 4 * u) * (e * c) + 4 * u * M + 2 * tiny).
  { unfold Z. replace (a + b - (x * k + Y * c)) with ((a - x * k) + (b - Y * c)) by ring. eapply Rle_trans; [apply Rabs_triang|].
    replace (4 * u * M) with (4 * u * (M * k) + 4 * u * (M * c)) by (rewrite Ec; ring). lra. }
  assert (ZM : Rabs Z <= M).
  { unfold Z. eapply Rle_trans; [apply Rabs_triang|]. replace M with (M * k + M * c) by (rewrite Ec; ring). lra. }
  assert (AB2 := abs_sub_le _ _ _ AB).
  assert (ec1 : e * c <= e) by (rewrite <- (Rmult_1_r e) at 2; apply Rmult_le_compat_l; lra).
  assert (uM : 0 <= u * M) by (apply Rmult_le_pos; lra). assert (ue : 0 <= u * e) by (apply Rmult_le_pos; lra).
  assert (uec : 0 <= u * (e * c) <= u * e) by (split; [apply Rmult_le_pos; lra|apply Rmult_le_compat_l; lra]).
  assert (uM1 : u * M <= M / 1000) by (rewrite V; nra). assert (ue1 : u * e <= e / 1000) by (rewrite V; nra). assert (ut : u * tiny <= tiny / 1000) by (rewrite V; nra).
  assert (Mk1 : M * k <= M) by (rewrite <- (Rmult_1_r M) at 2; apply Rmult_le_compat_l; lra).
  assert (Mc1 : M * c <= M) by (rewrite <- (Rmult_1_r M) at 2; apply Rmult_le_compat_l; lra).
  split; [nra|]. split; [nra|]. split; [nra|].
  assert (Q := abs_via _ _ _ _ _ Hr AB). fold Z. eapply Rle_trans; [exact Q|].
  assert (R1 : u * Rabs (a + b) <= u * (M + ((1 + 4 * u) * (e * c) + 4 * u * M + 2 * tiny))) by (apply Rmult_le_compat_l; lra).
  assert (R2 : u * (u * (e * c)) <= u * (e * c) / 1000 /\ u * (u * M) <= u * M / 1000) by (split; rewrite V at 1; nra).
  assert (R3 : (1 + 6 * u) * (e * c) <= (1 - 1 / (P + 1)) * e).
  { replace (1 / (P + 1)) with (k / 2) by (rewrite Ek; field; lra).
    assert (6 * u <= k / 2).
    { apply (Rmult_le_reg_r (P + 1)); [lra|]. replace (k / 2 * (P + 1)) with 1 by lra. lra. }
    assert (c * (1 + 6 * u) <= 1 - k / 2) by nra. 
    replace ((1 + 6 * u) * (e * c)) with (c * (1 + 6 * u) * e) by ring. apply Rmult_le_compat_r; assumption. }
  lra.
Qed.
(** One step of the rolling average. *)
Lemma rma_step_error P M e x y Y m s q : 1 <= P -> P * half_ulp <= 1 / 8 -> 0 <= M -> 0 <= e ->
  Rabs x <= M -> Rabs Y <= M -> Rabs (y - Y) <= e ->
  Rabs (m - y * (P - 1)) <= half_ulp * Rabs (y * (P - 1)) + tiny ->
  Rabs (s - (m + x)) <= half_ulp * Rabs (m + x) -> Rabs (q - s / P) <= half_ulp * Rabs (s / P) + tiny ->
  Rabs (q - (Y * (P - 1) + x) / P) <= (1 - 1 / (2 * P)) * e + 4 * (half_ulp * M + tiny).
Proof.
  intros HP HU HM He Hx HY Hy Hm Hs Hq. assert (U := ulp_pos). assert (V := ulp_val). assert (T := tiny_pos). set (u := half_ulp) in *.
  set (w := 1 / P). assert (Hw : P * w = 1) by (unfold w; field; lra).
  assert (W : 0 < w <= 1) by (split; [unfold w; apply Rdiv_lt_0_compat; lra|nra]).
  assert (Dw : forall z, z / P = z * w) by (intros z; unfold w; field; lra). rewrite Dw in *.
  assert (D1 : Rabs (y * (P - 1) - Y * (P - 1)) <= e * (P - 1)).
  { replace (y * (P - 1) - Y * (P - 1)) with ((y - Y) * (P - 1)) by ring. rewrite Rabs_mult, (Rabs_right (P - 1)) by lra. apply Rmult_le_compat_r; lra. }
  assert (D2 : Rabs (Y * (P - 1)) <= M * (P - 1)) by (rewrite Rabs_mult, (Rabs_right (P - 1)) by lra; apply Rmult_le_compat_r; lra).
  assert (eP : 0 <= e * (P - 1)) by (apply Rmult_le_pos; lra). assert (MP : 0 <= M * (P - 1)) by (apply Rmult_le_pos; lra).
  assert (D3 := abs_sub_le _ _ _ D1).
  assert (M1 : Rabs (m - Y * (P - 1)) <= e * (P - 1) * (1 + u) + u * (M * (P - 1)) + tiny).
  { eapply Rle_trans; [exact (abs_via _ _ _ _ _ Hm D1)|].
    assert (u * Rabs (y * (P - 1)) <= u * (M * (P - 1) + e * (P - 1))) by (apply Rmult_le_compat_l; lra). lra. }
  set (E1 := e * (P - 1) * (1 + u) + u * (M * (P - 1)) + tiny) in *.
  assert (S0 : Rabs (m + x - (Y * (P - 1) + x)) <= E1) by (replace (m + x - (Y * (P - 1) + x)) with (m - Y * (P - 1)) by ring; exact M1).
  assert (X1 : Rabs (Y * (P - 1) + x) <= M * P) by (eapply Rle_trans; [apply Rabs_triang|]; lra).
  assert (S1 := abs_sub_le _ _ _ S0).
  assert (S2 : Rabs (s - (Y * (P - 1) + x)) <= (1 + u) * E1 + u * (M * P)).
  { eapply Rle_trans; [exact (abs_via _ _ _ _ _ Hs S0)|].
    assert (u * Rabs (m + x) <= u * (M * P + E1)) by (apply Rmult_le_compat_l; lra). lra. }
  set (E2 := (1 + u) * E1 + u * (M * P)) in *.
  assert (Q0 : Rabs (s * w - (Y * (P - 1) + x) * w) <= E2 * w).
  { replace (s * w - (Y * (P - 1) + x) * w) with ((s - (Y * (P - 1) + x)) * w) by ring. rewrite Rabs_mult, (Rabs_right w) by lra. apply Rmult_le_compat_r; lra. }
  assert (X2 : Rabs ((Y * (P - 1) + x) * w) <= M).
  { rewrite Rabs_mult, (Rabs_right w) by lra. replace M with (M * P * w) by (rewrite Rmult_assoc, Hw; ring). apply Rmult_le_compat_r; lra. }
  assert (Q1 := abs_sub_le _ _ _ Q0).
  assert (Q2 : Rabs (q - (Y * (P - 1) + x) * w) <= (1 + u) * (E2 * w) + u * M + tiny).
  { eapply Rle_trans; [exact (abs_via _ _ _ _ _ Hq Q0)|].
    assert (u * Rabs (s * w) <= u * (M + E2 * w)) by (apply Rmult_le_compat_l; lra). lra. }
  eapply Rle_trans; [exact Q2|].
  assert (E1w : E1 * w = e * (1 - w) * (1 + u) + u * (M * (1 - w)) + tiny * w).
  { unfold E1. replace (1 - w) with ((P - 1) * w) by (rewrite Rmult_minus_distr_r, Hw; ring). ring. }
  assert (E2w : E2 * w = (1 + u) * (E1 * w) + u * M).
  { unfold E2. replace (u * M) with (u * M * (P * w)) by (rewrite Hw; ring). ring. }
  rewrite E2w, E1w. 
  assert (uM : 0 <= u * M) by (apply Rmult_le_pos; lra).
  assert (C : (1 + u) * ((1 + u) * (1 + u)) <= 1 + 4 * u) by (rewrite V; lra).
  assert (C2 : (1 + u) * (1 + u) <= 1 + 3 * u) by (rewrite V; lra).
  assert (C3 : u <= 1 / 1000) by (rewrite V; lra).
  assert (tw : 0 <= tiny * w <= tiny) by (split; [apply Rmult_le_pos; lra|nra]).
  assert (mw : u * (M * (1 - w)) <= u * M) by (apply Rmult_le_compat_l; [lra|]; nra).
  assert (mw0 : 0 <= u * (M * (1 - w))) by (repeat apply Rmult_le_pos; lra).
  replace (1 / (2 * P)) with (w / 2) by (unfold w; field; lra).
  assert (R1 : (1 + u) * ((1 + u) * (1 + u)) * (e * (1 - w)) <= (1 - w / 2) * e).
  { assert (4 * u <= w / 2).
    { apply (Rmult_le_reg_r P); [lra|]. replace (w / 2 * P) with (1 / 2) by (unfold Rdiv; nra). lra. }
    assert ((1 + u) * ((1 + u) * (1 + u)) * (1 - w) <= 1 - w / 2) by nra.
    replace ((1 + u) * ((1 + u) * (1 + u)) * (e * (1 - w))) with ((1 + u) * ((1 + u) * (1 + u)) * (1 - w) * e) by ring.
    apply Rmult_le_compat_r; assumption. }
  assert (R2 : (1 + u) * (1 + u) * (u * (M * (1 - w)) + tiny * w) <= (1 + 3 * u) * (u * M + tiny)) by (apply Rmult_le_compat; nra).
  nra.
Qed.

(** ** The formulas *)
Section Accurate.
Context {N : FOps} {fin : F -> Prop} {val : F -> R} (A : accurate N fin val).
Variables (p : nat) (M : R).
Hypotheses (Hp : (1 <= p)%nat) (Hp20 : (Z.of_nat p <= 2 ^ 20)%Z) (HM : 0 <= M <= 2 ^ 100).
Notation good := (fun x => fin x /\ Rabs (val x) <= M).
Notation base := (half_ulp * M + tiny).

Lemma period_bounds : 1 <= INR p <= 1048576.
Proof. split; [apply (le_INR 1); exact Hp|]. rewrite INR_IZR_INZ. apply (IZR_le _ (2 ^ 20)). exact Hp20. Qed.
Lemma period_ulp : (INR p + 1) * half_ulp <= 1 / 8.
Proof. assert (B := period_bounds). rewrite ulp_val. lra. Qed.
Lemma zero_fin : fin f0 /\ val f0 = 0.
Proof. apply (a_of_Z _ _ _ A 0). cbn. lia. Qed.
Lemma period_fin : fin (f_of_Z (Z.of_nat p)) /\ val (f_of_Z (Z.of_nat p)) = INR p.
Proof. rewrite INR_IZR_INZ. apply (a_of_Z _ _ _ A). rewrite Z.abs_eq by lia. eapply Z.le_trans; [exact Hp20|]. cbn. lia. Qed.
Lemma period1_fin : fin (f_of_Z (Z.of_nat p - 1)) /\ val (f_of_Z (Z.of_nat p - 1)) = INR p - 1.
Proof.
  rewrite INR_IZR_INZ, <- minus_IZR. apply (a_of_Z _ _ _ A). rewrite Z.abs_eq by lia.
  apply (Z.le_trans _ (2 ^ 20)); [lia|]. cbn. lia.
Qed.
Lemma base_nonneg : 0 <= base.
Proof. assert (U := ulp_pos). assert (T := tiny_pos). assert (0 <= half_ulp * M) by (apply Rmult_le_pos; lra). lra. Qed.
Lemma base_small : 8 * (INR p + 1) * base <= M + 1.
Proof.
  assert (B := period_bounds). assert (U := period_ulp). assert (T := tiny_ulp). assert (T0 := tiny_pos).
  assert ((INR p + 1) * half_ulp * M <= 1 / 8 * M) by (apply Rmult_le_compat_r; lra).
  assert ((INR p + 1) * tiny <= (INR p + 1) * half_ulp) by (apply Rmult_le_compat_l; lra). lra.
Qed.
Lemma abs_total (l : list F) : Forall good l -> fold_right Rplus 0 (map (fun x => Rabs (val x)) l) <= INR (length l) * M.
Proof.
  induction 1 as [|x l [_ Hx] _ IH]; [cbn; lra|]. cbn [map fold_right length]. rewrite S_INR. lra.
Qed.
Lemma abs_total_pos (l : list F) : 0 <= fold_right Rplus 0 (map (fun x => Rabs (val x)) l).
Proof. induction l as [|x l IH]; cbn; [lra|]. assert (P := Rabs_pos (val x)). lra. Qed.
Lemma total_abs (l : list F) : Rabs (fold_right Rplus 0 (map val l)) <= fold_right Rplus 0 (map (fun x => Rabs (val x)) l).
Proof. induction l as [|x l IH]; cbn; [rewrite Rabs_R0; lra|]. eapply Rle_trans; [apply Rabs_triang|]. lra. Qed.
Lemma rsma_bound h : Forall (fun x => Rabs x <= M) h -> Rabs (rsma p h) <= M.
Proof.
  intros H. unfold rsma. destruct (Nat.ltb_spec (length h) p) as [L|L]; [rewrite Rabs_R0; lra|].
  assert (H' : Forall (fun x => Rabs x <= M) (firstn p h)) by (now apply Forall_firstn).
  assert (Lw : length (firstn p h) = p) by (apply firstn_length_le; exact L). revert H' Lw. generalize (firstn p h). intros w H' Lw.
  unfold rmean. assert (B := period_bounds). rewrite Lw.
  assert (K : forall w, Forall (fun x => Rabs x <= M) w -> Rabs (rsum w) <= INR (length w) * M).
  { induction 1 as [|x l Hx _ IH]; [cbn; rewrite Rabs_R0; lra|]. cbn [rsum fold_right length]. rewrite S_INR. eapply Rle_trans; [apply Rabs_triang|]. unfold rsum in IH. lra. }
  specialize (K w H'). rewrite Lw in K. unfold Rdiv. rewrite Rabs_mult, (Rabs_right (/ INR p)) by (apply Rle_ge, Rlt_le, Rinv_0_lt_compat; lra).
  apply (Rmult_le_reg_r (INR p)); [lra|]. rewrite Rmult_assoc, Rinv_l by lra. lra.
Qed.
Lemma rema_bound h : Forall (fun x => Rabs x <= M) h -> Rabs (rema p h) <= M.
Proof.
  induction h as [|x h IH]; intros H; [cbn; rewrite Rabs_R0; lra|]. cbn [rema]. destruct (length (x :: h) <=? p)%nat; [now apply rsma_bound|].
  inversion H as [|? ? Hx Hh]; subst. specialize (IH Hh). assert (B := period_bounds). set (k := 2 / (INR p + 1)).
  assert (Ik : 0 < k <= 1).
  { unfold k. split; [apply Rdiv_lt_0_compat; lra|]. apply (Rmult_le_reg_r (INR p + 1)); [lra|]. unfold Rdiv. rewrite Rmult_assoc, Rinv_l by lra. lra. }
  eapply Rle_trans; [apply Rabs_triang|]. rewrite !Rabs_mult, (Rabs_right k), (Rabs_right (1 - k)) by lra. nra.
Qed.
Lemma rrma_bound h : Forall (fun x => Rabs x <= M) h -> Rabs (rrma p h) <= M.
Proof.
  induction h as [|x h IH]; intros H; [cbn; rewrite Rabs_R0; lra|]. cbn [rrma]. destruct (length (x :: h) <=? p)%nat; [now apply rsma_bound|].
  inversion H as [|? ? Hx Hh]; subst. specialize (IH Hh). assert (B := period_bounds).
  unfold Rdiv. rewrite Rabs_mult, (Rabs_right (/ INR p)) by (apply Rle_ge, Rlt_le, Rinv_0_lt_compat; lra).
  apply (Rmult_le_reg_r (INR p)); [lra|]. rewrite Rmult_assoc, Rinv_l by lra. rewrite Rmult_1_r. eapply Rle_trans; [apply Rabs_triang|].
  rewrite Rabs_mult, (Rabs_right (INR p - 1)) by lra. assert (Rabs (rrma p h) * (INR p - 1) <= M * (INR p - 1)) by (apply Rmult_le_compat_r; lra). lra.
Qed.
Lemma good_vals h : Forall good h -> Forall (fun x => Rabs x <= M) (map val h).
Proof. intros H. apply Forall_map. eapply Forall_impl; [|exact H]. now intros x [_ Hx]. Qed.

Lemma sma_error h : Forall good h -> fin (sma p h) /\ Rabs (val (sma p h) - rsma p (map val h)) <= 2 * (INR p + 1) * base.
Proof.
  intros H. assert (Bb := base_nonneg). assert (B := period_bounds). assert (U := ulp_pos). assert (V := ulp_val). assert (T := tiny_pos). assert (PU := period_ulp).
  assert (C100 := two100). assert (BG := big_split).
  unfold sma, rsma. rewrite map_length. destruct (Nat.ltb_spec (length h) p) as [L|L].
  { destruct zero_fin as [Z1 Z2]. split; [exact Z1|]. rewrite Z2, Rminus_eq_0, Rabs_R0. apply Rmult_le_pos; lra. }
  rewrite firstn_map. assert (H' : Forall good (firstn p h)) by (now apply Forall_firstn).
  assert (Lw : length (firstn p h) = p) by (apply firstn_length_le; exact L). revert H' Lw. generalize (firstn p h). intros w H' Lw.
  assert (Fw : Forall fin w) by (eapply Forall_impl; [|exact H']; now intros x [Hx _]).
  assert (TW := abs_total w H'). assert (TP := abs_total_pos w). rewrite Lw in TW.
  assert (PW : (1 + half_ulp) ^ p <= 1 + 8 / 7 * (INR p * half_ulp)) by (apply pow_ulp; lra).
  assert (P1 : 1 <= (1 + half_ulp) ^ p) by (apply pow_R1_Rle; lra).
  set (tot := fold_right Rplus 0 (map (fun x => Rabs (val x)) w)) in *. set (q := (1 + half_ulp) ^ p) in *.
  assert (PM : INR p * M <= 1048576 * 2 ^ 100) by (apply Rmult_le_compat; lra). assert (PM0 : 0 <= INR p * M) by (apply Rmult_le_pos; lra).
  assert (Q87 : q <= 8 / 7) by lra.
  assert (QT : q * tot <= 8 / 7 * (INR p * M)) by (apply Rmult_le_compat; lra).
  destruct (a_sum _ _ _ A w Fw) as [S1 S2]; [cbv zeta; rewrite Lw; fold q tot; rewrite BG; lra|]. rewrite Lw in S2. fold q tot in S2.
  assert (R : fold_right Rplus 0 (map val w) = rsum (map val w)) by reflexivity. rewrite R in S2.
  assert (TA := total_abs w). rewrite R in TA. fold tot in TA.
  destruct period_fin as [F1 F2].
  set (P := INR p) in *. set (wv := 1 / P). assert (Hw : P * wv = 1) by (unfold wv; field; lra).
  assert (W : 0 < wv <= 1) by (split; [unfold wv; apply Rdiv_lt_0_compat; lra|nra]).
  assert (Dw : forall z, z / P = z * wv) by (intros z; unfold wv; field; lra).
  assert (E1 : Rabs (val (fsum w) * wv - rsum (map val w) * wv) <= 8 / 7 * (P * half_ulp) * M).
  { replace (val (fsum w) * wv - rsum (map val w) * wv) with ((val (fsum w) - rsum (map val w)) * wv) by ring.
    rewrite Rabs_mult, (Rabs_right wv) by lra.
    replace (8 / 7 * (P * half_ulp) * M) with (8 / 7 * (P * half_ulp) * (P * M) * wv) by (transitivity (8 / 7 * (P * half_ulp) * M * (P * wv)); [ring|rewrite Hw; ring]).
    apply Rmult_le_compat_r; [lra|]. eapply Rle_trans; [exact S2|]. apply Rmult_le_compat; lra. }
  assert (X1 : Rabs (rsum (map val w) * wv) <= M).
  { rewrite Rabs_mult, (Rabs_right wv) by lra. replace M with (P * M * wv) by (transitivity (M * (P * wv)); [ring|rewrite Hw; ring]). apply Rmult_le_compat_r; lra. }
  assert (X2 := abs_sub_le _ _ _ E1).
  assert (PUM : P * half_ulp * M <= 1 / 8 * M) by (apply Rmult_le_compat_r; lra).
  assert (X3 : Rabs (val (fsum w) * wv) <= 2 * M) by lra.
  destruct (a_div _ _ _ A (fsum w) (f_of_Z (Z.of_nat p)) S1 F1) as [Q1 Q2].
  { rewrite F2. fold P. lra. }
  { rewrite F2. fold P. rewrite Dw, BG. lra. }
  split; [exact Q1|]. rewrite F2 in Q2. fold P in Q2. rewrite Dw in Q2. unfold rmean. rewrite map_length, Lw. fold P. rewrite Dw.
  eapply Rle_trans; [exact (abs_via _ _ _ _ _ Q2 E1)|].
  assert (half_ulp * Rabs (val (fsum w) * wv) <= half_ulp * (2 * M)) by (apply Rmult_le_compat_l; lra).
  assert (0 <= half_ulp * M) by (apply Rmult_le_pos; lra). assert (0 <= P * half_ulp * M) by (repeat apply Rmult_le_pos; lra).
  assert (0 <= P * tiny) by (apply Rmult_le_pos; lra). nra.
Qed.

Lemma ema_error h : Forall good h -> fin (ema p h) /\ Rabs (val (ema p h) - rema p (map val h)) <= 6 * (INR p + 1) * base.
Proof.
  assert (Bb := base_nonneg). assert (Bs := base_small). assert (B := period_bounds). assert (U := ulp_pos). assert (V := ulp_val). assert (T := tiny_pos). assert (T1 := tiny_ulp). assert (PU := period_ulp).
  assert (C100 := two100). assert (BG := big_split).
  assert (PB : 0 <= (INR p + 1) * base) by (apply Rmult_le_pos; lra).
  induction h as [|x h IH]; intros H.
  { cbn [ema rema map]. destruct zero_fin as [Z1 Z2]. split; [exact Z1|]. rewrite Z2, Rminus_eq_0, Rabs_R0. lra. }
  cbn [ema rema map]. change (val x :: map val h) with (map val (x :: h)). rewrite map_length.
  destruct (length (x :: h) <=? p)%nat. { destruct (sma_error (x :: h) H) as [S1 S2]. split; [exact S1|]. lra. }
  inversion H as [|? ? [Fx Hx] Hh]; subst. destruct (IH Hh) as [Fy Ey]. clear IH.
  assert (Yb := rema_bound _ (good_vals _ Hh)).
  destruct (a_factor _ _ _ A p Hp Hp20) as [Fk Ek]. destruct (a_cofactor _ _ _ A p Hp Hp20) as [Fc Ec]. cbv zeta in Ek, Ec.
  set (k' := f_of_D (ema_factor p)) in *. set (c' := f_of_D (dsub (d_of_Z 1) (ema_factor p))) in *. set (y := ema p h) in *. set (Y := rema p (map val h)) in *.
  set (k := 2 / (INR p + 1)) in *. set (e := 6 * (INR p + 1) * base) in *.
  assert (Ik : 0 < k <= 1).
  { unfold k. split; [apply Rdiv_lt_0_compat; lra|]. apply (Rmult_le_reg_r (INR p + 1)); [lra|]. unfold Rdiv. rewrite Rmult_assoc, Rinv_l by lra. lra. }
  assert (u1 : half_ulp <= 1 / 1000) by (rewrite V; lra).
  assert (Kb : Rabs (val k') <= 2) by (apply abs_sub_le in Ek; rewrite (Rabs_right k) in Ek by lra; nra).
  assert (Cb : Rabs (val c') <= 2) by (apply abs_sub_le in Ec; rewrite (Rabs_right (1 - k)) in Ec by lra; nra).
  assert (e0 : 0 <= e <= M + 1) by (unfold e; lra).
  assert (yb := abs_sub_le _ _ _ Ey).
  assert (XK : Rabs (val x * val k') <= M * 2) by (rewrite Rabs_mult; apply Rmult_le_compat; try apply Rabs_pos; lra).
  assert (YC : Rabs (val y * val c') <= (2 * M + 1) * 2) by (rewrite Rabs_mult; apply Rmult_le_compat; try apply Rabs_pos; lra).
  destruct (a_mul _ _ _ A x k' Fx Fk) as [Fa Ea]; [rewrite BG; lra|].
  destruct (a_mul _ _ _ A y c' Fy Fc) as [Fb Eb]; [rewrite BG; lra|].
  assert (Aa := abs_sub_le _ _ _ Ea). assert (Ab := abs_sub_le _ _ _ Eb).
  assert (half_ulp * Rabs (val x * val k') <= 1 / 1000 * (M * 2)) by (apply Rmult_le_compat; try apply Rabs_pos; lra).
  assert (half_ulp * Rabs (val y * val c') <= 1 / 1000 * ((2 * M + 1) * 2)) by (apply Rmult_le_compat; try apply Rabs_pos; lra).
  destruct (a_add _ _ _ A _ _ Fa Fb) as [Fr Er].
  { eapply Rle_trans; [apply Rabs_triang|]. rewrite BG. lra. }
  split; [exact Fr|].
  destruct (ema_step_error (INR p) M e k (1 - k) (val k') (val c') (val x) (val y) Y (val (fmul x k')) (val (fmul y c'))
    (val (fadd (fmul x k') (fmul y c')))) as (_ & _ & _ & Q); try assumption; try reflexivity; try lra.
  fold k. eapply Rle_trans; [exact Q|].
  replace ((1 - 1 / (INR p + 1)) * e) with (e - 6 * base) by (unfold e; field; lra). lra.
Qed.

Lemma rma_error h : Forall good h -> fin (rma p h) /\ Rabs (val (rma p h) - rrma p (map val h)) <= 8 * (INR p + 1) * base.
Proof.
  assert (Bb := base_nonneg). assert (Bs := base_small). assert (B := period_bounds). assert (U := ulp_pos). assert (V := ulp_val). assert (T := tiny_pos). assert (T1 := tiny_ulp). assert (PU := period_ulp).
  assert (C100 := two100). assert (BG := big_split).
  assert (PB : 0 <= (INR p + 1) * base) by (apply Rmult_le_pos; lra).
  induction h as [|x h IH]; intros H.
  { cbn [rma rrma map]. destruct zero_fin as [Z1 Z2]. split; [exact Z1|]. rewrite Z2, Rminus_eq_0, Rabs_R0. lra. }
  cbn [rma rrma map]. change (val x :: map val h) with (map val (x :: h)). rewrite map_length.
  destruct (length (x :: h) <=? p)%nat. { destruct (sma_error (x :: h) H) as [S1 S2]. split; [exact S1|]. lra. }
  inversion H as [|? ? [Fx Hx] Hh]; subst. destruct (IH Hh) as [Fy Ey]. clear IH.
  assert (Yb := rrma_bound _ (good_vals _ Hh)).
  destruct period_fin as [F1 F2]. destruct period1_fin as [G1 G2].
  set (y := rma p h) in *. set (Y := rrma p (map val h)) in *. set (e := 8 * (INR p + 1) * base) in *.
  assert (u1 : half_ulp <= 1 / 1000) by (rewrite V; lra).
  assert (e0 : 0 <= e <= M + 1) by (split; [unfold e; lra|exact Bs]).
  assert (yb := abs_sub_le _ _ _ Ey).
  assert (YC : Rabs (val y * (INR p - 1)) <= (2 * M + 1) * 1048576).
  { rewrite Rabs_mult; apply Rmult_le_compat; try apply Rabs_pos; [lra|]. rewrite Rabs_right; lra. }
  destruct (a_mul _ _ _ A y (f_of_Z (Z.of_nat p - 1)) Fy G1) as [Fa Ea]; [rewrite G2, BG; lra|]. rewrite G2 in Ea.
  set (m := fmul y (f_of_Z (Z.of_nat p - 1))) in *. assert (Aa := abs_sub_le _ _ _ Ea).
  assert (half_ulp * Rabs (val y * (INR p - 1)) <= 1 / 1000 * ((2 * M + 1) * 1048576)) by (apply Rmult_le_compat; try apply Rabs_pos; lra).
  destruct (a_add _ _ _ A m x Fa Fx) as [Fs Es].
  { eapply Rle_trans; [apply Rabs_triang|]. rewrite BG. lra. }
  assert (As := abs_sub_le _ _ _ Es). assert (MX := Rabs_triang (val m) (val x)). set (sx := fadd m x) in *.
  assert (half_ulp * Rabs (val m + val x) <= 1 / 1000 * Rabs (val m + val x)) by (apply Rmult_le_compat_r; [apply Rabs_pos|lra]).
  assert (SB : Rabs (val sx / INR p) <= Rabs (val sx)).
  { unfold Rdiv. rewrite Rabs_mult, (Rabs_right (/ INR p)) by (apply Rle_ge, Rlt_le, Rinv_0_lt_compat; lra). rewrite <- (Rmult_1_r (Rabs (val sx))) at 2.
    apply Rmult_le_compat_l; [apply Rabs_pos|]. rewrite <- Rinv_1. apply Rinv_le_contravar; lra. }
  destruct (a_div _ _ _ A sx (f_of_Z (Z.of_nat p)) Fs F1) as [Fq Eq]; [rewrite F2; lra|rewrite F2, BG; lra|]. rewrite F2 in Eq.
  split; [exact Fq|].
  assert (Q := rma_step_error (INR p) M e (val x) (val y) Y (val m) (val sx) (val (fdiv sx (f_of_Z (Z.of_nat p))))).
  eapply Rle_trans; [apply Q; try assumption; lra|].
  assert (K : 1 / (2 * INR p) * e = 4 * ((INR p + 1) / INR p) * base) by (unfold e; field; lra).
  assert (1 <= (INR p + 1) / INR p).
  { apply (Rmult_le_reg_r (INR p)); [lra|]. unfold Rdiv. rewrite Rmult_assoc, Rinv_l by lra. lra. }
  assert (4 * base <= 4 * ((INR p + 1) / INR p) * base) by (apply Rmult_le_compat_r; lra). lra.
Qed.
End Accurate.
