(** * AccuracyIndex: accuracy of the relative strength index (C60). *)
From Coq Require Import Reals Lra Lia List ZArith Bool.
From Verif Require Import Num Py Tensor Streamable Finance Series Formulas Positions ImplBasic ImplScalar ImplComp ImplMarket ER RealFacts RealStats
  RealMarket RealLinear RealScale RealScale2 MovingFacts ReturnFacts MarketFacts MarketReal Linear Rounding RoundFacts RoundMain NormFacts Accuracy
  AccuracyFacts AccuracyMain AccuracyMarket Index.
Import ListNotations.
Local Open Scope R_scope.

(** ** Real numbers *)
Lemma rwilder_rrma p w c : (1 <= p)%nat -> rwilder p w c = rrma p (map w c).
Proof.
  intros Hp. induction c as [|x c IH]; [reflexivity|]. cbn [rwilder rrma map]. rewrite IH. cbn [length]. rewrite map_length.
  unfold rsma. cbn [length]. rewrite map_length.
  destruct (Nat.ltb_spec (S (length c)) p); [destruct (Nat.leb_spec (S (length c)) p); [reflexivity|lia]|].
  destruct (Nat.eqb_spec (S (length c)) p) as [E|E]; destruct (Nat.leb_spec (S (length c)) p); try lia; [|reflexivity].
  rewrite firstn_all2 by (cbn [length]; rewrite map_length; lia). reflexivity.
Qed.
Lemma average_split p (c : list R) : rrma p (map Rabs c) = rrma p (map up c) + rrma p (map dn c).
Proof.
  transitivity (1 * rrma p (map up c) + 1 * rrma p (map dn c)); [|ring]. rewrite <- rrma_linear by now rewrite !map_length.
  f_equal. unfold blend. induction c as [|x c IH]; [reflexivity|]. cbn [map combine fst snd]. rewrite IH. f_equal.
  unfold up, dn, Rmax, Rabs. destruct (Rcase_abs x), (Rle_dec 0 x), (Rle_dec 0 (- x)); lra.
Qed.
Lemma rrma_up_nonneg p (w : R -> R) (c : list R) : (1 <= p)%nat -> (forall x, 0 <= w x) -> 0 <= rrma p (map w c).
Proof. intros Hp W. rewrite <- rwilder_rrma by exact Hp. now apply rwilder_nonneg. Qed.
Lemma rsi_exact p h : (1 <= p)%nat -> (p < length h)%nat -> 0 < average_move p h ->
  @rsi ER p (map Fin h) = Fin (100 * rrma p (map up (rchanges h)) / (rrma p (map up (rchanges h)) + rrma p (map dn (rchanges h)))).
Proof.
  intros Hp L. unfold average_move. rewrite average_split. unfold rsi. change (@F ER) with ext. rewrite map_length.
  destruct (Nat.leb_spec (length h) p); [lia|]. rewrite gain_fin, loss_fin, !rwilder_rrma by exact Hp.
  assert (G := rrma_up_nonneg p up (rchanges h) Hp up_ge). assert (D := rrma_up_nonneg p dn (rchanges h) Hp dn_ge).
  set (g := rrma p (map up (rchanges h))) in *. set (l := rrma p (map dn (rchanges h))) in *. intros P.
  change (@fsub ER) with e_sub. change (@fadd ER) with e_add. change (@fdiv ER) with e_div. cbn [f_of_Z ER].
  destruct (Req_dec l 0) as [->|Zl].
  - unfold e_div at 2. destruct (Req_EM_T 0 0); [|lra]. unfold inf_of. destruct (Rlt_dec 0 g); [|lra]. cbn. f_equal. field. lra.
  - rewrite (e_div_fin g) by exact Zl. cbn [e_add]. assert (0 <= g / l) by (apply Rle_mult_inv_pos; lra).
    rewrite e_div_fin by lra. cbn. f_equal. field. lra.
Qed.
Lemma ratio_lip g l g' l' E : 0 <= g -> 0 <= l -> 0 <= g' -> 0 <= l' -> Rabs (g' - g) <= E -> Rabs (l' - l) <= E -> 4 * E <= g + l -> 0 < g + l ->
  0 < g' + l' /\ Rabs (100 * g' / (g' + l') - 100 * g / (g + l)) <= 200 * E / (g + l).
Proof.
  intros Hg Hl Hg' Hl' E1 E2 H P. assert (E0 : 0 <= E) by (eapply Rle_trans; [apply Rabs_pos|exact E1]).
  assert (B1 : - E <= g' - g <= E) by (clear - E1; unfold Rabs in E1; destruct (Rcase_abs _); lra).
  assert (B2 : - E <= l' - l <= E) by (clear - E2; unfold Rabs in E2; destruct (Rcase_abs _); lra).
  assert (P' : (g + l) / 2 <= g' + l') by lra. split; [lra|].
  replace (100 * g' / (g' + l') - 100 * g / (g + l)) with ((100 * (l * (g' - g) - g * (l' - l))) / ((g' + l') * (g + l))) by (field; lra).
  assert (Q : 0 < (g' + l') * (g + l)) by (apply Rmult_lt_0_compat; lra).
  unfold Rdiv. rewrite Rabs_mult, (Rabs_right (/ _)) by (apply Rle_ge, Rlt_le, Rinv_0_lt_compat; exact Q).
  assert (T : Rabs (100 * (l * (g' - g) - g * (l' - l))) <= 100 * ((g + l) * E)).
  { rewrite Rabs_mult, (Rabs_right 100) by lra. apply Rmult_le_compat_l; [lra|]. unfold Rminus at 1. eapply Rle_trans; [apply Rabs_triang|].
    rewrite Rabs_Ropp, !Rabs_mult, (Rabs_right l), (Rabs_right g) by lra.
    assert (l * Rabs (g' - g) <= l * E) by (apply Rmult_le_compat_l; lra). assert (g * Rabs (l' - l) <= g * E) by (apply Rmult_le_compat_l; lra). lra. }
  apply (Rle_trans _ (100 * ((g + l) * E) * / ((g' + l') * (g + l)))); [apply Rmult_le_compat_r; [apply Rlt_le, Rinv_0_lt_compat; exact Q|exact T]|].
  replace (100 * ((g + l) * E) * / ((g' + l') * (g + l))) with (100 * E * / (g' + l')) by (field; lra).
  replace (200 * E * / (g + l)) with (100 * E * / ((g + l) / 2)) by (field; lra).
  apply Rmult_le_compat_l; [lra|]. apply Rinv_le_contravar; lra.
Qed.

Section Index.
Context {N : FOps} {fin : F -> Prop} {val : F -> R} (A : accurate N fin val) (O : ordered N fin val) (I : indexed N fin val).

(** ** Evaluation of the index from the two averages *)
Lemma index_close g l : fin g -> fin l -> 0 <= val g -> 0 <= val l -> 0 < val g + val l -> val g <= 2 ^ 100 -> val l <= 2 ^ 100 ->
  let r := fsub (f_of_Z 100) (fdiv (f_of_Z 100) (fadd (f_of_Z 1) (fdiv g l))) in
  fin r /\ Rabs (val r - 100 * val g / (val g + val l)) <= 600 * half_ulp.
Proof.
  intros Fg Fl Hg Hl P Bg Bl. cbv zeta. assert (U := ulp_pos). assert (Uv := ulp_val). assert (T := tiny_pos). assert (TU := tiny_ulp).
  assert (C100 := two100). assert (BG := big_split). set (u := half_ulp) in *. assert (u1 : u <= 1 / 1000000) by (rewrite Uv; lra).
  destruct (a_of_Z _ _ _ A 100 ltac:(cbn; lia)) as [Fh Vh]. destruct (a_of_Z _ _ _ A 1 ltac:(cbn; lia)) as [F1 V1].
  set (G := val g) in *. set (L := val l) in *.
  destruct (Rle_dec (2 ^ 100 * L) G) as [Ov|No].
  - assert (Gp : 0 < G) by (destruct (Req_dec L 0); [lra|]; assert (1 * L <= 2 ^ 100 * L) by (apply Rmult_le_compat_r; lra); lra).
    destruct (i_over _ _ _ I g l Fg Fl Gp Hl Ov) as [Ft Vt]. set (t := fdiv (f_of_Z 100) _) in *. fold u in Vt.
    assert (Bt : - u <= val t <= u) by (clear - Vt; unfold Rabs in Vt; destruct (Rcase_abs _); lra).
    destruct (a_sub _ _ _ A (f_of_Z 100) t Fh Ft) as [Fr Er]; rewrite Vh in *.
    { apply Rabs_le. rewrite BG. lra. }
    split; [exact Fr|]. fold u in Er.
    assert (Er' : Rabs (val (fsub (f_of_Z 100) t) - (100 - val t)) <= 101 * u).
    { eapply Rle_trans; [exact Er|]. rewrite (Rabs_right (100 - val t)) by lra.
      assert (u * (100 - val t) <= u * 101) by (apply Rmult_le_compat_l; lra). lra. }
    assert (X : Rabs (100 - val t - 100 * G / (G + L)) <= 2 * u).
    { replace (100 - val t - 100 * G / (G + L)) with (100 * L / (G + L) - val t) by (field; lra).
      assert (0 <= 100 * L / (G + L)) by (apply Rle_mult_inv_pos; lra).
      assert (100 * L / (G + L) <= u).
      { apply quotient_le; [lra|]. assert (W : 100 <= u * 2 ^ 100).
        { unfold u, half_ulp. replace 100%nat with (24 + 76)%nat by reflexivity. rewrite pow_add, <- Rmult_assoc, Rinv_l by (apply pow_nonzero; lra).
          rewrite Rmult_1_l. apply (Rle_trans _ (2 ^ 7)); [lra|]. apply Rle_pow; [lra|lia]. }
        apply (Rle_trans _ (u * (2 ^ 100 * L))); [rewrite <- Rmult_assoc; apply Rmult_le_compat_r; lra|]. apply Rmult_le_compat_l; lra. }
      apply Rabs_le. lra. }
    assert (Z := abs_via _ _ _ _ _ Er' X). lra.
  - apply Rnot_le_lt in No. assert (Lp : 0 < L).
    { destruct (Req_dec L 0) as [E|E]; [|lra]. rewrite E, Rmult_0_r in No. lra. }
    assert (Q0 : 0 <= G / L) by (apply Rle_mult_inv_pos; lra). assert (Q1 : G / L <= 2 ^ 100) by (apply quotient_le; lra).
    destruct (a_div _ _ _ A g l Fg Fl) as [Fq Eq]; [fold L; lra|fold G L; rewrite Rabs_right, BG by lra; lra|]. fold G L in Eq.
    rewrite (Rabs_right (G / L)) in Eq by lra. fold u in Eq. set (q := fdiv g l) in *. set (z := G / L) in *.
    assert (uz : 0 <= u * z) by (apply Rmult_le_pos; lra). assert (uz1 : u * z <= 1 / 1000000 * z) by (apply Rmult_le_compat_r; lra).
    assert (Bq : - (u * z + tiny) <= val q - z <= u * z + tiny) by (clear - Eq; unfold Rabs in Eq; destruct (Rcase_abs _); lra).
    destruct (a_add _ _ _ A (f_of_Z 1) q F1 Fq) as [Fs Es]; rewrite V1 in *.
    { apply Rabs_le. rewrite BG. lra. }
    rewrite (Rabs_right (1 + val q)) in Es by lra. fold u in Es. set (s := fadd (f_of_Z 1) q) in *.
    assert (uq : u * (1 + val q) <= u * (1.01 * (1 + z))) by (apply Rmult_le_compat_l; lra).
    assert (Bs : - (3 * u * (1 + z)) <= val s - (1 + z) <= 3 * u * (1 + z)).
    { clear - Es uq Bq uz T TU U. unfold Rabs in Es; destruct (Rcase_abs _); lra. }
    assert (u3 : 3 * u * (1 + z) <= 3 / 1000000 * (1 + z)) by (apply Rmult_le_compat_r; lra).
    assert (s1 : 0.99 * (1 + z) <= val s) by lra. assert (s2 : 0.99 <= val s) by lra.
    assert (D0 : 0 <= 100 / val s) by (apply Rle_mult_inv_pos; lra). assert (D1 : 100 / val s <= 102) by (apply quotient_le; lra).
    destruct (a_div _ _ _ A (f_of_Z 100) s Fh Fs) as [Ft Et]; rewrite ?Vh in *; [lra|rewrite Rabs_right, BG by lra; lra|].
    rewrite (Rabs_right (100 / val s)) in Et by lra. fold u in Et. set (t := fdiv (f_of_Z 100) s) in *.
    assert (ud : u * (100 / val s) <= u * 102) by (apply Rmult_le_compat_l; lra).
    assert (X : Rabs (100 / val s - 100 / (1 + z)) <= 310 * u).
    { replace (100 / val s - 100 / (1 + z)) with (100 * (1 + z - val s) / (val s * (1 + z))) by (field; lra).
      assert (W : 0 < val s * (1 + z)) by (apply Rmult_lt_0_compat; lra).
      assert (N1 : Rabs (100 * (1 + z - val s)) <= 300 * u * (1 + z)) by (apply Rabs_le; lra).
      unfold Rdiv. rewrite Rabs_mult, (Rabs_right (/ _)) by (apply Rle_ge, Rlt_le, Rinv_0_lt_compat; exact W).
      change (Rabs (100 * (1 + z - val s)) / (val s * (1 + z)) <= 310 * u). apply quotient_le; [exact W|]. eapply Rle_trans; [exact N1|].
      rewrite <- Rmult_assoc. apply Rmult_le_compat_r; [lra|]. assert (310 * u * 0.99 <= 310 * u * val s) by (apply Rmult_le_compat_l; lra). lra. }
    assert (Y := abs_via _ _ _ _ _ Et X).
    assert (d0 : 0 <= 100 / (1 + z)) by (apply Rle_mult_inv_pos; lra). assert (d1 : 100 / (1 + z) <= 100) by (apply quotient_le; lra).
    assert (Bt : - 0.5 <= val t <= 101).
    { clear - Y ud d0 d1 u1 U T TU. unfold Rabs in Y; destruct (Rcase_abs _); lra. }
    destruct (a_sub _ _ _ A (f_of_Z 100) t Fh Ft) as [Fr Er]; rewrite ?Vh in *.
    { apply Rabs_le. rewrite BG. lra. }
    split; [exact Fr|]. fold u in Er.
    assert (Er' : Rabs (val (fsub (f_of_Z 100) t) - (100 - val t)) <= 101 * u).
    { eapply Rle_trans; [exact Er|]. assert (Rabs (100 - val t) <= 101) by (apply Rabs_le; lra).
      assert (u * Rabs (100 - val t) <= u * 101) by (apply Rmult_le_compat_l; lra). lra. }
    replace (100 * G / (G + L)) with (100 - 100 / (1 + z)) by (unfold z; field; lra).
    assert (Y' : Rabs (100 - val t - (100 - 100 / (1 + z))) <= u * (100 / val s) + tiny + 310 * u).
    { replace (100 - val t - (100 - 100 / (1 + z))) with (- (val t - 100 / (1 + z))) by ring. now rewrite Rabs_Ropp. }
    assert (Z := abs_via _ _ _ _ _ Er' Y'). lra.
Qed.

(** ** The two averages *)
Variables (p : nat) (V : R).
Hypotheses (Hp : (1 <= p)%nat) (Hp20 : (Z.of_nat p <= 2 ^ 20)%Z) (HV : 0 <= V <= 2 ^ 90).
Notation W := (2 * V).
Notation good := (fun x => fin x /\ Rabs (val x) <= W).
Notation base := (half_ulp * W + tiny).
Lemma W100 : 0 <= W <= 2 ^ 100.
Proof. split; [lra|]. apply (Rle_trans _ (2 ^ 91)); [change (2 ^ 91) with (2 * 2 ^ 90); lra|]. apply Rle_pow; [lra|lia]. Qed.
Lemma wilder_error seed new w c : (forall x, 0 <= w x <= Rabs x) ->
  (forall l, length l = p -> Forall good l -> fin (seed l) /\ Rabs (val (seed l) - rmean (map w (map val l))) <= 8 * (INR p + 1) * base /\ 0 <= val (seed l)) ->
  (forall d, good d -> fin (new d) /\ val (new d) = w (val d)) -> Forall good c ->
  fin (wilder p seed new c) /\ Rabs (val (wilder p seed new c) - rrma p (map w (map val c))) <= 8 * (INR p + 1) * base /\ 0 <= val (wilder p seed new c).
Proof.
  intros Hw Hs Hn. assert (HM := W100). assert (Bb := base_nonneg W HM). assert (Bs := base_small p W Hp Hp20 HM). assert (B := period_bounds p Hp Hp20).
  assert (U := ulp_pos). assert (Uv := ulp_val). assert (T := tiny_pos). assert (T1 := tiny_ulp). assert (PU := period_ulp p Hp Hp20).
  assert (C100 := two100). assert (BG := big_split). destruct (zero_fin A) as [Z1 Z2].
  assert (PB : 0 <= (INR p + 1) * base) by (apply Rmult_le_pos; lra).
  induction c as [|d c IH]; intros H.
  { cbn [wilder map rrma]. split; [exact Z1|]. rewrite Z2, Rminus_eq_0, Rabs_R0. lra. }
  assert (RW : rrma p (map w (map val (d :: c))) = rwilder p w (map val (d :: c))) by (symmetry; now apply rwilder_rrma). rewrite RW.
  change (map val (d :: c)) with (val d :: map val c) at 1. cbn [wilder rwilder].
  change (val d :: map val c) with (map val (d :: c)). rewrite map_length.
  destruct (Nat.ltb_spec (length (d :: c)) p) as [L|L]. { split; [exact Z1|]. rewrite Z2, Rminus_eq_0, Rabs_R0. lra. }
  destruct (Nat.eqb_spec (length (d :: c)) p) as [E|E]. { now apply Hs. }
  inversion H as [|? ? Gd Hc]; subst. destruct (IH Hc) as (Fy & Ey & Py). clear IH RW.
  rewrite rwilder_rrma by exact Hp. destruct (Hn d Gd) as [Fx Vx]. destruct (Hw (val d)) as [w0 w1]. destruct Gd as [Fd Bd].
  assert (Yb : Rabs (rrma p (map w (map val c))) <= W).
  { apply (rrma_bound p W Hp Hp20 HM). apply Forall_map, Forall_map, Forall_forall. intros k Ik. rewrite Forall_forall in Hc. destruct (Hc k Ik) as [_ Bk].
    destruct (Hw (val k)). rewrite Rabs_right by lra. lra. }
  destruct (period_fin A p Hp Hp20) as [F1 F2]. destruct (period1_fin A p Hp Hp20) as [G1 G2].
  set (x := new d) in *. set (y := wilder p seed new c) in *. set (Y := rrma p (map w (map val c))) in *. set (e := 8 * (INR p + 1) * base) in *.
  assert (Hx : Rabs (val x) <= W) by (rewrite Vx, Rabs_right by lra; lra).
  assert (u1 : half_ulp <= 1 / 1000) by (rewrite Uv; lra).
  assert (e0 : 0 <= e <= W + 1) by (split; [unfold e; lra|exact Bs]).
  assert (yb := abs_sub_le _ _ _ Ey).
  assert (YC : Rabs (val y * (INR p - 1)) <= (2 * W + 1) * 1048576).
  { rewrite Rabs_mult; apply Rmult_le_compat; try apply Rabs_pos; [lra|]. rewrite Rabs_right; lra. }
  destruct (a_mul _ _ _ A y (f_of_Z (Z.of_nat p - 1)) Fy G1) as [Fa Ea]; [rewrite G2, BG; lra|].
  assert (Pm := i_mul _ _ _ I y (f_of_Z (Z.of_nat p - 1)) Fy G1 Py ltac:(rewrite G2; lra) Fa). rewrite G2 in Ea.
  set (m := fmul y (f_of_Z (Z.of_nat p - 1))) in *. assert (Aa := abs_sub_le _ _ _ Ea).
  assert (half_ulp * Rabs (val y * (INR p - 1)) <= 1 / 1000 * ((2 * W + 1) * 1048576)) by (apply Rmult_le_compat; try apply Rabs_pos; lra).
  destruct (a_add _ _ _ A m x Fa Fx) as [Fs Es].
  { eapply Rle_trans; [apply Rabs_triang|]. rewrite BG. lra. }
  assert (As := abs_sub_le _ _ _ Es). assert (MX := Rabs_triang (val m) (val x)). set (sx := fadd m x) in *.
  assert (half_ulp * Rabs (val m + val x) <= 1 / 1000 * Rabs (val m + val x)) by (apply Rmult_le_compat_r; [apply Rabs_pos|lra]).
  assert (Ps : 0 <= val sx).
  { assert (K : Rabs (val m + val x) = val m + val x) by (apply Rabs_right; lra). rewrite K in *. clear - Es H1 Pm Vx w0. unfold Rabs in Es. destruct (Rcase_abs _); lra. }
  assert (SB : Rabs (val sx / INR p) <= Rabs (val sx)).
  { unfold Rdiv. rewrite Rabs_mult, (Rabs_right (/ INR p)) by (apply Rle_ge, Rlt_le, Rinv_0_lt_compat; lra). rewrite <- (Rmult_1_r (Rabs (val sx))) at 2.
    apply Rmult_le_compat_l; [apply Rabs_pos|]. rewrite <- Rinv_1. apply Rinv_le_contravar; lra. }
  destruct (a_div _ _ _ A sx (f_of_Z (Z.of_nat p)) Fs F1) as [Fq Eq]; [rewrite F2; lra|rewrite F2, BG; lra|].
  assert (Pq := i_div _ _ _ I sx (f_of_Z (Z.of_nat p)) Fs F1 Ps ltac:(rewrite F2; lra) Fq). rewrite F2 in Eq.
  split; [exact Fq|]. split; [|exact Pq].
  assert (Q := rma_step_error (INR p) W e (val x) (val y) Y (val m) (val sx) (val (fdiv sx (f_of_Z (Z.of_nat p))))).
  rewrite <- Vx. eapply Rle_trans; [apply Q; try assumption; lra|].
  assert (K : 1 / (2 * INR p) * e = 4 * ((INR p + 1) / INR p) * base) by (unfold e; field; lra).
  assert (1 <= (INR p + 1) / INR p).
  { apply (Rmult_le_reg_r (INR p)); [lra|]. unfold Rdiv. rewrite Rmult_assoc, Rinv_l by lra. lra. }
  assert (4 * base <= 4 * ((INR p + 1) / INR p) * base) by (apply Rmult_le_compat_r; lra). lra.
Qed.

(** Seeds and new terms *)
Lemma rise_val x : fin x -> fin (rise x) /\ val (rise x) = up (val x).
Proof.
  intros Fx. destruct (zero_fin A) as [Z1 Z2]. unfold rise. assert (Q := o_lt _ _ _ O f0 x Z1 Fx). rewrite Z2 in Q. unfold up, Rmax.
  destruct (flt f0 x), (Rle_dec 0 (val x)); split; try assumption; try reflexivity.
  - assert (0 < val x) by now apply Q. lra.
  - rewrite Z2. destruct (Req_dec (val x) 0); [lra|]. assert (K : 0 < val x) by lra. apply Q in K. discriminate.
Qed.
Lemma fall_val x : fin x -> fin (fall x) /\ val (fall x) = - dn (val x).
Proof.
  intros Fx. destruct (zero_fin A) as [Z1 Z2]. unfold fall. assert (Q := o_lt _ _ _ O x f0 Fx Z1). rewrite Z2 in Q. unfold dn, Rmax.
  destruct (flt x f0), (Rle_dec 0 (- val x)); split; try assumption; try ring.
  - assert (val x < 0) by now apply Q. lra.
  - rewrite Z2. destruct (Req_dec (val x) 0); [lra|]. assert (K : val x < 0) by lra. apply Q in K. discriminate.
  - rewrite Z2. ring.
Qed.
Lemma up_abs x : 0 <= up x <= Rabs x.
Proof. split; [apply up_ge|]. unfold up, Rmax, Rabs. destruct (Rle_dec 0 x), (Rcase_abs x); lra. Qed.
Lemma dn_abs x : 0 <= dn x <= Rabs x.
Proof. split; [apply dn_ge|]. unfold dn, Rmax, Rabs. destruct (Rle_dec 0 (- x)), (Rcase_abs x); lra. Qed.
(** The sum of numbers of one sign has that sign. *)
Lemma sum_sign l : length l = p -> Forall good l ->
  (Forall (fun x => 0 <= val x) l -> fin (fsum l) /\ 0 <= val (fsum l)) /\ (Forall (fun x => val x <= 0) l -> fin (fsum l) /\ val (fsum l) <= 0).
Proof.
  intros Ll Gl. assert (HM := W100). assert (B := period_bounds p Hp Hp20). assert (PU := period_ulp p Hp Hp20). assert (U := ulp_pos).
  assert (C100 := two100). assert (BG := big_split). set (total := fold_right Rplus 0 (map (fun x => Rabs (val x)) l)).
  assert (T0 : 0 <= total) by apply (abs_total_pos l).
  assert (TB : total <= 1048576 * 2 ^ 91).
  { apply (Rle_trans _ (INR (length l) * W)).
    - unfold total. clear Ll total T0. induction Gl as [|x l [Fx Bx] Gl IH]; [cbn; lra|]. cbn [map fold_right]. change (length (x :: l)) with (S (length l)). rewrite S_INR. lra.
    - rewrite Ll. apply Rmult_le_compat; lra. }
  assert (PP : (1 + half_ulp) ^ p <= 1 + 8 / 7 * (INR p * half_ulp)) by (apply (pow_ulp p); lra).
  assert (NP : INR p * half_ulp <= 1 / 8) by lra.
  destruct (a_sum _ _ _ A l) as [F1 E1].
  { eapply Forall_impl; [|exact Gl]. now intros a [H _]. }
  { fold total. rewrite Ll. apply (Rle_trans _ (2 * (1048576 * 2 ^ 91))); [apply Rmult_le_compat; try lra; apply pow_le; lra|].
    rewrite BG. replace (2 ^ 100) with (2 ^ 91 * 512) by (replace 100%nat with (91 + 9)%nat by reflexivity; rewrite pow_add; lra). lra. }
  fold total in E1. rewrite Ll in E1.
  assert (E2 : Rabs (val (fsum l) - fold_right Rplus 0 (map val l)) <= 1 * total).
  { eapply Rle_trans; [exact E1|]. apply Rmult_le_compat_r; lra. }
  split; intros S; (split; [exact F1|]).
  - replace (fold_right Rplus 0 (map val l)) with total in E2.
    + clear - E2. unfold Rabs in E2. destruct (Rcase_abs _); lra.
    + unfold total. f_equal. apply map_ext_in. intros x Ix. rewrite Forall_forall in S. apply Rabs_right, Rle_ge, S, Ix.
  - replace (fold_right Rplus 0 (map val l)) with (- total) in E2.
    + clear - E2. unfold Rabs in E2. destruct (Rcase_abs _); lra.
    + unfold total. clear - S. induction S as [|x l Hx S IH]; [cbn; ring|]. cbn [map fold_right]. rewrite <- IH, (Rabs_left1 (val x)) by exact Hx. ring.
Qed.
Lemma seed_error l w s : length l = p -> Forall good l -> (forall x, fin x -> fin (w x) /\ Rabs (val (w x)) <= Rabs (val x)) ->
  (s = true -> forall x, fin x -> 0 <= val (w x)) -> (s = false -> forall x, fin x -> val (w x) <= 0) ->
  fin (fmean (map w l)) /\ Rabs (val (fmean (map w l)) - rmean (map (fun x => val (w x)) l)) <= 8 * (INR p + 1) * base /\
  if s then 0 <= val (fmean (map w l)) else val (fmean (map w l)) <= 0.
Proof.
  intros Ll Gl Hw S1 S2. assert (HM := W100). assert (Bb := base_nonneg W HM). assert (B := period_bounds p Hp Hp20). assert (U := ulp_pos). assert (T := tiny_pos).
  assert (Gw : Forall good (map w l)).
  { apply Forall_map. eapply Forall_impl; [|exact Gl]. intros a [Fa Ba]. destruct (Hw a Fa). split; [assumption|lra]. }
  assert (Lw : length (map w l) = p) by now rewrite map_length.
  destruct (mean_error A O (map w l) W) as [F1 E1].
  - lia.
  - lia.
  - eapply Forall_impl; [|exact Gw]. now intros a [H _].
  - apply (rmean_bounds 0 W); [intros K; apply map_eq_nil in K; rewrite K in Lw; cbn in Lw; lia|]. apply Forall_map. eapply Forall_impl; [|exact Gw].
    intros a [_ Ba]. split; [apply Rabs_pos|exact Ba].
  - split; [lra|]. eapply Rle_trans; [apply HM|]. apply Rle_pow; [lra|lia].
  - rewrite map_map in E1. rewrite Lw in E1. split; [exact F1|]. split.
    + eapply Rle_trans; [exact E1|]. assert (0 <= (INR p + 1) * tiny) by (apply Rmult_le_pos; lra).
      assert (0 <= INR p * tiny) by (apply Rmult_le_pos; lra).
      assert (0 <= (INR p + 1) * (half_ulp * W)) by (apply Rmult_le_pos; [lra|apply Rmult_le_pos; lra]). lra.
    + destruct (sum_sign (map w l) Lw Gw) as [P1 P2]. destruct (period_fin A p Hp Hp20) as [G1 G2].
      rewrite (o_mean _ _ _ O) in * by (intros E; rewrite E in Lw; cbn in Lw; lia). rewrite Lw in *.
      assert (Fl : Forall fin l) by (eapply Forall_impl; [|exact Gl]; now intros a [H _]).
      destruct s.
      * destruct P1 as [Q1 Q2]; [apply Forall_map; eapply Forall_impl; [|exact Fl]; intros a Ha; now apply S1|].
        apply (i_div _ _ _ I); try assumption. rewrite G2. lra.
      * destruct P2 as [Q1 Q2]; [apply Forall_map; eapply Forall_impl; [|exact Fl]; intros a Ha; now apply S2|].
        apply (i_div_down _ _ _ I); try assumption. rewrite G2. lra.
Qed.
Lemma gain_error c : Forall good c ->
  let g := wilder p (fun c => fmean (map rise c)) (fun d => fmax f0 d) c in
  fin g /\ Rabs (val g - rrma p (map up (map val c))) <= 8 * (INR p + 1) * base /\ 0 <= val g.
Proof.
  intros H. cbv zeta. destruct (zero_fin A) as [Z1 Z2]. apply wilder_error; [exact up_abs| | |exact H].
  - intros l Ll Gl. destruct (seed_error l rise true Ll Gl) as (F1 & E1 & P1).
    + intros x Fx. destruct (rise_val x Fx) as [F1 ->]. split; [exact F1|]. destruct (up_abs (val x)). rewrite Rabs_right; lra.
    + intros _ x Fx. destruct (rise_val x Fx) as [_ ->]. apply up_ge.
    + discriminate.
    + split; [exact F1|]. split; [|exact P1]. rewrite map_map. rewrite (map_ext_in _ (fun x => val (rise x))); [exact E1|].
      intros x Ix. rewrite Forall_forall in Gl. symmetry. apply rise_val. now apply Gl.
  - intros d [Fd _]. destruct (o_max _ _ _ O f0 d Z1 Fd) as [F1 E1]. split; [exact F1|]. rewrite E1, Z2. reflexivity.
Qed.
Lemma loss_error c : Forall good c ->
  let g := wilder p (fun c => fneg (fmean (map fall c))) (fun d => fneg (fmin f0 d)) c in
  fin g /\ Rabs (val g - rrma p (map dn (map val c))) <= 8 * (INR p + 1) * base /\ 0 <= val g.
Proof.
  intros H. cbv zeta. destruct (zero_fin A) as [Z1 Z2]. apply wilder_error; [exact dn_abs| | |exact H].
  - intros l Ll Gl. destruct (seed_error l fall false Ll Gl) as (F1 & E1 & P1).
    + intros x Fx. destruct (fall_val x Fx) as [F1 ->]. split; [exact F1|]. destruct (dn_abs (val x)). rewrite Rabs_Ropp, Rabs_right; lra.
    + discriminate.
    + intros _ x Fx. destruct (fall_val x Fx) as [_ ->]. assert (Q := dn_ge (val x)). lra.
    + destruct (i_neg _ _ _ I _ F1) as [F2 E2]. split; [exact F2|]. rewrite E2. split; [|lra]. rewrite map_map.
      rewrite (map_ext_in _ (fun x => - dn (val x))) in E1.
      2:{ intros x Ix. rewrite Forall_forall in Gl. apply fall_val. now apply Gl. }
      rewrite <- (map_map (fun x => dn (val x)) Ropp) in E1. unfold rmean in E1 |- *. rewrite rsum_opp, !map_length in E1. rewrite !map_length.
      set (a := rsum _) in *. replace (- val (fmean (map fall l)) - a / INR (length l)) with (- (val (fmean (map fall l)) - - a / INR (length l))) by (unfold Rdiv; ring).
      now rewrite Rabs_Ropp.
  - intros d [Fd _]. destruct (o_min _ _ _ O f0 d Z1 Fd) as [F1 E1]. destruct (i_neg _ _ _ I _ F1) as [F2 E2]. split; [exact F2|]. rewrite E2, E1, Z2.
    unfold dn, Rmin, Rmax. destruct (Rle_dec 0 (val d)), (Rle_dec 0 (- val d)); lra.
Qed.
Lemma changes_close h : Forall fin h -> Forall (fun x => Rabs x <= V) (rchanges (map val h)) ->
  Forall good (changes h) /\ off (half_ulp * V) (map val (changes h)) (rchanges (map val h)).
Proof.
  assert (C100 := two100). assert (BG := big_split). assert (U := ulp_pos). assert (Uv := ulp_val).
  assert (V100 : V <= 2 ^ 100) by (eapply Rle_trans; [apply HV|apply Rle_pow; [lra|lia]]).
  induction h as [|x [|y h] IH]; intros Fh Bh; [split; [constructor|split; [reflexivity|intros i Hi; cbn in Hi; lia]]..|].
  inversion Fh as [|? ? Fx Fr]; subst. inversion Fr as [|? ? Fy _]; subst.
  change (rchanges (map val (x :: y :: h))) with ((val x - val y) :: rchanges (map val (y :: h))) in *.
  change (changes (x :: y :: h)) with (fsub x y :: changes (y :: h)). inversion Bh as [|? ? B1 B2]; subst. destruct (IH Fr B2) as (I1 & I2 & I3).
  destruct (a_sub _ _ _ A x y Fx Fy) as [F1 E1]; [rewrite BG; lra|].
  assert (E2 : Rabs (val (fsub x y) - (val x - val y)) <= half_ulp * V) by (eapply Rle_trans; [exact E1|]; apply Rmult_le_compat_l; lra).
  assert (Q := abs_sub_le _ _ _ E2). assert (half_ulp * V <= 1 * V) by (apply Rmult_le_compat_r; [lra|rewrite Uv; lra]).
  split; [constructor; [split; [exact F1|lra]|exact I1]|]. split; [cbn [map length] in *; now rewrite I2|].
  intros [|i] Hi; [exact E2|]. apply I3. cbn [map length] in Hi |- *. lia.
Qed.
Notation E := (17 * (INR p + 1) * (half_ulp * V + tiny)).
Lemma up_lip x y : Rabs (up x - up y) <= Rabs (x - y).
Proof. unfold up. apply max_lip; [rewrite Rminus_eq_0, Rabs_R0; apply Rabs_pos|lra]. Qed.
Lemma dn_lip x y : Rabs (dn x - dn y) <= Rabs (x - y).
Proof. unfold dn. apply max_lip; [rewrite Rminus_eq_0, Rabs_R0; apply Rabs_pos|]. replace (- x - - y) with (- (x - y)) by ring. rewrite Rabs_Ropp. lra. Qed.
Lemma off_map w e u v : (forall x y, Rabs (w x - w y) <= Rabs (x - y)) -> off e u v -> off e (map w u) (map w v).
Proof.
  intros Hw [L H]. split; [now rewrite !map_length|]. intros i Hi. rewrite map_length in Hi.
  rewrite (nth_indep _ 0 (w 0)), (nth_indep (map w v) 0 (w 0)) by (rewrite map_length; lia). rewrite !map_nth. eapply Rle_trans; [apply Hw|]. now apply H.
Qed.
Lemma rsi_close h : Forall fin h -> Forall (fun x => Rabs x <= V) (rchanges (map val h)) -> (p < length h)%nat ->
  let m := average_move p (map val h) in 4 * E <= m ->
  exists r, @rsi ER p (map Fin (map val h)) = Fin r /\ fin (rsi p h) /\ Rabs (val (rsi p h) - r) <= 600 * half_ulp + 200 * E / m.
Proof.
  intros Fh Bh Lh m Hm. assert (U := ulp_pos). assert (Uv := ulp_val). assert (T := tiny_pos). assert (B := period_bounds p Hp Hp20). assert (HM := W100).
  assert (Bs := base_small p W Hp Hp20 HM). assert (C100 := two100).
  assert (uV : 0 <= half_ulp * V) by (apply Rmult_le_pos; lra). assert (uV1 : half_ulp * V <= 1 / 1000 * V) by (apply Rmult_le_compat_r; [lra|rewrite Uv; lra]).
  assert (pt : 0 <= (INR p + 1) * tiny) by (apply Rmult_le_pos; lra). assert (puV : half_ulp * V <= (INR p + 1) * (half_ulp * V)) by (assert (0 <= INR p * (half_ulp * V)) by (apply Rmult_le_pos; lra); lra).
  assert (pt1 : 0 < (INR p + 1) * tiny) by (apply Rmult_lt_0_compat; lra).
  assert (Ep : 0 < E) by lra. assert (m0 : 0 < m) by lra.
  assert (X := rsi_exact p (map val h) Hp ltac:(now rewrite map_length) m0). eexists. split; [exact X|].
  destruct (changes_close h Fh Bh) as [G1 G2].
  destruct (gain_error _ G1) as (Fg & Eg & Pg). destruct (loss_error _ G1) as (Fl & El & Pl).
  assert (LU := rrma_lip p (half_ulp * V) _ _ Hp Hp20 ltac:(split; [lra|]; assert (V <= 2 ^ 100) by (eapply Rle_trans; [apply HV|apply Rle_pow; [lra|lia]]); lra) (off_map up _ _ _ up_lip G2)).
  assert (LD := rrma_lip p (half_ulp * V) _ _ Hp Hp20 ltac:(split; [lra|]; assert (V <= 2 ^ 100) by (eapply Rle_trans; [apply HV|apply Rle_pow; [lra|lia]]); lra) (off_map dn _ _ _ dn_lip G2)).
  assert (Eg' := abs_via _ _ _ _ _ Eg LU). assert (El' := abs_via _ _ _ _ _ El LD).
  fold (average_gain p h) in Fg, Eg', Pg, Eg. fold (average_loss p h) in Fl, El', Pl, El.
  unfold rsi. destruct (Nat.leb_spec (length h) p); [lia|].
  set (g := average_gain p h) in *. set (l := average_loss p h) in *.
  assert (SP := average_split p (rchanges (map val h))). fold (average_move p (map val h)) in SP. fold m in SP.
  assert (Gn := rrma_up_nonneg p up (rchanges (map val h)) Hp up_ge). assert (Ln := rrma_up_nonneg p dn (rchanges (map val h)) Hp dn_ge).
  set (G := rrma p (map up (rchanges (map val h)))) in *. set (L := rrma p (map dn (rchanges (map val h)))) in *.
  destruct (ratio_lip G L (val g) (val l) E Gn Ln Pg Pl) as [P1 P2]; [lra|lra|lra|lra|].
  assert (GB : forall w, (forall x, 0 <= w x <= Rabs x) -> Rabs (rrma p (map w (map val (changes h)))) <= W).
  { intros w Hw. apply (rrma_bound p W Hp Hp20 HM). apply Forall_map, Forall_map. eapply Forall_impl; [|exact G1]. intros k [_ Bk].
    destruct (Hw (val k)). rewrite Rabs_right by lra. lra. }
  assert (Q1 := abs_sub_le _ _ _ Eg). assert (Q2 := abs_sub_le _ _ _ El). assert (Q3 := GB up up_abs). assert (Q4 := GB dn dn_abs).
  rewrite (Rabs_right (val g)) in Q1 by lra. rewrite (Rabs_right (val l)) in Q2 by lra.
  assert (V2 : W * 512 <= 2 ^ 100).
  { replace (2 ^ 100) with (2 ^ 90 * 1024) by (replace 100%nat with (90 + 10)%nat by reflexivity; rewrite pow_add; lra). lra. }
  destruct (index_close g l Fg Fl Pg Pl P1) as [Fr Er]; [lra|lra|]. split; [exact Fr|].
  eapply Rle_trans; [exact (abs_via _ _ _ _ _ Er P2)|]. rewrite SP. lra.
Qed.
Theorem rsi_within xs : xs <> [] -> short (rev xs) -> Forall fin xs -> moves_within V (map val xs) ->
  exists o oe sf s0 sf' s0',
    call (RelativeStrengthIndex (Z.of_nat p)) (scalars xs) None true = Ok (scalars o, sf, s0) /\
    @call ER (@RelativeStrengthIndex ER (Z.of_nat p)) (@scalars ER (map (fun x => Fin (val x)) xs)) None true = Ok (@scalars ER oe, sf', s0') /\
    length o = length xs /\ length oe = length xs /\
    forall n, (n < length xs)%nat ->
      ((n < p)%nat -> nth n o f1 = f0 /\ nth n oe NaN = Fin 0) /\
      ((p <= n)%nat -> let m := average_move p (upto n (map val xs)) in 4 * E <= m ->
        exists r, nth n oe NaN = Fin r /\ fin (nth n o f0) /\ Rabs (val (nth n o f0) - r) <= 600 * half_ulp + 200 * E / m).
Proof.
  intros NE OK Fx Mv. destruct (scalar_positions _ _ _ _ (rsi_streams p Hp) xs NE OK) as (o & sf & s0 & C & L & H).
  destruct (@scalar_positions ER _ _ _ _ _ (@rsi_streams ER p Hp) (map (fun x => Fin (val x)) xs)) as (oe & sf' & s0' & C' & L' & H').
  { now destruct xs. } { unfold short in *. rewrite rev_length in *. now rewrite map_length. }
  rewrite map_length in *. exists o, oe, sf, s0, sf', s0'. do 2 (split; [assumption|]). split; [exact L|]. split; [exact L'|]. intros n Hn. split.
  - intros Pn. rewrite H, H' by exact Hn. unfold rsi. rewrite !upto_length by (rewrite ?map_length; exact Hn). destruct (Nat.leb_spec (S n) p); [now split|lia].
  - intros Pn m Hm. rewrite H, H' by exact Hn. change (@F ER) with ext. rewrite (upto_map (fun x => Fin (val x))), <- (map_map val Fin).
    unfold m in *. rewrite upto_map in *. apply rsi_close.
    + apply Forall_forall. intros x I'. apply in_upto in I'. rewrite Forall_forall in Fx. now apply Fx.
    + rewrite <- upto_map, upto_rchanges by now rewrite map_length. apply Forall_map, Forall_forall. intros i Ii. apply in_seq in Ii.
      replace (n - i)%nat with (S (n - i - 1)) at 1 by lia. apply Mv. rewrite map_length. lia.
    + rewrite upto_length by exact Hn. lia.
    + exact Hm.
Qed.
End Index.
