(** * SuperNum: float32 and exact arithmetic pick (C66); a factor as large as the period is safe. *)
From Coq Require Import Reals Lra List ZArith Bool Lia.
From Coq Require Import Floats.SpecFloat.
From Verif Require Import Num Py Tensor Streamable Spec Finance Series Formulas Positions ImplMarket MarketFacts B32 ER RealFacts RealStats RealMarket RealLinear MarketReal Order Super SuperFacts.
Import ListNotations.

Lemma sf_split x y z : y <> S754_nan -> SFltb x z = true -> SFltb x y = true \/ SFltb y z = true.
Proof.
  destruct x as [s1|s1| |s1 m1 e1], y as [s2|s2| |s2 m2 e2], z as [s3|s3| |s3 m3 e3]; intros Hn H; try easy;
  try discriminate H; try (destruct s1; try discriminate H); try (destruct s3; try discriminate H); try (destruct s2); try (now left); try (now right); try discriminate H.
  all: rewrite ?sf_finite_lt in *; lia.
Qed.
Lemma b32_picking log32 : picking (B32 log32) b32_usable.
Proof.
  constructor; cbn [F flt fmax fmin B32].
  - apply sf_irrefl.
  - apply sf_trans.
  - intros x y z [_ H]. now apply sf_split.
  - intros x y. unfold b32_max. destruct (SFltb x y) eqn:E; [|split; [now left|split; [apply sf_irrefl|exact E]]].
    split; [now right|]. split; [|apply sf_irrefl]. destruct (SFltb y x) eqn:Q; [|reflexivity]. now rewrite <- (sf_trans _ _ _ E Q), sf_irrefl.
  - intros x y. unfold b32_min. destruct (SFltb y x) eqn:E; [|split; [now left|split; [apply sf_irrefl|exact E]]].
    split; [now right|]. split; [|apply sf_irrefl]. destruct (SFltb x y) eqn:Q; [|reflexivity]. now rewrite <- (sf_trans _ _ _ E Q), sf_irrefl.
Qed.
Local Open Scope R_scope.
Lemma er_split x y z : y <> NaN -> e_lt x z = true -> e_lt x y = true \/ e_lt y z = true.
Proof.
  intros Hy. destruct x as [x| | |], y as [y| | |], z as [z| | |]; try easy; cbn; rewrite ?Rltb_true; auto; try (now left); try (now right).
  intros H. destruct (Rlt_dec x y); [now left|right; lra].
Qed.
Lemma er_picking : picking ER er_usable.
Proof.
  constructor; cbn [F flt fmax fmin ER].
  - apply er_irrefl.
  - apply er_trans.
  - intros x y z H. now apply er_split.
  - intros x y. unfold e_max. destruct (e_lt x y) eqn:E; [|split; [now left|split; [apply er_irrefl|exact E]]].
    split; [now right|]. split; [|apply er_irrefl]. destruct (e_lt y x) eqn:Q; [|reflexivity]. now rewrite <- (er_trans _ _ _ E Q), er_irrefl.
  - intros x y. unfold e_min. destruct (e_lt y x) eqn:E; [|split; [now left|split; [apply er_irrefl|exact E]]].
    split; [now right|]. split; [|apply er_irrefl]. destruct (e_lt x y) eqn:Q; [|reflexivity]. now rewrite <- (er_trans _ _ _ E Q), er_irrefl.
Qed.

(** ** The average is at least the newest range over the period *)
Lemma rsum_nonneg l : Forall (fun x => 0 <= x) l -> 0 <= rsum l.
Proof. intros H. induction H; cbn; [lra|]. unfold rsum in *. cbn. lra. Qed.
Lemma rrma_nonneg p h : (1 <= p)%nat -> Forall (fun x => 0 <= x) h -> 0 <= rrma p h.
Proof. intros Hp H. destruct (rma_nonneg p h Hp H) as (e & E & B). rewrite rma_eq in E by exact Hp. now injection E as ->. Qed.
Lemma rrma_newest p x r : (1 <= p)%nat -> Forall (fun x => 0 <= x) (x :: r) -> rrma p (x :: r) <> 0 -> x <= INR p * rrma p (x :: r).
Proof.
  intros Hp H NZ. assert (P : 1 <= INR p) by (apply (le_INR 1 p) in Hp; exact Hp). inversion H as [|? ? Hx Hr]; subst.
  pose proof (rrma_nonneg p r Hp Hr) as G. cbn [rrma] in *. destruct (Nat.leb_spec (length (x :: r)) p) as [L|L].
  - unfold rsma in *. destruct (Nat.ltb_spec (length (x :: r)) p) as [Q|Q]; [lra|]. assert (E : length (x :: r) = p) by lia.
    rewrite firstn_all2 by lia. unfold rmean. rewrite E. replace (INR p * (rsum (x :: r) / INR p)) with (rsum (x :: r)) by (field; lra).
    pose proof (rsum_nonneg r Hr). unfold rsum in *. cbn. lra.
  - replace (INR p * ((rrma p r * (INR p - 1) + x) / INR p)) with (rrma p r * (INR p - 1) + x) by (field; lra).
    assert (0 <= rrma p r * (INR p - 1)) by (apply Rmult_le_pos; lra). lra.
Qed.
Lemma middle_within prev c : prev <> 0 -> - rrange prev c <= (r_high c + r_low c) / 2 - prev <= rrange prev c.
Proof.
  intros H. rewrite rrange_known by exact H. pose proof (Rmax_l (Rmax (r_high c - r_low c) (Rabs (r_high c - prev))) (Rabs (r_low c - prev))).
  pose proof (Rmax_r (r_high c - r_low c) (Rabs (r_high c - prev))). pose proof (Rmax_r (Rmax (r_high c - r_low c) (Rabs (r_high c - prev))) (Rabs (r_low c - prev))).
  pose proof (Rle_abs (r_high c - prev)). pose proof (Rle_abs (- (r_high c - prev))). pose proof (Rle_abs (r_low c - prev)). pose proof (Rle_abs (- (r_low c - prev))).
  rewrite !Rabs_Ropp in *. lra.
Qed.
Lemma middle_fin c : @middle ER (cfin c) = Fin ((r_high c + r_low c) / 2).
Proof. unfold middle. cbn [c_high c_low cfin fdiv fadd ER f_of_Z e_add e_div]. destruct (Req_EM_T 2 0); [lra|reflexivity]. Qed.
Lemma atr_fin p h : (1 <= p)%nat -> @atr ER p (map cfin h) = Fin (rrma p (rranges h)).
Proof. intros Hp. unfold atr. rewrite ranges_fin. now apply rma_eq. Qed.
Theorem super_safe_factor p factor k xs : (1 <= p)%nat -> @num ER factor = Fin k -> INR p <= k -> xs <> [] -> short (rev xs) ->
  Forall (fun c => r_close c <> 0) xs ->
  exists out sf s0, call (@Supertrend ER (Z.of_nat p) factor) (bars (map cfin xs)) None true = Ok (scalars out, sf, s0) /\ length out = length xs.
Proof.
  intros Hp Hk Hle NE OK NZ.
  assert (OK' : short (rev (map cfin xs))) by (unfold short in *; now rewrite rev_length, map_length in *).
  assert (NE' : map cfin xs <> []) by now destruct xs.
  destruct (atr_streams (N := ER) p Hp) as (st' & H2 & _). specialize (H2 (map cfin xs) NE' OK').
  rewrite <- (map_length cfin). eapply (super_never_aborts er_picking); [exact Hp|exact NE'|exact OK'|exact H2|now rewrite map_length, hists_length|].
  intros n Hn A. rewrite nth_map_hists in A |- * by exact Hn. rewrite map_length in Hn. rewrite Hk. rewrite <- StatFacts.upto_map in A |- *.
  rewrite atr_fin in A |- * by exact Hp. change (e_eq (Fin (rrma p (rranges (upto n xs)))) (Fin 0) = false) in A. cbn [e_eq] in A. unfold Reqb in A.
  destruct (Req_EM_T (rrma p (rranges (upto n xs))) 0) as [Z|Z]; [discriminate|]. clear A.
  assert (C : forall i, (i < length xs)%nat -> nth i (map cfin xs) no_candle = cfin (nth i xs no_rcandle)).
  { intros i Hi. rewrite (nth_indep _ _ (cfin no_rcandle)) by now rewrite map_length. apply map_nth. }
  assert (Pk : 0 <= k * rrma p (rranges (upto n xs))).
  { apply Rmult_le_pos; [pose proof (pos_INR p); lra|]. apply rrma_nonneg; [exact Hp|apply rranges_nonneg]. }
  assert (P1 : 1 <= INR p) by (apply (le_INR 1 p) in Hp; exact Hp).
  rewrite C, middle_fin by exact Hn. set (m := (r_high (nth n xs no_rcandle) + r_low (nth n xs no_rcandle)) / 2).
  cbn [fmul fadd fsub flt ER e_mul e_add e_sub e_neg e_lt]. destruct n as [|n].
  - cbn [Nat.eqb e_sub e_add e_neg e_lt]. apply Rltb_false. lra.
  - cbn [Nat.eqb]. replace (S n - 1)%nat with n by lia. rewrite C by lia. cbn [c_close cfin e_sub e_add e_neg e_lt].
    assert (Zc : r_close (nth n xs no_rcandle) <> 0) by (rewrite Forall_forall in NZ; apply NZ, nth_In; lia).
    assert (U : upto (S n) xs = nth (S n) xs no_rcandle :: upto n xs) by now apply SignalFacts.upto_S. rewrite U in *. cbn [rranges] in *.
    rewrite rlast_close_upto in * by lia. set (prev := r_close (nth n xs no_rcandle)) in *.
    pose proof (middle_within prev (nth (S n) xs no_rcandle) Zc) as W. fold m in W.
    assert (R1 : rrange prev (nth (S n) xs no_rcandle) <= INR p * rrma p (rrange prev (nth (S n) xs no_rcandle) :: rranges (upto n xs))).
    { apply rrma_newest; [exact Hp| |exact Z]. constructor; [apply rrange_nonneg|apply rranges_nonneg]. }
    set (a := rrma p (rrange prev (nth (S n) xs no_rcandle) :: rranges (upto n xs))) in *.
    assert (R2 : INR p * a <= k * a).
    { apply Rmult_le_compat_r; [|exact Hle]. apply rrma_nonneg; [exact Hp|]. constructor; [apply rrange_nonneg|apply rranges_nonneg]. }
    split; [discriminate|]. split; apply Rltb_false; lra.
Qed.

(** ** A smaller factor is not safe: quiet bars, a jump, a close between the crossed lines *)
Section Unsafe.
Variables (p : nat) (k : R).
Hypothesis Hp : (1 <= p)%nat.
Hypothesis K0 : 0 < k.
Hypothesis Kp : k < INR p.
Let e := (1 - k / INR p) / (8 * (k + 1)).
Let quiet := RC 1 (1 + e) (1 - e) 1.
Let jumped := RC 2 2 2 2.
Let x := 1 + 3 * e * k.
Let between_ := RC x x x x.
Lemma kp1 : 0 < k / INR p < 1.
Proof. split; [apply Rdiv_lt_0_compat; lra|]. apply (Rmult_lt_reg_r (INR p)); [lra|]. unfold Rdiv. rewrite Rmult_assoc, Rinv_l by lra. lra. Qed.
Lemma e_def : 8 * e + 8 * (e * k) = 1 - k / INR p.
Proof. unfold e. field. split; lra. Qed.
Lemma e_pos : 0 < e.
Proof. unfold e. pose proof kp1. apply Rdiv_lt_0_compat; lra. Qed.
Lemma ek_pos : 0 < e * k.
Proof. apply Rmult_lt_0_compat; [apply e_pos|exact K0]. Qed.
Lemma quiet_range prev : prev = 0 \/ prev = 1 -> rrange prev quiet = 2 * e.
Proof.
  pose proof e_pos. intros [-> | ->]; unfold rrange, quiet; cbn [r_high r_low].
  - destruct (Req_EM_T 0 0); [|easy]. replace (1 + e - (1 - e)) with (2 * e) by lra. rewrite !Rmax_left; try lra. rewrite Rmax_left; lra.
  - destruct (Req_EM_T 1 0); [lra|]. replace (1 + e - (1 - e)) with (2 * e) by lra. rewrite (Rabs_pos_eq (1 + e - 1)) by lra. rewrite (Rabs_left (1 - e - 1)) by lra.
    rewrite (Rmax_left (2 * e)) by lra. rewrite Rmax_left; lra.
Qed.
Lemma quiet_close n : rlast_close (repeat quiet n) = 0 \/ rlast_close (repeat quiet n) = 1.
Proof. destruct n; [now left|now right]. Qed.
Lemma quiet_ranges n : rranges (repeat quiet n) = repeat (2 * e) n.
Proof. induction n as [|n IH]; [reflexivity|]. cbn [repeat rranges]. rewrite IH, quiet_range by apply quiet_close. reflexivity. Qed.
Lemma P1 : 1 <= INR p.
Proof. apply (le_INR 1 p) in Hp. exact Hp. Qed.
Lemma rsum_repeat c n : rsum (repeat c n) = INR n * c.
Proof. rewrite <- (map_id (repeat c n)). rewrite (map_ext_in _ (fun _ => c)) by (intros a Ha; now apply repeat_spec in Ha). now rewrite rsum_const, repeat_length. Qed.
Lemma quiet_average n : rrma p (repeat (2 * e) n) = if (n <? p)%nat then 0 else 2 * e.
Proof.
  pose proof P1. induction n as [|n IH]; [cbn [repeat rrma]; destruct (Nat.ltb_spec 0 p); [reflexivity|lia]|].
  cbn [repeat rrma]. assert (L : length (2 * e :: repeat (2 * e) n) = S n) by (cbn [length]; now rewrite repeat_length). rewrite L.
  destruct (Nat.leb_spec (S n) p) as [Q|Q].
  - unfold rsma. rewrite L. destruct (Nat.ltb_spec (S n) p) as [Q'|Q']; [reflexivity|]. rewrite firstn_all2 by lia. unfold rmean. rewrite L.
    change (2 * e :: repeat (2 * e) n) with (repeat (2 * e) (S n)). rewrite rsum_repeat. replace (S n) with p by lia. field. lra.
  - rewrite IH. destruct (Nat.ltb_spec n p); [lia|]. destruct (Nat.ltb_spec (S n) p); [lia|]. field. lra.
Qed.
Lemma quiet_atr n : @atr ER p (map cfin (repeat quiet n)) = Fin (if (n <? p)%nat then 0 else 2 * e).
Proof. rewrite atr_fin by exact Hp. now rewrite quiet_ranges, quiet_average. Qed.
Lemma quiet_trend n : (n < p)%nat -> @supertrend ER p (Fin k) (map cfin (repeat quiet n)) = no_trend.
Proof.
  intros H. destruct n as [|n]; [reflexivity|]. cbn [repeat map supertrend]. change (cfin quiet :: map cfin (repeat quiet n)) with (map cfin (repeat quiet (S n))).
  rewrite quiet_atr. destruct (Nat.ltb_spec (S n) p); [|lia]. change (feq (Fin 0 : @F ER) f0) with (Reqb 0 0). unfold Reqb. destruct (Req_EM_T 0 0); easy.
Qed.
Lemma feq_fin r : r <> 0 -> feq (Fin r : @F ER) f0 = false.
Proof. intros H. change (feq (Fin r : @F ER) f0) with (Reqb r 0). unfold Reqb. now destruct (Req_EM_T r 0). Qed.
Lemma flt_fin (a b : R) : flt (Fin a : @F ER) (Fin b) = Rltb a b.
Proof. reflexivity. Qed.
Lemma fmax_fin (a b : R) : fmax (Fin a : @F ER) (Fin b) = Fin (Rmax a b).
Proof. cbn [fmax ER]. unfold e_max. cbn [e_lt]. unfold Rltb. destruct (Rlt_dec a b); [rewrite Rmax_right by lra|rewrite Rmax_left by lra]; reflexivity. Qed.
Lemma fmin_fin (a b : R) : fmin (Fin a : @F ER) (Fin b) = Fin (Rmin a b).
Proof. cbn [fmin ER]. unfold e_min. cbn [e_lt]. unfold Rltb. destruct (Rlt_dec b a); [rewrite Rmin_right by lra|rewrite Rmin_left by lra]; reflexivity. Qed.
(** One step of the lines on finite numbers. *)
Lemma next_up a c prev d u t l : t_up (@next_trend ER (Fin k) (Fin a) (cfin c) (Fin prev) (Trend d (Fin u) t l)) =
  Fin (let lower := (r_high c + r_low c) / 2 - k * a in if Rlt_dec u prev then Rmax lower u else lower).
Proof.
  unfold next_trend. cbn [t_up t_down]. pose proof (middle_fin c) as M. unfold middle in M. rewrite M. clear M.
  change (@fsub ER (Fin ((r_high c + r_low c) / 2)) (@fmul ER (Fin k) (Fin a))) with (Fin ((r_high c + r_low c) / 2 - k * a)). rewrite flt_fin. unfold Rltb. destruct (Rlt_dec u prev); [|reflexivity]. now rewrite fmax_fin.
Qed.
Lemma next_down a c prev d u t l : t_down (@next_trend ER (Fin k) (Fin a) (cfin c) (Fin prev) (Trend (Fin d) u t l)) =
  Fin (let upper := (r_high c + r_low c) / 2 + k * a in if Rlt_dec prev d then Rmin upper d else upper).
Proof.
  unfold next_trend. cbn [t_up t_down]. pose proof (middle_fin c) as M. unfold middle in M. rewrite M. clear M.
  change (@fadd ER (Fin ((r_high c + r_low c) / 2)) (@fmul ER (Fin k) (Fin a))) with (Fin ((r_high c + r_low c) / 2 + k * a)). rewrite flt_fin. unfold Rltb. destruct (Rlt_dec prev d); [|reflexivity]. now rewrite fmin_fin.
Qed.
Lemma quiet_lines : exists t l, @supertrend ER p (Fin k) (map cfin (repeat quiet p)) = Trend (Fin (1 + 2 * (e * k))) (Fin (1 - 2 * (e * k))) t l.
Proof.
  pose proof e_pos. pose proof ek_pos. pose proof e_def. pose proof kp1. pose proof (quiet_atr p) as A. rewrite Nat.ltb_irrefl in A.
  assert (Q : exists q, p = S q) by (exists (p - 1)%nat; lia). destruct Q as [q Q].
  assert (E : map cfin (repeat quiet p) = cfin quiet :: map cfin (repeat quiet q)) by now rewrite Q.
  rewrite E in A |- *. cbn [supertrend]. rewrite A, feq_fin by lra. rewrite quiet_trend by lia. rewrite last_close_fin. unfold no_trend.
  change (@f0 ER) with (Fin 0).
  match goal with |- context [@next_trend ER ?a ?b ?c ?d ?f] => set (nt := @next_trend ER a b c d f) end.
  assert (D : t_down nt = Fin (1 + 2 * (e * k))).
  { unfold nt. rewrite next_down. f_equal. cbn [quiet r_high r_low]. destruct (Rlt_dec (rlast_close (repeat quiet q)) 0) as [G|G]; [|lra]. destruct (quiet_close q) as [G'|G']; rewrite G' in G; lra. }
  assert (U : t_up nt = Fin (1 - 2 * (e * k))).
  { unfold nt. rewrite next_up. f_equal. cbn [quiet r_high r_low]. destruct (Rlt_dec 0 (rlast_close (repeat quiet q))); [rewrite Rmax_left|]; lra. }
  clearbody nt. destruct nt as [d u t l]. cbn in D, U. subst. now exists t, l.
Qed.
Lemma jump_range : rrange 1 jumped = 1.
Proof.
  rewrite rrange_known by lra. cbn [jumped r_high r_low]. replace (2 - 1) with 1 by lra. rewrite Rabs_R1, Rminus_diag_eq by reflexivity. rewrite (Rmax_right 0 1) by lra. apply Rmax_left. lra.
Qed.
Let a1 := (2 * e * (INR p - 1) + 1) / INR p.
Lemma jump_average : rranges (jumped :: repeat quiet p) = 1 :: repeat (2 * e) p /\ rrma p (rranges (jumped :: repeat quiet p)) = a1.
Proof.
  assert (C : rlast_close (repeat quiet p) = 1) by (destruct p; [lia|reflexivity]).
  assert (E : rranges (jumped :: repeat quiet p) = 1 :: repeat (2 * e) p) by (cbn [rranges]; now rewrite C, jump_range, quiet_ranges). split; [exact E|]. rewrite E.
  cbn [rrma length]. rewrite repeat_length. destruct (Nat.leb_spec (S p) p); [lia|]. rewrite quiet_average, Nat.ltb_irrefl. reflexivity.
Qed.
Lemma a1_bounds : 0 < a1 /\ k * a1 <= 2 * (e * k) + k / INR p.
Proof.
  pose proof P1. pose proof e_pos. pose proof ek_pos. assert (I : 0 < / INR p) by (apply Rinv_0_lt_compat; lra). assert (0 <= 2 * e * (INR p - 1)) by (apply Rmult_le_pos; lra). split.
  - unfold a1. apply Rdiv_lt_0_compat; lra.
  - replace (k * a1) with (2 * (e * k) + k / INR p - 2 * (e * k) * / INR p) by (unfold a1; field; lra).
    assert (0 <= 2 * (e * k) * / INR p) by (apply Rmult_le_pos; lra). lra.
Qed.
Lemma crossed : @conflict ER p (Fin k) (map cfin (between_ :: jumped :: repeat quiet p)) = true.
Proof.
  pose proof P1. pose proof e_pos. pose proof ek_pos. pose proof e_def. pose proof kp1. destruct a1_bounds as [B1 B2]. destruct jump_average as [J1 J2].
  change (map cfin (between_ :: jumped :: repeat quiet p)) with (cfin between_ :: map cfin (jumped :: repeat quiet p)). unfold conflict.
  change (cfin between_ :: map cfin (jumped :: repeat quiet p)) with (map cfin (between_ :: jumped :: repeat quiet p)).
  rewrite atr_fin by exact Hp. rewrite feq_fin.
  2:{ change (rranges (between_ :: jumped :: repeat quiet p)) with (rrange 2 between_ :: rranges (jumped :: repeat quiet p)). cbn [rrma]. rewrite J2.
      destruct (Nat.leb_spec (length (rrange 2 between_ :: rranges (jumped :: repeat quiet p))) p) as [Q|Q]; [rewrite J1 in Q; cbn [length] in Q; rewrite repeat_length in Q; lia|].
      assert (0 < rrange 2 between_).
      { rewrite rrange_known by lra. cbn [between_ r_high r_low]. pose proof (Rmax_r (Rmax (x - x) (Rabs (x - 2))) (Rabs (x - 2))) as M. assert (0 < Rabs (x - 2)) by (apply Rabs_pos_lt; unfold x; lra). lra. }
      assert (0 <= a1 * (INR p - 1)) by (apply Rmult_le_pos; lra). apply Rgt_not_eq, Rlt_gt, Rdiv_lt_0_compat; lra. }
  destruct quiet_lines as (t & l & QL). change (map cfin (jumped :: repeat quiet p)) with (cfin jumped :: map cfin (repeat quiet p)). cbn [supertrend].
  change (cfin jumped :: map cfin (repeat quiet p)) with (map cfin (jumped :: repeat quiet p)). rewrite atr_fin, J2, feq_fin by (try exact Hp; lra). rewrite QL, last_close_fin.
  assert (C : rlast_close (repeat quiet p) = 1) by (destruct p; [lia|reflexivity]). rewrite C.
  rewrite next_up, next_down. cbn [c_close cfin between_ r_close jumped r_high r_low negb andb]. rewrite !flt_fin.
  apply andb_true_intro. cbv zeta. split; apply Rltb_true; unfold x.
  - destruct (Rlt_dec 1 (1 + 2 * (e * k))); [|lra]. pose proof (Rmin_r ((2 + 2) / 2 + k * a1) (1 + 2 * (e * k))). lra.
  - destruct (Rlt_dec (1 - 2 * (e * k)) 1); [|lra]. pose proof (Rmax_l ((2 + 2) / 2 - k * a1) (1 - 2 * (e * k))). lra.
Qed.
Lemma unsafe : exists xs, length xs = (p + 2)%nat /\ Forall sound xs /\ ~ calm p (Fin k : @F ER) (map cfin (rev xs)).
Proof.
  pose proof e_pos. pose proof ek_pos. pose proof e_def. pose proof kp1. exists (rev (between_ :: jumped :: repeat quiet p)). split; [rewrite rev_length; cbn [length]; rewrite repeat_length; lia|]. split.
  - apply Forall_rev. repeat (constructor; [unfold sound; cbn; try unfold x; lra|]). apply Forall_forall. intros c Ic. apply repeat_spec in Ic. subst c. unfold sound. cbn. lra.
  - rewrite rev_involutive. change (map cfin (between_ :: jumped :: repeat quiet p)) with (cfin between_ :: map cfin (jumped :: repeat quiet p)). cbn [calm]. intros [G _].
    change (cfin between_ :: map cfin (jumped :: repeat quiet p)) with (map cfin (between_ :: jumped :: repeat quiet p)) in G. rewrite crossed in G. discriminate.
Qed.
End Unsafe.
Theorem super_unsafe_factor p factor k : (1 <= p)%nat -> (Z.of_nat p + 2 <= 2147483648)%Z -> @num ER factor = Fin k -> 0 < k -> k < INR p ->
  exists xs, length xs = (p + 2)%nat /\ Forall sound xs /\ forall r, call (@Supertrend ER (Z.of_nat p) factor) (bars (map cfin xs)) None true <> Ok r.
Proof.
  intros Hp S Hk K0 Kp. destruct (unsafe p k Hp K0 Kp) as (xs & L & W & NC). exists xs. split; [exact L|]. split; [exact W|]. intros r E. apply NC. rewrite <- Hk, map_rev.
  apply (super_total (N := ER) p factor (map cfin xs)); [exact Hp| | |now exists r].
  - destruct xs; [cbn in L; lia|discriminate].
  - unfold short. rewrite rev_length, map_length, L. lia.
Qed.
