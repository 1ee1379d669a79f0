(** * HaltMarket: MACD, RSI, drawdown, true range and Supertrend once the prices stop moving (C78). *)
From Coq Require Import Reals Lra List ZArith Bool Lia.
From Verif Require Import Num Py Tensor Streamable Common Finance Series Formulas Positions ER MovingFacts Linear RealFacts RealStats RealMarket RealMirror RealLinear RealScale RealScale2 NormFacts ReturnFacts
  SignalFacts ImplBasic ImplComp ImplScalar ImplWindow ImplCorr ImplMarket MarketFacts MarketReal StatFacts Accuracy AccuracyMain AccuracyMarket Index AccuracyIndex Order OrderFacts Steady SteadyFacts SteadyMarket
  Super SuperFacts SuperNum Agree AgreeFacts Line LineFacts Halt HaltFacts.
Import ListNotations.
Local Open Scope R_scope.

Lemma halted_at xs n c m : halts xs n c -> (n <= m < length xs)%nat -> upto m xs = repeat c (m - n) ++ upto n xs.
Proof. intros H M. assert (E := halted xs n c H (m - n) ltac:(lia)). replace (n + (m - n))%nat with m in E by lia. exact E. Qed.

(** ** MACD *)
Theorem macd_halt slow fast q xs n c : (1 <= fast)%nat -> (fast <= slow)%nat -> (1 <= q)%nat -> countable xs -> halts xs n c ->
  exists s f macd signal histogram sf s0,
    call (MovingAverageConvergenceDivergence (Z.of_nat slow) (Z.of_nat fast) (Z.of_nat q)) (reals xs) None true =
      Ok (Tup [reals s; reals f; reals macd; reals signal; reals histogram], sf, s0) /\
    length s = length xs /\ length f = length xs /\ length macd = length xs /\
    forall m, (slow <= n + 1)%nat -> (n <= m < length xs)%nat ->
      at_pos macd m = ((INR fast - 1) / (INR fast + 1)) ^ (m - n) * (at_pos f n - c) - ((INR slow - 1) / (INR slow + 1)) ^ (m - n) * (at_pos s n - c).
Proof.
  intros Hf Hs Hq C H. assert (Hs' : (1 <= slow)%nat) by lia.
  destruct (@macd_streams ER [] slow fast q Hs' Hf Hq) as (st & B & _). specialize (B (map (@sing ER) (map Fin xs))).
  exists (run (rema slow) xs), (run (rema fast) xs), (run (rmacd slow fast) xs), (run (rmacd_signal slow fast q) xs), (run (rmacd_histogram slow fast q) xs). do 2 eexists. split.
  { rewrite one_input in B. rewrite B; [|apply map_some, map_some, C|now apply one_ok].
    rewrite (one_series _ (rema slow)), (one_series _ (rema fast)), (one_series _ (rmacd slow fast)), (one_series _ (rmacd_signal slow fast q)), (one_series _ (rmacd_histogram slow fast q)); [reflexivity|..]; intros h.
    - now apply macd_histogram_eq.
    - now apply macd_signal_eq.
    - now apply macd_eq.
    - now apply ema_eq.
    - now apply ema_eq. }
  rewrite !run_length. do 3 (split; [reflexivity|]). intros m L M. rewrite !run_at by lia. unfold rmacd. assert (U := upto_length m xs ltac:(lia)). rewrite U. destruct (Nat.ltb_spec (S m) slow); [lia|].
  rewrite (halted_at xs n c m H M). assert (Un := upto_length n xs ltac:(lia)). assert (A := ema_halt fast c (upto n xs) Hf ltac:(lia) (m - n)). assert (D := ema_halt slow c (upto n xs) Hs' ltac:(lia) (m - n)).
  unfold keep_ema in *. lra.
Qed.

(** ** RSI *)
Lemma changes_halt_list c r i : rchanges (repeat c i ++ c :: r) = repeat 0 i ++ rchanges (c :: r).
Proof.
  induction i as [|i IH]; [reflexivity|]. cbn [repeat app]. rewrite <- IH. destruct i as [|i]; cbn [repeat app rchanges]; f_equal; ring.
Qed.
Lemma move_halt p (w : R -> R) d i : (1 <= p)%nat -> (p <= length d)%nat -> w 0 = 0 -> rrma p (map w (repeat 0 i ++ d)) = keep_rma p ^ i * rrma p (map w d).
Proof.
  intros Hp L W. rewrite map_app. assert (E : map w (repeat 0 i) = repeat 0 i) by (clear -W; induction i as [|i IH]; [reflexivity|cbn [repeat map]; now rewrite IH, W]). rewrite E.
  assert (Q := rma_halt p 0 (map w d) Hp ltac:(now rewrite map_length) i). rewrite !Rminus_0_r in Q. exact Q.
Qed.
Lemma ratio_scale q g l : 0 < q -> 0 <= g -> 0 <= l -> e_div (Fin (q * g)) (Fin (q * l)) = e_div (Fin g) (Fin l).
Proof.
  intros Q G L. unfold e_div, inf_of. destruct (Req_EM_T l 0) as [->|Zl].
  - rewrite Rmult_0_r. destruct (Req_EM_T 0 0); [|lra]. destruct (Rlt_dec 0 g) as [P|P], (Rlt_dec 0 (q * g)) as [P'|P']; try reflexivity.
    + exfalso. apply P'. now apply Rmult_lt_0_compat.
    + exfalso. apply P. assert (g = 0) by lra. subst g. rewrite Rmult_0_r in P'. lra.
    + assert (g = 0) by lra. subst g. rewrite Rmult_0_r. reflexivity.
  - destruct (Req_EM_T (q * l) 0) as [E|E]; [apply Rmult_integral in E; lra|]. f_equal. field. lra.
Qed.
Lemma rsi_halt p c r i : (1 <= p)%nat -> (p <= length r)%nat ->
  @rsi ER p (map Fin (repeat c i ++ c :: r)) = if ((p =? 1)%nat && (1 <=? i)%nat)%bool then NaN else @rsi ER p (map Fin (c :: r)).
Proof.
  intros Hp L. unfold rsi. change (@F ER) with ext. rewrite !map_length, app_length, repeat_length. cbn [length]. destruct (Nat.leb_spec (i + S (length r)) p); [lia|]. destruct (Nat.leb_spec (S (length r)) p); [lia|].
  rewrite !gain_fin, !loss_fin, !rwilder_rrma, changes_halt_list by exact Hp. assert (Lc : length (rchanges (c :: r)) = length r) by (rewrite rchanges_length; cbn [length]; lia).
  set (d := rchanges (c :: r)) in *. rewrite !move_halt by (lia || (unfold up, dn; rewrite ?Ropp_0; apply Rmax_left; lra)).
  assert (G := rrma_up_nonneg p up d Hp up_ge). assert (D := rrma_up_nonneg p dn d Hp dn_ge). set (g := rrma p (map up d)) in *. set (l := rrma p (map dn d)) in *.
  assert (P := INR_pos p Hp). destruct (Nat.eqb_spec p 1) as [E|E].
  - destruct i as [|i]; [cbn [Nat.leb andb pow]; now rewrite !Rmult_1_l|]. cbn [Nat.leb andb]. assert (K : keep_rma p = 0) by (unfold keep_rma; rewrite E; cbn; field). rewrite K. cbn [pow]. rewrite !Rmult_0_l.
    change (@fdiv ER) with e_div. unfold e_div at 2. destruct (Req_EM_T 0 0); [|lra]. unfold inf_of. destruct (Rlt_dec 0 0); [lra|]. reflexivity.
  - cbn [andb]. change (@fdiv ER) with e_div. assert (K : 0 < keep_rma p).
    { unfold keep_rma. assert (2 <= INR p) by (apply (le_INR 2); lia). apply Rdiv_lt_0_compat; lra. }
    rewrite ratio_scale; [reflexivity|now apply pow_lt|exact G|exact D].
Qed.
Theorem strength_halt p xs n c : (1 <= p)%nat -> countable xs -> halts xs n c ->
  exists (index : list ext) sf s0, call (RelativeStrengthIndex (Z.of_nat p)) (reals xs) None true = Ok (@scalars ER index, sf, s0) /\ length index = length xs /\
    forall m, (p <= n)%nat -> (n <= m < length xs)%nat -> nth m index NaN = if ((p =? 1)%nat && (n <? m)%nat)%bool then NaN else nth n index NaN.
Proof.
  intros Hp C H. destruct (@rsi_streams ER p Hp) as (st & B & _). exists (map (@rsi ER p) (hists [] (map Fin xs))). do 2 eexists.
  split; [unfold reals; apply B; [apply map_some, C|now apply countable_short]|]. split; [now rewrite map_length, hists_length, map_length|]. intros m L M.
  assert (NT : forall m, (m < length xs)%nat -> nth m (map (@rsi ER p) (hists [] (map Fin xs))) NaN = @rsi ER p (map Fin (upto m xs))).
  { intros k K. rewrite <- (RealLinear.upto_map Fin). apply nth_map_hists. now rewrite map_length. }
  rewrite !NT by lia. rewrite (halted_at xs n c m H M). assert (Un := upto_length n xs ltac:(lia)). destruct (upto_head n xs ltac:(lia)) as [r E]. change (nth n xs 0) with (at_pos xs n) in E. rewrite (proj2 H) in E by lia.
  rewrite E in *. cbn [length] in Un. rewrite rsi_halt by lia. destruct (Nat.ltb_spec n m), (Nat.leb_spec 1 (m - n)); try lia; reflexivity.
Qed.

(** ** Drawdown *)
Lemma peak_halt c r i : rpeak (repeat c i ++ c :: r) = rpeak (c :: r).
Proof. induction i as [|i IH]; [reflexivity|]. cbn [repeat app]. change (Rmax c (rpeak (repeat c i ++ c :: r)) = rpeak (c :: r)). rewrite IH. cbn [rpeak]. rewrite Rmax_right; [reflexivity|apply Rmax_l]. Qed.
Lemma depth_halt c r i : rdrawdown (repeat c i ++ c :: r) = rdrawdown (c :: r).
Proof.
  destruct i as [|i]; [reflexivity|]. cbn [repeat app]. unfold rdrawdown at 1. rewrite peak_halt. unfold rdrawdown. cbn [rpeak]. assert (P := rpeak_nonneg r). unfold Rmax.
  destruct (Rle_dec c (rpeak r)) as [A|A]; [reflexivity|].
  assert (D : forall y, 0 < y -> y < c -> Rmin 0 (c / y - 1) = 0).
  { intros y Y1 Y2. apply Rmin_left. assert (1 <= c / y) by (apply (Rmult_le_reg_r y); [lra|]; unfold Rdiv; rewrite Rmult_assoc, Rinv_l; lra). lra. }
  assert (S : 1 / 10000 <= c -> Rmin 0 (c / c - 1) = 0) by (intros; apply Rmin_left; replace (c / c) with 1 by (field; lra); lra).
  destruct (Rlt_dec c (1 / 10000)), (Rlt_dec (rpeak r) (1 / 10000)); [reflexivity|lra|apply S; lra|rewrite S, D by lra; reflexivity].
Qed.
Lemma water_halt c r i : @under_water ER (map Fin (repeat c i ++ c :: r)) = (@under_water ER (map Fin (c :: r)) + Z.of_nat i)%Z.
Proof.
  induction i as [|i IH]; [cbn [repeat app]; lia|]. cbn [repeat app]. change (map Fin (c :: repeat c i ++ c :: r)) with (Fin c :: map Fin (repeat c i ++ c :: r)). cbn [under_water]. rewrite IH, tolerance_fin.
  change (Fin c :: map Fin (repeat c i ++ c :: r)) with (map Fin (repeat c (S i) ++ c :: r)). rewrite !peak_fin, !peak_halt. cbn. unfold Rltb. rewrite Rplus_opp_r, Rabs_R0. destruct (Rlt_dec (1 / 10000) 0); lra || lia.
Qed.
Theorem drawdown_halt xs n c : countable xs -> halts xs n c ->
  exists depths sf s0, call Drawdown (reals xs) None true = Ok (drawdown_reals depths, sf, s0) /\ length depths = length xs /\
    forall m, (n <= m < length xs)%nat ->
      fst (nth m depths (0, 0%Z)) = fst (nth n depths (0, 0%Z)) /\ snd (nth m depths (0, 0%Z)) = Z.add (snd (nth n depths (0, 0%Z))) (Z.of_nat (m - n)).
Proof.
  intros C H. destruct (@drawdown_streams ER) as (st & B & _). exists (map (fun h => (rdrawdown h, @under_water ER (map Fin h))) (hists [] xs)). do 2 eexists.
  split. { unfold reals. rewrite B; [|apply map_some, C|unfold below31; rewrite rev_length, map_length; apply C]. unfold drawdown_reals. do 4 f_equal.
    change (@nil (@F ER)) with (map Fin []). change (@F ER) with ext. rewrite hists_map, !map_map. apply map_ext. intros h. cbn [fst snd]. f_equal. apply rdrawdown_fin. }
  split; [now rewrite map_length, hists_length|]. intros m M.
  rewrite !(nth_map_hists (fun h => (rdrawdown h, @under_water ER (map Fin h))) xs) by lia. cbn [fst snd]. rewrite (halted_at xs n c m H M).
  destruct (upto_head n xs ltac:(lia)) as [r E]. change (nth n xs 0) with (at_pos xs n) in E. rewrite (proj2 H) in E by lia. rewrite E, depth_halt, water_halt. split; reflexivity.
Qed.

(** ** True range *)
Definition flat (c : R) (b : rcandle) : Prop := r_high b = c /\ r_low b = c /\ r_close b = c.
Lemma halted_bars xs n c : bars_halt xs n c -> forall i, (n + i < length xs)%nat -> exists g, length g = i /\ Forall (flat c) g /\ upto (n + i) xs = g ++ upto n xs.
Proof.
  intros [_ H]. induction i as [|i IH]; intros L; [exists []; rewrite Nat.add_0_r; repeat constructor|]. rewrite Nat.add_succ_r in *. destruct (IH ltac:(lia)) as (g & G1 & G2 & G3).
  exists (nth (S (n + i)) xs no_rcandle :: g). split; [cbn; now rewrite G1|]. split.
  - constructor; [|exact G2]. apply (H (S (n + i))); [lia|]. apply nth_error_nth'. exact L.
  - rewrite (upto_S (n + i) xs no_rcandle) by exact L. now rewrite G3.
Qed.
Lemma halted_head xs n c : bars_halt xs n c -> exists b r, upto n xs = b :: r /\ flat c b.
Proof.
  intros [L H]. exists (nth n xs no_rcandle). assert (F : flat c (nth n xs no_rcandle)) by (apply (H n); [lia|]; now apply nth_error_nth').
  destruct n as [|n]; [exists []; split; [now apply upto_0|exact F]|exists (upto n xs); split; [now apply upto_S|exact F]].
Qed.
Lemma flat_range c b : flat c b -> rrange c b = 0.
Proof. intros (H1 & H2 & _). unfold rrange. rewrite H1, H2, Rminus_eq_0, Rabs_R0. destruct (Req_EM_T c 0); unfold Rmax; repeat (destruct (Rle_dec _ _); try lra). Qed.
Lemma ranges_halt c g b r : Forall (flat c) g -> flat c b -> rranges (g ++ b :: r) = repeat 0 (length g) ++ rranges (b :: r).
Proof.
  induction 1 as [|x g Fx G IH]; intros Fb; [reflexivity|]. cbn [app length repeat]. change (rranges (x :: g ++ b :: r)) with (rrange (rlast_close (g ++ b :: r)) x :: rranges (g ++ b :: r)). rewrite IH by exact Fb. f_equal.
  assert (E : rlast_close (g ++ b :: r) = c) by (destruct G as [|y g Fy G]; [apply Fb|apply Fy]). rewrite E. now apply flat_range.
Qed.
Lemma rranges_length h : length (rranges h) = length h.
Proof. induction h as [|x h IH]; cbn; [reflexivity|now rewrite IH]. Qed.
Lemma atr_halt p c g b r : (1 <= p)%nat -> (p <= S (length r))%nat -> Forall (flat c) g -> flat c b -> rrma p (rranges (g ++ b :: r)) = keep_rma p ^ length g * rrma p (rranges (b :: r)).
Proof.
  intros Hp L G Fb. rewrite (ranges_halt c) by assumption. assert (Q := rma_halt p 0 (rranges (b :: r)) Hp ltac:(rewrite rranges_length; exact L) (length g)). rewrite !Rminus_0_r in Q. exact Q.
Qed.
Lemma atr_outputs p xs : (1 <= p)%nat -> xs <> [] -> (Z.of_nat (length xs) < 2147483648)%Z ->
  exists sf s0, call (AverageTrueRange (Z.of_nat p)) (bars_of xs) None true = Ok (reals (map (fun h => rrma p (rranges h)) (hists [] xs)), sf, s0).
Proof.
  intros Hp NE Hl. destruct (@atr_streams ER p Hp) as (st & H & _). do 2 eexists.
  unfold bars_of, reals. rewrite H; [|now apply map_some|unfold short; rewrite rev_length, map_length; lia]. do 4 f_equal. change (@nil (@candle ER)) with (map cfin []). rewrite hists_map, !map_map.
  apply map_ext. intros h. unfold atr. rewrite ranges_fin. now apply rma_eq.
Qed.
Theorem ranges_settle p xs n c : (1 <= p)%nat -> xs <> [] -> (Z.of_nat (length xs) < 2147483648)%Z -> bars_halt xs n c ->
  exists atr sf s0, call (AverageTrueRange (Z.of_nat p)) (bars_of xs) None true = Ok (reals atr, sf, s0) /\ length atr = length xs /\
    forall m, (p <= n + 1)%nat -> (n <= m < length xs)%nat -> at_pos atr m = ((INR p - 1) / INR p) ^ (m - n) * at_pos atr n.
Proof.
  intros Hp NE Hl H. destruct (atr_outputs p xs Hp NE Hl) as (sf & s0 & E). do 3 eexists. split; [exact E|]. split; [now rewrite map_length, hists_length|]. intros m L M. unfold at_pos. rewrite !nth_map_hists by lia.
  destruct (halted_bars xs n c H (m - n) ltac:(lia)) as (g & G1 & G2 & G3). replace (n + (m - n))%nat with m in G3 by lia. destruct (halted_head xs n c H) as (b & r & B1 & B2). assert (Un := upto_length n xs ltac:(lia)).
  rewrite G3, B1 in *. cbn [length] in Un. rewrite (atr_halt p c) by (assumption || lia). now rewrite G1.
Qed.

(** ** Supertrend *)
Lemma next_fin k a b prev d u t l : exists d' u' t', @next_trend ER (Fin k) (Fin a) (cfin b) (Fin prev) (Trend (Fin d) (Fin u) t l) = Trend (Fin d') (Fin u') t' (Fin (if Z.eqb t' 1 then u' else d')) /\
  u' = (let lower := (r_high b + r_low b) / 2 - k * a in if Rlt_dec u prev then Rmax lower u else lower) /\
  d' = (let upper := (r_high b + r_low b) / 2 + k * a in if Rlt_dec prev d then Rmin upper d else upper) /\
  t' = (if Rlt_dec d (r_close b) then 1 else if Rlt_dec (r_close b) u then -1 else if Z.eqb t 0 then 1 else t)%Z.
Proof.
  do 3 eexists. split; [|split; [reflexivity|split; reflexivity]].
  assert (U := next_up k a b prev (Fin d) u t l). assert (D := next_down k a b prev d (Fin u) t l).
  unfold next_trend in *. cbn [t_up t_down t_dir c_close cfin] in *. rewrite U, D. rewrite !flt_fin. unfold Rltb. destruct (Rlt_dec d (r_close b)), (Rlt_dec (r_close b) u), (Z.eqb t 0); try reflexivity; destruct (Z.eqb t 1); reflexivity.
Qed.
Lemma lines_fin p k h : (1 <= p)%nat -> exists d u t, @supertrend ER p (Fin k) (map cfin h) = Trend (Fin d) (Fin u) t (Fin (if Z.eqb t 1 then u else d)).
Proof.
  intros Hp. induction h as [|b h (d & u & t & IH)]; [exists 0, 0, 0%Z; reflexivity|].
  change (map cfin (b :: h)) with (cfin b :: map cfin h). cbn [supertrend]. change (cfin b :: map cfin h) with (map cfin (b :: h)). rewrite atr_fin by exact Hp. destruct (feq _ f0); [exists 0, 0, 0%Z; reflexivity|].
  rewrite IH, last_close_fin. destruct (next_fin k (rrma p (rranges (b :: h))) b (rlast_close h) d u t (Fin (if Z.eqb t 1 then u else d))) as (d' & u' & t' & E & _). rewrite E. now exists d', u', t'.
Qed.
(** One flat bar: the line of the trend ends up between the price and the price less (or plus) [k] ranges; the trend stays if the line was not beyond the price. *)
Definition beside (c reach : R) (t : Z) (d u : R) : Prop := (t = 1%Z /\ c - reach <= u <= c) \/ (t = (-1)%Z /\ c <= d <= c + reach).
Lemma flat_step k a c b prev d u t l : 0 <= k * a -> flat c b -> t = 1%Z \/ t = (-1)%Z \/ t = 0%Z -> ~ (d < c /\ c < u) ->
  exists d' u' t', @next_trend ER (Fin k) (Fin a) (cfin b) (Fin prev) (Trend (Fin d) (Fin u) t l) = Trend (Fin d') (Fin u') t' (Fin (if Z.eqb t' 1 then u' else d')) /\
    beside c (k * a) t' d' u' /\ (t = 1%Z -> u <= c -> t' = 1%Z) /\ (t = (-1)%Z -> c <= d -> t' = (-1)%Z).
Proof.
  intros Ka (H1 & H2 & H3) Ht NC. destruct (next_fin k a b prev d u t l) as (d' & u' & t' & E & Eu & Ed & Et). exists d', u', t'. split; [exact E|]. clear E. rewrite H1, H2 in *. rewrite H3 in Et. cbv zeta in *.
  replace ((c + c) / 2) with c in * by lra.
  assert (Bu : u <= c -> c - k * a <= u' <= c). { intros Q. rewrite Eu. destruct (Rlt_dec u prev); [|lra]. unfold Rmax. destruct (Rle_dec (c - k * a) u); lra. }
  assert (Bd : c <= d -> c <= d' <= c + k * a). { intros Q. rewrite Ed. destruct (Rlt_dec prev d); [|lra]. unfold Rmin. destruct (Rle_dec (c + k * a) d); lra. }
  split; [|split].
  - unfold beside. rewrite Et. destruct (Rlt_dec d c); [left; split; [reflexivity|apply Bu; apply Rnot_lt_le; intros Q; now apply NC]|]. destruct (Rlt_dec c u); [right; split; [reflexivity|apply Bd; lra]|].
    destruct Ht as [Q|[Q|Q]]; rewrite Q; cbn [Z.eqb]; [left; split; [reflexivity|apply Bu; lra]|right; split; [reflexivity|apply Bd; lra]|left; split; [reflexivity|apply Bu; lra]].
  - intros T Q. rewrite Et, T. destruct (Rlt_dec d c); [reflexivity|]. destruct (Rlt_dec c u); [lra|reflexivity].
  - intros T Q. rewrite Et, T. destruct (Rlt_dec d c); [lra|]. destruct (Rlt_dec c u); reflexivity.
Qed.
Lemma dir_known p k h : (1 <= p)%nat -> let t := t_dir (@supertrend ER p (Fin k) (map cfin h)) in t = 1%Z \/ t = (-1)%Z \/ t = 0%Z.
Proof.
  intros Hp. induction h as [|b h IH]; [now right; right|]. change (map cfin (b :: h)) with (cfin b :: map cfin h). cbn [supertrend]. destruct (feq _ f0); [now right; right|].
  cbv zeta in *. unfold next_trend. cbn [t_dir]. destruct (flt _ _); [now left|]. destruct (flt _ _); [now right; left|]. destruct (Z.eqb_spec (t_dir (@supertrend ER p (Fin k) (map cfin h))) 0); tauto.
Qed.
Lemma calm_step p k b h : (1 <= p)%nat -> @conflict ER p (Fin k) (map cfin (b :: h)) = false -> rrma p (rranges (b :: h)) <> 0 ->
  forall d u t l, @supertrend ER p (Fin k) (map cfin h) = Trend (Fin d) (Fin u) t l -> ~ (d < r_close b /\ r_close b < u).
Proof.
  intros Hp C A d u t l E [Q1 Q2]. change (map cfin (b :: h)) with (cfin b :: map cfin h) in C. cbn [conflict] in C. change (cfin b :: map cfin h) with (map cfin (b :: h)) in C. rewrite atr_fin, feq_fin, E in C by assumption.
  cbn [t_down t_up c_close cfin negb andb] in C. rewrite !flt_fin in C. rewrite (proj2 (Rltb_true d (r_close b)) Q1), (proj2 (Rltb_true (r_close b) u) Q2) in C. discriminate C.
Qed.
Lemma trend_halt p k c b r : (2 <= p)%nat -> 0 <= k -> (p <= S (length r))%nat -> flat c b -> rrma p (rranges (b :: r)) <> 0 -> forall g, Forall (flat c) g -> @calm ER p (Fin k) (map cfin (g ++ b :: r)) ->
  exists d u t, @supertrend ER p (Fin k) (map cfin (g ++ b :: r)) = Trend (Fin d) (Fin u) t (Fin (if Z.eqb t 1 then u else d)) /\
    beside c (k * rrma p (rranges (g ++ b :: r))) t d u /\ t = t_dir (@supertrend ER p (Fin k) (map cfin (b :: r))).
Proof.
  intros Hp K L Fb A. assert (Hp1 : (1 <= p)%nat) by lia.
  assert (A0 : forall g, Forall (flat c) g -> 0 < rrma p (rranges (g ++ b :: r))).
  { intros g G. rewrite (atr_halt p c) by assumption. apply Rmult_lt_0_compat.
    - apply pow_lt. unfold keep_rma. assert (2 <= INR p) by (apply (le_INR 2); lia). apply Rdiv_lt_0_compat; lra.
    - assert (N0 := rrma_nonneg p (rranges (b :: r)) Hp1 (rranges_nonneg _)). lra. }
  assert (ST : forall x h, flat c x -> 0 < rrma p (rranges (x :: h)) -> @calm ER p (Fin k) (map cfin (x :: h)) ->
    exists d u t d' u' t', @supertrend ER p (Fin k) (map cfin h) = Trend (Fin d) (Fin u) t (Fin (if Z.eqb t 1 then u else d)) /\
      @supertrend ER p (Fin k) (map cfin (x :: h)) = Trend (Fin d') (Fin u') t' (Fin (if Z.eqb t' 1 then u' else d')) /\
      beside c (k * rrma p (rranges (x :: h))) t' d' u' /\ (t = 1%Z -> u <= c -> t' = 1%Z) /\ (t = (-1)%Z -> c <= d -> t' = (-1)%Z)).
  { intros x h Fx P [C1 _]. destruct (lines_fin p k h Hp1) as (d & u & t & E). assert (T := dir_known p k h Hp1). cbv zeta in T. rewrite E in T. cbn [t_dir] in T.
    assert (NC := calm_step p k x h Hp1 C1 ltac:(lra) d u t _ E). assert (Ec := proj2 (proj2 Fx)). rewrite Ec in NC.
    destruct (flat_step k (rrma p (rranges (x :: h))) c x (rlast_close h) d u t (Fin (if Z.eqb t 1 then u else d)) ltac:(apply Rmult_le_pos; lra) Fx T NC) as (d' & u' & t' & E' & B & T1 & T2).
    exists d, u, t, d', u', t'. split; [exact E|]. split; [|now split].
    change (map cfin (x :: h)) with (cfin x :: map cfin h). cbn [supertrend]. change (cfin x :: map cfin h) with (map cfin (x :: h)). rewrite atr_fin, feq_fin, E, last_close_fin by (assumption || lra). exact E'. }
  induction g as [|x g IH]; intros G C.
  - destruct (ST b r Fb (A0 [] (Forall_nil _)) C) as (d & u & t & d' & u' & t' & E & E' & B & _). cbn [app]. exists d', u', t'. rewrite E'. split; [reflexivity|]. now split.
  - inversion G as [|? ? Fx G']; subst. cbn [app] in *. destruct (IH G' (proj2 C)) as (d0 & u0 & t0 & E0 & B0 & D0). destruct (ST x (g ++ b :: r) Fx (A0 (x :: g) G) C) as (d & u & t & d' & u' & t' & E & E' & B & T1 & T2).
    rewrite E0 in E. injection E as <- <- <- _. exists d', u', t'. split; [exact E'|]. split; [exact B|]. destruct B0 as [[T0 Q]|[T0 Q]]; [rewrite T1|rewrite T2]; try tauto; now rewrite <- T0.
Qed.
Theorem supertrend_halt p factor k xs n c res : (2 <= p)%nat -> @Series.num ER factor = Fin k -> 0 <= k -> xs <> [] -> (Z.of_nat (length xs) < 2147483648)%Z -> bars_halt xs n c ->
  call (@Supertrend ER (Z.of_nat p) factor) (bars_of xs) None true = Ok res ->
  exists line atr sf s0 sf' s0', res = (reals line, sf, s0) /\ length line = length xs /\
    call (AverageTrueRange (Z.of_nat p)) (bars_of xs) None true = Ok (reals atr, sf', s0') /\ length atr = length xs /\
    (at_pos atr n <> 0 -> exists d, (d = 1%Z \/ d = (-1)%Z) /\ forall m, (n <= m < length xs)%nat ->
      direction_after p factor (map cfin xs) m d /\
      (d = 1%Z -> c - k * at_pos atr m <= at_pos line m <= c) /\ (d = (-1)%Z -> c <= at_pos line m <= c + k * at_pos atr m)).
Proof.
  intros Hp Hk K NE Hl H E. assert (Hp1 : (1 <= p)%nat) by lia. assert (NE' : map cfin xs <> []) by now apply map_some. assert (Sh : short (rev (map cfin xs))) by (unfold short; rewrite rev_length, map_length; lia).
  destruct (super_known (N := ER) p factor (map cfin xs) Hp1 NE' Sh res E) as (out & a & sf & s0 & sf' & s0' & -> & Ea & Lo & La & CL & V & D). rewrite map_length in *.
  destruct (atr_outputs p xs Hp1 NE Hl) as (sf2 & s2 & Ea2).
  assert (NL : forall m, t_line (@supertrend ER p (num factor) (upto m (map cfin xs))) = Fin (real_of (t_line (@supertrend ER p (num factor) (upto m (map cfin xs)))))).
  { intros m. rewrite Hk, <- StatFacts.upto_map. destruct (lines_fin p k (upto m xs) Hp1) as (d & u & t & Q). rewrite Q. reflexivity. }
  exists (map real_of out), (map (fun h => rrma p (rranges h)) (hists [] xs)), sf, s0, sf2, s2.
  assert (R : out = map Fin (map real_of out)).
  { apply (nth_ext _ _ (Fin 0) (Fin 0)); [now rewrite !map_length|]. intros m Hm0. assert (Hm : (m < length xs)%nat) by (rewrite <- Lo; exact Hm0). rewrite map_map.
    assert (Q : nth m (map (fun e => Fin (real_of e)) out) (Fin 0) = Fin (real_of (nth m out (Fin 0)))) by exact (map_nth (fun e => Fin (real_of e)) out (Fin 0) m). rewrite Q.
    destruct (V m Hm) as [Vm _]. change (@f0 ER) with (Fin 0) in Vm. exact (eq_ind_r (fun e => e = Fin (real_of e)) (NL m) Vm). }
  split; [unfold reals; now rewrite <- R|]. split; [now rewrite map_length|]. split; [exact Ea2|]. split; [now rewrite map_length, hists_length|].
  intros A. assert (Ln := proj1 H). unfold at_pos in A. rewrite nth_map_hists in A by exact Ln. destruct (halted_head xs n c H) as (b & r & B1 & B2). assert (Un := upto_length n xs Ln). rewrite B1 in *. cbn [length] in Un.
  assert (Lp : (p <= S (length r))%nat).
  { destruct (le_lt_dec p (S (length r))) as [Q|Q]; [exact Q|]. exfalso. apply A. assert (Lr := rranges_length (b :: r)). cbn [length] in Lr. assert (Z : forall h, (length h < p)%nat -> rrma p h = 0).
    { intros [|y h] Hh; [reflexivity|]. cbn [rrma]. destruct (Nat.leb_spec (length (y :: h)) p); [|lia]. unfold rsma. destruct (Nat.ltb_spec (length (y :: h)) p); [reflexivity|lia]. }
    apply Z. lia. }
  assert (TH := trend_halt p k c b r Hp K Lp B2 A).
  assert (T0 : exists d, t_dir (@supertrend ER p (Fin k) (map cfin (b :: r))) = d) by now eexists. destruct T0 as [d0 T0]. exists d0.
  assert (W : forall m, (n <= m < length xs)%nat -> exists d u t, @supertrend ER p (Fin k) (map cfin (upto m xs)) = Trend (Fin d) (Fin u) t (Fin (if Z.eqb t 1 then u else d)) /\
    beside c (k * rrma p (rranges (upto m xs))) t d u /\ t = d0).
  { intros m M. destruct (halted_bars xs n c H (m - n) ltac:(lia)) as (g & G1 & G2 & G3). replace (n + (m - n))%nat with m in G3 by lia.
    assert (Cm := calm_upto (N := ER) p factor (map cfin xs) Hp1 m CL ltac:(rewrite map_length; lia)). rewrite <- StatFacts.upto_map, Hk in Cm. rewrite G3, B1 in *. rewrite <- T0. now apply TH. }
  split. { destruct (W n ltac:(lia)) as (? & ? & t & _ & B & <-). destruct B as [[Q _]|[Q _]]; rewrite Q; tauto. }
  intros m M. destruct (W m M) as (d & u & t & E1 & B & <-). assert (Vm := V m ltac:(lia)). destruct Vm as [Vm _]. rewrite Hk, <- StatFacts.upto_map, E1 in Vm. cbn [t_line] in Vm.
  split. { apply D; [lia|]. rewrite Hk, <- StatFacts.upto_map, E1. reflexivity. }
  unfold at_pos. rewrite nth_map_hists by lia. change (@f0 ER) with (Fin 0) in Vm.
  assert (Q0 : nth m (map real_of out) 0 = real_of (nth m out (Fin 0))) by exact (map_nth real_of out (Fin 0) m). assert (Q1 : nth m (map real_of out) 0 = if Z.eqb t 1 then u else d) by (rewrite Q0; exact (f_equal real_of Vm)). rewrite Q1.
  destruct B as [[T1 Q]|[T1 Q]]; rewrite T1; split; intros; try discriminate; exact Q.
Qed.
