(** * LineFacts: the readings on straight lines and on geometric series (C74). *)
From Coq Require Import Reals Lra List ZArith Bool Lia.
From Verif Require Import Num Py Tensor Streamable Common Finance Series Formulas Positions ER MovingFacts Linear RealFacts RealStats RealMarket RealLinear RealScale RealScale2 NormFacts
  SignalFacts ImplBasic ImplComp ImplScalar ImplWindow ImplCorr ImplMarket MarketReal StatFacts Accuracy AccuracyMain AccuracyMarket Index AccuracyIndex Order OrderFacts Steady SteadyFacts SteadyMarket Agree AgreeFacts Line.
Import ListNotations.
Local Open Scope R_scope.

(** ** Lines, latest number first *)
Fixpoint back (a b : R) (n : nat) : list R :=
  match n with 0%nat => [a] | S m => (a + b * INR n) :: back a b m end.
Lemma back_eq a b n : back a b n = map (fun i => a + b * (INR n - INR i)) (seq 0 (S n)).
Proof.
  induction n as [|n IH]; [cbn; f_equal; ring|]. change (seq 0 (S (S n))) with (0%nat :: seq 1 (S n)). rewrite <- seq_shift. cbn [back map]. rewrite map_map.
  f_equal; [rewrite S_INR; change (INR 0) with 0; ring|]. rewrite IH. apply map_ext. intros i. rewrite !S_INR. f_equal. f_equal. ring.
Qed.
Lemma line_length a b len : length (line a b len) = len.
Proof. unfold line. now rewrite map_length, seq_length. Qed.
Lemma line_countable a b len : countably len -> countable (line a b len).
Proof. intros [H1 H2]. split; [|now rewrite line_length]. intros E. apply (f_equal (@length R)) in E. rewrite line_length in E. cbn in E. lia. Qed.
Lemma line_nth a b len n : (n < len)%nat -> nth n (line a b len) 0 = a + b * INR n.
Proof.
  intros H. unfold line. rewrite (nth_indep _ 0 (a + b * INR 0)) by now rewrite map_length, seq_length.
  rewrite (map_nth (fun i => a + b * INR i)), seq_nth by exact H. reflexivity.
Qed.
Lemma line_upto a b len n : (n < len)%nat -> upto n (line a b len) = back a b n.
Proof.
  induction n as [|n IH]; intros H.
  - rewrite (SignalFacts.upto_0 _ 0) by (rewrite line_length; lia). rewrite line_nth by lia. cbn. f_equal. ring.
  - rewrite (SignalFacts.upto_S n _ 0) by (rewrite line_length; lia). rewrite line_nth, IH by lia. reflexivity.
Qed.
Lemma back_length a b n : length (back a b n) = S n.
Proof. induction n as [|n IH]; [reflexivity|]. cbn [back length]. now rewrite IH. Qed.
Lemma firstn_seq k m : forall i, firstn k (seq i m) = seq i (Nat.min k m).
Proof. revert m. induction k as [|k IH]; intros [|m] i; try reflexivity. cbn [firstn seq Nat.min]. now rewrite IH. Qed.
Lemma back_window a b n p : (p <= S n)%nat -> firstn p (back a b n) = map (fun i => (a + b * INR n) + (- b) * INR i) (seq 0 p).
Proof. intros H. rewrite back_eq, firstn_map, firstn_seq, Nat.min_l by exact H. apply map_ext. intros i. ring. Qed.

(** ** Sums of the first naturals and of their squares and cubes *)
Lemma rsum_seq_S (f : nat -> R) p : rsum (map f (seq 0 (S p))) = rsum (map f (seq 0 p)) + f p.
Proof. rewrite seq_S, map_app, rsum_app. cbn [map]. rewrite rsum_cons. cbn. ring. Qed.
Lemma sum_1 p : rsum (map INR (seq 0 p)) = INR p * (INR p - 1) / 2.
Proof. induction p as [|p IH]; [cbn; field|]. rewrite rsum_seq_S, IH, S_INR. field. Qed.
Lemma sum_2 p : rsum (map (fun i => INR i * INR i) (seq 0 p)) = INR p * (INR p - 1) * (2 * INR p - 1) / 6.
Proof. induction p as [|p IH]; [cbn; field|]. rewrite rsum_seq_S, IH, S_INR. field. Qed.
Lemma sum_3 p : rsum (map (fun i => INR i ^ 3) (seq 0 p)) = INR p * INR p * (INR p - 1) * (INR p - 1) / 4.
Proof. induction p as [|p IH]; [cbn; field|]. rewrite rsum_seq_S, IH, S_INR. field. Qed.
Section Window.
Variable p : nat.
Hypothesis Hp : (1 <= p)%nat.
Let P0 : INR p <> 0. Proof. assert (0 < INR p) by (apply INR_pos; lia). lra. Qed.
Lemma mean_of (f : nat -> R) : rmean (map f (seq 0 p)) = rsum (map f (seq 0 p)) / INR p.
Proof. unfold rmean. now rewrite map_length, seq_length. Qed.
Lemma line_mean y c : rmean (map (fun i => y + c * INR i) (seq 0 p)) = y + c * ((INR p - 1) / 2).
Proof. rewrite mean_of, (rsum_plus (fun _ => y)), rsum_scale, rsum_const, seq_length, sum_1. field. exact P0. Qed.
Lemma line_cov y c z d : rcov (map (fun i => y + c * INR i) (seq 0 p)) (map (fun i => z + d * INR i) (seq 0 p)) = c * d * ((INR p * INR p - 1) / 12).
Proof.
  unfold rcov. rewrite !line_mean. rewrite combine_map_both, combine_same, !map_map. cbn [fst snd].
  rewrite (map_ext _ (fun i => (c * d) * (INR i * INR i) + ((- (c * d * (INR p - 1))) * INR i + c * d * ((INR p - 1) / 2 * ((INR p - 1) / 2))))) by (intros i; field).
  rewrite mean_of, (rsum_plus (fun i => (c * d) * (INR i * INR i))), (rsum_plus (fun i => (- (c * d * (INR p - 1))) * INR i)), rsum_const, seq_length.
  rewrite !rsum_scale, sum_1, sum_2. field. exact P0.
Qed.
Lemma line_var y c : rvar (map (fun i => y + c * INR i) (seq 0 p)) = c * c * ((INR p * INR p - 1) / 12).
Proof.
  rewrite <- (line_cov y c y c). rewrite rcov_dot, rvar_dot by reflexivity. reflexivity.
Qed.
Lemma line_third y c : third_moment (map (fun i => y + c * INR i) (seq 0 p)) = 0.
Proof.
  unfold third_moment. rewrite line_mean, map_map. set (m := (INR p - 1) / 2).
  rewrite (map_ext _ (fun i => c ^ 3 * INR i ^ 3 + ((- (3 * c ^ 3 * m)) * (INR i * INR i) + ((3 * c ^ 3 * m * m) * INR i + - (c ^ 3 * (m * m * m)))))) by (intros i; ring).
  rewrite mean_of, (rsum_plus (fun i => c ^ 3 * INR i ^ 3)), (rsum_plus (fun i => (- (3 * c ^ 3 * m)) * (INR i * INR i))), (rsum_plus (fun i => (3 * c ^ 3 * m * m) * INR i)), rsum_const, seq_length.
  rewrite !rsum_scale, sum_1, sum_2, sum_3. unfold m. field. exact P0.
Qed.
Lemma spread_nonneg : 0 <= (INR p * INR p - 1) / 12.
Proof. assert (1 <= INR p) by (apply (le_INR 1); lia). nra. Qed.
Lemma line_dev y c : sqrt (rvar (map (fun i => y + c * INR i) (seq 0 p))) = Rabs c * sqrt ((INR p * INR p - 1) / 12).
Proof. rewrite line_var, sqrt_mult_alt by nra. f_equal. replace (c * c) with (Rsqr c) by reflexivity. apply sqrt_Rsqr_abs. Qed.

(** ** The readings *)
Variables (a b : R) (n : nat).
Lemma sma_line : (p <= S n)%nat -> rsma p (back a b n) = a + b * (INR n - (INR p - 1) / 2).
Proof. intros H. unfold rsma. rewrite back_length. destruct (Nat.ltb_spec (S n) p); [lia|]. rewrite back_window, line_mean by exact H. ring. Qed.
Lemma msd_line : (p <= S n)%nat -> rmsd p (back a b n) = Rabs b * sqrt ((INR p * INR p - 1) / 12).
Proof. intros H. unfold rmsd. rewrite back_length. destruct (Nat.ltb_spec (S n) p); [lia|]. rewrite back_window, line_dev, Rabs_Ropp by exact H. reflexivity. Qed.
End Window.
Lemma ema_line p a b : (1 <= p)%nat -> forall n, (p <= S n)%nat -> rema p (back a b n) = a + b * (INR n - (INR p - 1) / 2).
Proof.
  intros Hp. assert (P0 : 0 < INR p) by (apply INR_pos; lia). induction n as [|n IH]; intros H.
  - assert (p = 1%nat) by lia. subst p. change (rsma 1 (back a b 0) = a + b * (INR 0 - (INR 1 - 1) / 2)). now apply sma_line.
  - cbn [back rema]. change (length (a + b * INR (S n) :: back a b n)) with (S (length (back a b n))). rewrite back_length. destruct (Nat.leb_spec (S (S n)) p).
    + rewrite <- (sma_line p Hp a b (S n)) by lia. reflexivity.
    + rewrite IH by lia. rewrite S_INR. field. lra.
Qed.
Lemma rma_line p a b : (1 <= p)%nat -> forall n, (p <= S n)%nat ->
  rrma p (back a b n) = a + b * (INR n - (INR p - 1) * (1 - ((INR p - 1) / INR p) ^ (S n - p) / 2)).
Proof.
  intros Hp. assert (P0 : 0 < INR p) by (apply INR_pos; lia). induction n as [|n IH]; intros H.
  - assert (p = 1%nat) by lia. subst p. change (rsma 1 (back a b 0) = a + b * (INR 0 - (INR 1 - 1) * (1 - 1 / 2))). rewrite sma_line by lia. cbn. field.
  - cbn [back rrma]. change (length (a + b * INR (S n) :: back a b n)) with (S (length (back a b n))). rewrite back_length. destruct (Nat.leb_spec (S (S n)) p).
    + change (a + b * INR (S n) :: back a b n) with (back a b (S n)). rewrite (sma_line p Hp a b (S n)) by lia. replace (S (S n) - p)%nat with 0%nat by lia. cbn [pow]. f_equal. f_equal. field.
    + rewrite IH by lia. replace (S (S n) - p)%nat with (S (S n - p)) by lia. cbn [pow]. rewrite S_INR. set (q := ((INR p - 1) / INR p) ^ (S n - p)). field. lra.
Qed.
Lemma back_head a b n : nth 0 (back a b n) 0 = a + b * INR n.
Proof. destruct n; cbn; ring. Qed.
Lemma back_nth a b n i : (i <= n)%nat -> nth i (back a b n) 0 = a + b * (INR n - INR i).
Proof.
  intros H. rewrite back_eq, (nth_indep _ 0 (a + b * (INR n - INR 0))) by (rewrite map_length, seq_length; lia).
  rewrite (map_nth (fun i => a + b * (INR n - INR i))), seq_nth by lia. reflexivity.
Qed.
Lemma momentum_line p a b n : (p <= n)%nat -> rmomentum p (back a b n) = INR p * b.
Proof. intros H. unfold rmomentum. rewrite back_length. destruct (Nat.leb_spec (S n) p); [lia|]. rewrite !back_nth by lia. cbn. ring. Qed.
(** The averages of a constant list. *)
Lemma rema_const p h d : (1 <= p <= length h)%nat -> (forall x, In x h -> x = d) -> rema p h = d.
Proof.
  intros H C. assert (B : Forall (between d d) h) by (apply Forall_forall; intros x Hx; rewrite (C x Hx); unfold between; lra).
  destruct (rema_between p h d d H B). lra.
Qed.
Lemma rrma_const p h d : (1 <= p <= length h)%nat -> (forall x, In x h -> x = d) -> rrma p h = d.
Proof.
  intros H C. assert (B : Forall (between d d) h) by (apply Forall_forall; intros x Hx; rewrite (C x Hx); unfold between; lra).
  destruct (rrma_between p h d d H B). lra.
Qed.
(** MACD. *)
Lemma macd_line slow fast a b n : (1 <= fast)%nat -> (fast <= slow)%nat -> (slow <= S n)%nat -> rmacd slow fast (back a b n) = b * ((INR slow - INR fast) / 2).
Proof.
  intros H1 H2 H3. unfold rmacd. rewrite back_length. destruct (Nat.ltb_spec (S n) slow); [lia|]. rewrite !ema_line by lia. field.
Qed.
Lemma macd_trail slow fast a b d : (1 <= slow)%nat -> (forall n, (slow <= S n)%nat -> rmacd slow fast (back a b n) = d) ->
  forall n, (slow <= S n)%nat -> forall x, In x (firstn (S n + 1 - slow) (trail (rmacd slow fast) (back a b n))) -> x = d.
Proof.
  intros H1 E. induction n as [|n IH]; intros H2 x Hx.
  - replace (1 + 1 - slow)%nat with 1%nat in Hx by lia. cbn [back trail firstn] in Hx. destruct Hx as [<-|[]]. exact (E 0%nat H2).
  - replace (S (S n) + 1 - slow)%nat with (S (S n + 1 - slow)) in Hx by lia. cbn [back trail] in Hx. rewrite firstn_cons in Hx. destruct Hx as [<-|Hx]; [exact (E (S n) H2)|].
    destruct (le_lt_dec slow (S n)) as [L|L]; [now apply IH|]. replace (S n + 1 - slow)%nat with 0%nat in Hx by lia. destruct Hx.
Qed.
Lemma signal_line slow fast m a b n : (1 <= fast)%nat -> (fast <= slow)%nat -> (1 <= m)%nat -> (slow + m <= S n + 1)%nat ->
  rmacd_signal slow fast m (back a b n) = b * ((INR slow - INR fast) / 2).
Proof.
  intros H1 H2 H3 H4. unfold rmacd_signal. rewrite back_length. destruct (Nat.ltb_spec (S n) slow); [lia|].
  apply rema_const; [rewrite firstn_length, trail_length, back_length; lia|]. apply macd_trail; [lia| |lia]. intros k Hk. now apply macd_line.
Qed.
(** RSI. *)
Lemma changes_line a b n : rchanges (back a b n) = repeat b n.
Proof.
  induction n as [|n IH]; [reflexivity|]. cbn [repeat]. rewrite <- IH. destruct n; cbn [back rchanges]; f_equal; rewrite ?S_INR; cbn; ring.
Qed.
Lemma rrma_repeat p (w : R -> R) b n : (1 <= p <= n)%nat -> rrma p (map w (repeat b n)) = w b.
Proof.
  intros H. apply rrma_const; [now rewrite map_length, repeat_length|]. intros x Hx. apply in_map_iff in Hx as (y & <- & Hy). apply repeat_spec in Hy. now subst y.
Qed.
Lemma rsi_line p a b n : (1 <= p <= n)%nat -> @rsi ER p (map Fin (back a b n)) = if Rlt_dec 0 b then Fin 100 else if Rlt_dec b 0 then Fin 0 else NaN.
Proof.
  intros H. destruct (Req_dec b 0) as [->|B].
  - destruct (Rlt_dec 0 0); [lra|]. apply (rsi_constant p a); [rewrite back_length; lia|]. intros x Hx. rewrite back_eq in Hx. apply in_map_iff in Hx as (i & <- & _). ring.
  - rewrite rsi_exact; [|lia|rewrite back_length; lia|unfold average_move; rewrite changes_line, rrma_repeat by lia; now apply Rabs_pos_lt].
    rewrite changes_line, !rrma_repeat by lia. unfold up, dn, Rmax. destruct (Rlt_dec 0 b), (Rlt_dec b 0), (Rle_dec 0 b), (Rle_dec 0 (- b)); try lra; f_equal; field; lra.
Qed.
(** Skewness. *)
Lemma skew_line p a b n : (1 <= p)%nat -> @skewness ER p (map Fin (back a b n)) = Fin 0.
Proof.
  intros Hp. unfold skewness. change (@F ER) with ext. rewrite firstn_map. set (k := Nat.min p (S n)).
  assert (W : firstn p (back a b n) = map (fun i => (a + b * INR n) + (- b) * INR i) (seq 0 k)).
  { rewrite <- (back_window a b n k) by lia. destruct (le_lt_dec p (S n)); unfold k; [now rewrite Nat.min_l|]. rewrite Nat.min_r by lia. rewrite !firstn_all2 by (rewrite back_length; lia). reflexivity. }
  rewrite W, skew_fin by (unfold k; destruct p; [lia|discriminate]). rewrite line_third by lia. f_equal. destruct (Req_EM_T _ 0); [reflexivity|]. unfold Rdiv. ring.
Qed.
(** Correlation. *)
Lemma back_pairs a b c d n : combine (back a b n) (back c d n) = map (fun i => (a + b * (INR n - INR i), c + d * (INR n - INR i))) (seq 0 (S n)).
Proof. rewrite !back_eq, combine_map_both, combine_same, map_map. reflexivity. Qed.
Lemma corr_line p a b c d n : (1 <= p <= n)%nat ->
  @corr_of ER (map Fin (firstn p (back a b n))) (map Fin (firstn p (back c d n))) =
  if (p =? 1)%nat then NaN else if Rlt_dec 0 (b * d) then Fin 1 else if Rlt_dec (b * d) 0 then Fin (-1) else NaN.
Proof.
  intros H. rewrite !back_window by lia. set (u := map _ (seq 0 p)). set (v := map (fun i => c + d * INR n + - d * INR i) (seq 0 p)).
  assert (Nu : u <> []) by (unfold u; destruct p; [lia|discriminate]). assert (L : length u = length v) by (unfold u, v; now rewrite !map_length).
  assert (Nv : v <> []) by (unfold v; destruct p; [lia|discriminate]).
  unfold corr_of. rewrite covariance_fin, !sqrt_fvar by assumption. cbn [fdiv fmul ER e_mul]. unfold u, v. rewrite !line_dev, line_cov, !Rabs_Ropp by lia. set (s := (INR p * INR p - 1) / 12).
  assert (S0 : 0 <= s) by (apply spread_nonneg; lia). assert (SS := sqrt_sqrt s S0).
  assert (Q0 : Rabs b * sqrt s * (Rabs d * sqrt s) = Rabs (b * d) * s) by (rewrite Rabs_mult; transitivity (Rabs b * Rabs d * (sqrt s * sqrt s)); [ring|now rewrite SS]). rewrite Q0. replace (- b * - d * s) with (b * d * s) by ring.
  destruct (Nat.eqb_spec p 1) as [->|P].
  - assert (Z : s = 0) by (unfold s; cbn; field). rewrite Z, !Rmult_0_r. unfold e_div, inf_of. destruct (Req_EM_T 0 0), (Rlt_dec 0 0); lra || reflexivity.
  - assert (P2 : 2 <= INR p) by (apply (le_INR 2); lia). assert (S1 : 0 < s) by (unfold s; nra). destruct (Req_dec (b * d) 0) as [E|E].
    + rewrite E, Rabs_R0, !Rmult_0_l. destruct (Rlt_dec 0 0); [lra|]. unfold e_div, inf_of. destruct (Req_EM_T 0 0), (Rlt_dec 0 0); lra || reflexivity.
    + assert (Q : Rabs (b * d) <> 0) by now apply Rabs_no_R0. rewrite e_div_fin by (apply Rmult_integral_contrapositive_currified; [exact Q|lra]).
      clear Q0. clearbody s. set (t := b * d) in *. clearbody t. unfold Rabs in *. destruct (Rcase_abs t), (Rlt_dec 0 t), (Rlt_dec t 0); try lra; f_equal; field; lra.
Qed.

(** ** Ladders, latest number first *)
Fixpoint down (c q : R) (n : nat) : list R := match n with 0%nat => [c] | S m => (c * q ^ n) :: down c q m end.
Lemma ladder_length c q len : length (ladder c q len) = len.
Proof. unfold ladder. now rewrite map_length, seq_length. Qed.
Lemma ladder_countable c q len : countably len -> countable (ladder c q len).
Proof. intros [H1 H2]. split; [|now rewrite ladder_length]. intros E. apply (f_equal (@length R)) in E. rewrite ladder_length in E. cbn in E. lia. Qed.
Lemma ladder_nth c q len n : (n < len)%nat -> nth n (ladder c q len) 0 = c * q ^ n.
Proof.
  intros H. unfold ladder. rewrite (nth_indep _ 0 (c * q ^ 0)) by now rewrite map_length, seq_length.
  rewrite (map_nth (fun i => c * q ^ i)), seq_nth by exact H. reflexivity.
Qed.
Lemma ladder_upto c q len n : (n < len)%nat -> upto n (ladder c q len) = down c q n.
Proof.
  induction n as [|n IH]; intros H.
  - rewrite (SignalFacts.upto_0 _ 0) by (rewrite ladder_length; lia). rewrite ladder_nth by lia. cbn. f_equal. ring.
  - rewrite (SignalFacts.upto_S n _ 0) by (rewrite ladder_length; lia). rewrite ladder_nth, IH by lia. reflexivity.
Qed.
Lemma down_length c q n : length (down c q n) = S n.
Proof. induction n as [|n IH]; [reflexivity|]. cbn [down length]. now rewrite IH. Qed.
Lemma down_nth c q n : forall i, (i <= n)%nat -> nth i (down c q n) 0 = c * q ^ (n - i).
Proof. induction n as [|n IH]; intros [|i] H; try lia; cbn [down nth]; [cbn; ring|reflexivity|]. rewrite IH by lia. reflexivity. Qed.
Lemma change_ladder (f : ext -> ext) p c q n : (1 <= p <= n)%nat -> c <> 0 -> q <> 0 ->
  @change ER f p (map Fin (down c q n)) = f (Fin (q ^ p)).
Proof.
  intros H Hc Hq. unfold change, now, ago. change (@F ER) with ext. rewrite map_length, down_length. destruct (Nat.leb_spec (S n) p); [lia|].
  change (@f0 ER) with (Fin 0). rewrite !(map_nth Fin), !down_nth by lia. rewrite Nat.sub_0_r. assert (Z : c * q ^ (n - p) <> 0) by (apply Rmult_integral_contrapositive_currified; [exact Hc|now apply pow_nonzero]).
  cbn [feq ER e_eq Reqb orb]. unfold Reqb. destruct (Req_EM_T (c * q ^ (n - p)) 0); [contradiction|]. cbn [fdiv ER]. rewrite e_div_fin by exact Z. f_equal. f_equal.
  replace (q ^ n) with (q ^ (n - p) * q ^ p) by (rewrite <- pow_add; f_equal; lia). field. split; [now apply pow_nonzero|exact Hc].
Qed.
Lemma down_peak c q n : 0 < c -> 0 <= q <= 1 -> rpeak (down c q n) = c.
Proof.
  intros Hc Hq. induction n as [|n IH]; [cbn [down rpeak]; apply Rmax_left; lra|]. cbn [down rpeak]. rewrite IH. apply Rmax_right.
  assert (q ^ S n <= 1) by (rewrite <- (pow1 (S n)); apply pow_incr; lra). nra.
Qed.

(** ** The theorems *)
Lemma one_series (f : list ext -> ext) g xs : (forall h, f (map Fin h) = Fin (g h)) ->
  tensors [] (map (each [] f) (hists [] (map (@sing ER) (map Fin xs)))) = reals (run g xs).
Proof.
  intros Hf. assert (E2 : hists [] (map (@sing ER) (map Fin xs)) = map (map (@sing ER)) (map (map Fin) (hists [] xs))).
  { rewrite <- (hists_map Fin xs []). exact (hists_map (@sing ER) (map Fin xs) []). }
  rewrite E2. unfold reals. rewrite <- MarketFacts.tensors_single. f_equal. unfold run. rewrite !map_map. apply map_ext. intros h. rewrite <- Hf. apply (each_sing (N := ER)).
Qed.
Lemma one_input xs : tensors [] (map (@sing ER) (map Fin xs)) = reals xs.
Proof. apply MarketFacts.tensors_single. Qed.
Lemma one_ok xs : countable xs -> @ok_rows ER [] (rev (map (@sing ER) (map Fin xs))).
Proof. intros C. rewrite <- map_rev. apply ok_rows_sing. now apply countable_short. Qed.

Theorem averages_on_line p a b len : (1 <= p)%nat -> countably len ->
  exists sma ema rma, outputs (SimpleMovingAverage (Z.of_nat p)) (line a b len) sma /\ outputs (ExponentialMovingAverage (Z.of_nat p)) (line a b len) ema /\
    outputs (RollingMovingAverage (Z.of_nat p)) (line a b len) rma /\
    forall n, (p <= n + 1)%nat -> (n < len)%nat ->
      at_pos sma n = a + b * (INR n - (INR p - 1) / 2) /\ at_pos ema n = a + b * (INR n - (INR p - 1) / 2) /\
      at_pos rma n = a + b * (INR n - (INR p - 1) * (1 - ((INR p - 1) / INR p) ^ (n + 1 - p) / 2)).
Proof.
  intros Hp Hl. assert (C := line_countable a b len Hl). do 3 eexists. split; [exact (sma_outputs _ C p Hp)|]. split; [exact (ema_outputs _ C p Hp)|]. split; [exact (rma_outputs _ C p Hp)|].
  intros n H1 H2. rewrite !run_at by now rewrite line_length. rewrite !line_upto by exact H2. rewrite sma_line, ema_line, rma_line by lia. rewrite Nat.add_1_r. repeat split.
Qed.
Theorem spread_on_line p factor k a b len : (1 <= p)%nat -> @Series.num ER factor = Fin k -> countably len ->
  exists msd lower middle upper sf s0, outputs (MovingStandardDeviation (Z.of_nat p)) (line a b len) msd /\
    call (BollingerBands (Z.of_nat p) factor) (reals (line a b len)) None true = Ok (Tup [reals lower; reals middle; reals upper], sf, s0) /\
    length lower = len /\ length middle = len /\ length upper = len /\
    forall n, (p <= n + 1)%nat -> (n < len)%nat ->
      let deviation := Rabs b * sqrt ((INR p * INR p - 1) / 12) in
      at_pos msd n = deviation /\ at_pos middle n = a + b * (INR n - (INR p - 1) / 2) /\
      at_pos lower n = at_pos middle n - k * deviation /\ at_pos upper n = at_pos middle n + k * deviation.
Proof.
  intros Hp Ek Hl. assert (C := line_countable a b len Hl). set (xs := line a b len) in *. destruct (@bollinger_streams ER [] p factor Hp) as (st & H & _). specialize (H (map (@sing ER) (map Fin xs))).
  exists (run (rmsd p) xs), (run (fun h => rsma p h - rmsd p h * k) xs), (run (rsma p) xs), (run (fun h => rsma p h + rmsd p h * k) xs). do 2 eexists. split; [exact (msd_outputs xs C p Hp)|]. split.
  { rewrite one_input in H. rewrite H; [|apply map_some, map_some, C|now apply one_ok].
    rewrite (one_series _ (fun h => rsma p h - rmsd p h * k)), (one_series _ (rsma p)), (one_series _ (fun h => rsma p h + rmsd p h * k)); [reflexivity|..].
    - intros h. rewrite sma_eq, msd_eq, Ek by exact Hp. reflexivity.
    - intros h. now apply sma_eq.
    - intros h. rewrite sma_eq, msd_eq, Ek by exact Hp. reflexivity. }
  assert (L : length xs = len) by apply line_length. rewrite !run_length, L. do 3 (split; [reflexivity|]). intros n H1 H2 dev. rewrite !run_at by now rewrite L. unfold xs. rewrite !line_upto by exact H2.
  rewrite !msd_line, !sma_line by lia. fold dev. repeat split; ring.
Qed.
Theorem momentum_on_line p a b len : (1 <= p)%nat -> countably len ->
  exists mom, outputs (Momentum (Z.of_nat p)) (line a b len) mom /\ forall n, (p <= n < len)%nat -> at_pos mom n = INR p * b.
Proof.
  intros Hp Hl. assert (C := line_countable a b len Hl). eexists. split; [exact (momentum_outputs _ C p Hp)|]. intros n H. rewrite run_at by (rewrite line_length; lia). rewrite line_upto by lia. now apply momentum_line.
Qed.
Theorem macd_on_line slow fast m a b len : (1 <= fast)%nat -> (fast <= slow)%nat -> (1 <= m)%nat -> countably len ->
  exists s f macd signal histogram sf s0,
    call (MovingAverageConvergenceDivergence (Z.of_nat slow) (Z.of_nat fast) (Z.of_nat m)) (reals (line a b len)) None true =
      Ok (Tup [reals s; reals f; reals macd; reals signal; reals histogram], sf, s0) /\
    length macd = len /\ length signal = len /\ length histogram = len /\
    forall n, (n < len)%nat ->
      ((slow <= n + 1)%nat -> at_pos macd n = b * ((INR slow - INR fast) / 2)) /\
      ((slow + m <= n + 2)%nat -> at_pos signal n = b * ((INR slow - INR fast) / 2) /\ at_pos histogram n = 0).
Proof.
  intros Hf Hs Hm Hl. assert (C := line_countable a b len Hl). set (xs := line a b len) in *. assert (Hs' : (1 <= slow)%nat) by lia.
  destruct (@macd_streams ER [] slow fast m Hs' Hf Hm) as (st & H & _). specialize (H (map (@sing ER) (map Fin xs))).
  exists (run (rema slow) xs), (run (rema fast) xs), (run (rmacd slow fast) xs), (run (rmacd_signal slow fast m) xs), (run (rmacd_histogram slow fast m) xs). do 2 eexists. split.
  { rewrite one_input in H. rewrite H; [|apply map_some, map_some, C|now apply one_ok].
    rewrite (one_series _ (rema slow)), (one_series _ (rema fast)), (one_series _ (rmacd slow fast)), (one_series _ (rmacd_signal slow fast m)), (one_series _ (rmacd_histogram slow fast m)); [reflexivity|..]; intros h.
    - now apply macd_histogram_eq.
    - now apply macd_signal_eq.
    - now apply macd_eq.
    - now apply ema_eq.
    - now apply ema_eq. }
  assert (L : length xs = len) by apply line_length. rewrite !run_length, L. do 3 (split; [reflexivity|]). intros n H1. rewrite !run_at by now rewrite L. unfold xs. rewrite !line_upto by exact H1.
  split; [intros H2; apply macd_line; lia|]. intros H2. assert (Sg := signal_line slow fast m a b n Hf Hs Hm ltac:(lia)). split; [exact Sg|].
  unfold rmacd_histogram. rewrite back_length. destruct (Nat.ltb_spec (S n + 1) (slow + m)); [lia|]. rewrite Sg, macd_line by lia. ring.
Qed.
Theorem strength_on_line p a b len : (1 <= p)%nat -> countably len ->
  exists (index : list ext) sf s0, call (RelativeStrengthIndex (Z.of_nat p)) (reals (line a b len)) None true = Ok (@scalars ER index, sf, s0) /\ length index = len /\
    forall n, (p <= n < len)%nat ->
      (0 < b -> nth n index NaN = Fin 100) /\ (b < 0 -> nth n index NaN = Fin 0) /\ (b = 0 -> nth n index NaN = NaN).
Proof.
  intros Hp Hl. assert (C := line_countable a b len Hl). destruct (@rsi_streams ER p Hp) as (st & H & _). exists (map (@rsi ER p) (hists [] (map Fin (line a b len)))). do 2 eexists.
  split; [unfold reals; apply H; [apply map_some, C|now apply countable_short]|]. split; [now rewrite map_length, hists_length, map_length, line_length|]. intros n Hn.
  assert (E : nth n (map (@rsi ER p) (hists [] (map Fin (line a b len)))) NaN = @rsi ER p (upto n (map Fin (line a b len)))) by (apply nth_map_hists; rewrite map_length, line_length; lia).
  change (@ER.ext) with (@F ER) in *. rewrite E, RealLinear.upto_map, line_upto by lia. rewrite rsi_line by lia. destruct (Rlt_dec 0 b), (Rlt_dec b 0); repeat split; intros; lra || reflexivity.
Qed.
Theorem skewness_on_line p a b len : (1 <= p)%nat -> (Z.of_nat p < 2147483648)%Z -> countably len ->
  exists skew, outputs (Skewness (Z.of_nat p)) (line a b len) skew /\ forall n, (n < len)%nat -> at_pos skew n = 0.
Proof.
  intros Hp Hb Hl. assert (C := line_countable a b len Hl). destruct (@skewness_streams ER p Hp Hb) as (st & H & _). exists (repeat 0 len).
  split; [|intros n Hn; unfold at_pos; apply nth_repeat].
  split; [now rewrite repeat_length, line_length|]. do 2 eexists. unfold reals. rewrite H; [|apply map_some, C|now apply countable_short]. do 4 f_equal.
  assert (Lx : length (map Fin (line a b len)) = len) by now rewrite map_length, line_length.
  apply (nth_ext _ _ NaN NaN); [rewrite !map_length, hists_length, repeat_length; exact Lx|].
  intros n Hn. rewrite map_length, hists_length in Hn. 
  assert (E : nth n (map (@skewness ER p) (hists [] (map Fin (line a b len)))) NaN = @skewness ER p (upto n (map Fin (line a b len)))) by (apply nth_map_hists; exact Hn).
  change (@ER.ext) with (@F ER) in *. rewrite E, RealLinear.upto_map, line_upto, skew_line by (lia || exact Hp). rewrite map_repeat', (nth_indep _ NaN (Fin 0)) by (rewrite repeat_length; lia). symmetry. apply nth_repeat.
Qed.
Lemma map_fst_combine {A B} : forall (u : list A) (v : list B), length u = length v -> map fst (combine u v) = u.
Proof. induction u as [|x u IH]; intros [|y v] H; cbn in *; try lia; [reflexivity|]. now rewrite IH by lia. Qed.
Lemma map_snd_combine {A B} : forall (u : list A) (v : list B), length u = length v -> map snd (combine u v) = v.
Proof. induction u as [|x u IH]; intros [|y v] H; cbn in *; try lia; [reflexivity|]. now rewrite IH by lia. Qed.
Theorem correlation_on_lines p a b c d len : (1 <= p)%nat -> countably len ->
  exists (corr : list ext) sf s0,
    call (Correlation (Z.of_nat p)) (Tup [reals (line a b len); reals (line c d len)]) None true = Ok (@scalars ER corr, sf, s0) /\ length corr = len /\
    forall n, (p <= n < len)%nat ->
      ((2 <= p)%nat -> 0 < b * d -> nth n corr NaN = Fin 1) /\ ((2 <= p)%nat -> b * d < 0 -> nth n corr NaN = Fin (-1)) /\
      (p = 1%nat \/ b * d = 0 -> nth n corr NaN = NaN).
Proof.
  intros Hp Hl. assert (C := line_countable a b len Hl). set (xs := line a b len) in *. set (ys := line c d len).
  assert (Lx : length xs = len) by apply line_length. assert (Ly : length ys = len) by apply line_length.
  set (xy := combine (map (@sing ER) (map Fin xs)) (map (@sing ER) (map Fin ys))).
  assert (F1 : map fst xy = map (@sing ER) (map Fin xs)) by (apply map_fst_combine; rewrite !map_length; lia).
  assert (F2 : map snd xy = map (@sing ER) (map Fin ys)) by (apply map_snd_combine; rewrite !map_length; lia).
  assert (Lxy : length xy = len) by (unfold xy; rewrite combine_length, !map_length; lia).
  destruct (@corr_streams ER [] p Hp) as (st & H & _). specialize (H xy).
  exists (map (fun h => @correlation ER p (column2 f0 0 h)) (hists [] xy)), (st (rev xy)), (st []). split.
  { unfold tensor_pairs in H. rewrite F1, F2, !one_input in H. rewrite H.
    - do 3 f_equal. rewrite <- MarketFacts.tensors_single, map_map. reflexivity.
    - intros Z. rewrite Z in Lxy. destruct Hl. cbn in Lxy. lia.
    - assert (O1 := one_ok xs C). assert (O2 := one_ok ys (line_countable c d len Hl)). unfold two_rows. rewrite !map_rev, F1, F2. split; [apply O1|]. split; [apply O2|].
      unfold short. rewrite rev_length, Lxy. destruct Hl. lia. }
  split; [now rewrite map_length, hists_length|]. intros n Hn. change (@ER.ext) with (@F ER) in *.
  rewrite (nth_map_hists (fun h => @correlation ER p (column2 f0 0 h)) xy n) by lia.
  assert (Q1 : map fst (column2 (@f0 ER) 0 (upto n xy)) = map Fin (back a b n)).
  { rewrite column2_1. rewrite F1. assert (Q : numbers (map (@sing ER) (map Fin xs)) 0 = map Fin xs) by (unfold numbers; rewrite !map_map; reflexivity). refine (eq_trans (f_equal (upto n) Q) _). rewrite RealLinear.upto_map. unfold xs. now rewrite line_upto by lia. }
  assert (Q2 : map snd (column2 (@f0 ER) 0 (upto n xy)) = map Fin (back c d n)).
  { rewrite column2_2. rewrite F2. assert (Q : numbers (map (@sing ER) (map Fin ys)) 0 = map Fin ys) by (unfold numbers; rewrite !map_map; reflexivity). refine (eq_trans (f_equal (upto n) Q) _). rewrite RealLinear.upto_map. unfold ys. now rewrite line_upto by lia. }
  assert (Lc : length (column2 (@f0 ER) 0 (upto n xy)) = S n) by (unfold column2; rewrite map_length, upto_length; lia). unfold correlation. rewrite Q1, Q2, Lc. destruct (Nat.leb_spec (S n) p); [lia|]. change (@F ER) with ext. rewrite !firstn_map, corr_line by lia.
  destruct (Nat.eqb_spec p 1), (Rlt_dec 0 (b * d)), (Rlt_dec (b * d) 0); (split; [|split]); try (intros [K|K]); intros; try reflexivity; try lia; lra.
Qed.

(** Ladders. *)
Theorem changes_on_ladder p c q len : (1 <= p)%nat -> c <> 0 -> 0 < q -> countably len ->
  exists ret log_ret, outputs (Return (Z.of_nat p)) (ladder c q len) ret /\ outputs (LogarithmicReturn (Z.of_nat p)) (ladder c q len) log_ret /\
    forall n, (p <= n < len)%nat -> at_pos ret n = q ^ p - 1 /\ at_pos log_ret n = INR p * ln q.
Proof.
  intros Hp Hc Hq Hl. assert (C := ladder_countable c q len Hl). set (xs := ladder c q len) in *. assert (Lx : length xs = len) by apply ladder_length. assert (Q0 : q <> 0) by lra.
  assert (G : forall (op : @operator ER) (f : ext -> ext) v, @streams ER _ op short (@scalars ER) (fun hs => @scalars ER (map (@change ER f p) hs)) -> f (Fin (q ^ p)) = Fin v ->
    exists out, outputs op xs out /\ forall n, (p <= n < len)%nat -> at_pos out n = v).
  { intros op f v (st & H & _) E. exists (map (fun n => if (n <? p)%nat then 0 else v) (seq 0 len)). split.
    - split; [now rewrite map_length, seq_length|]. do 2 eexists. unfold reals. rewrite H; [|apply map_some, C|now apply countable_short]. do 4 f_equal. rewrite map_map.
      apply (nth_ext _ _ (Fin 0) (Fin 0)); [now rewrite !map_length, hists_length, seq_length, map_length|]. intros n Hn. rewrite map_length, hists_length, map_length in Hn.
      assert (E1 : nth n (map (@change ER f p) (hists [] (map Fin xs))) (Fin 0) = @change ER f p (upto n (map Fin xs))) by (apply nth_map_hists; now rewrite map_length).
      change (@ER.ext) with (@F ER) in *. rewrite E1, RealLinear.upto_map. unfold xs. rewrite ladder_upto by lia.
      rewrite (nth_indep _ (Fin 0) (Fin (if (0 <? p)%nat then 0 else v))) by (rewrite map_length, seq_length; lia).
      rewrite (map_nth (fun n => Fin (if (n <? p)%nat then 0 else v))), seq_nth by lia. cbn [Nat.add].
      destruct (Nat.ltb_spec n p); [unfold change; change (@F ER) with ext; rewrite map_length, down_length; destruct (Nat.leb_spec (S n) p); [reflexivity|lia]|].
      rewrite change_ladder by (assumption || lia). exact E.
    - intros n Hn. unfold at_pos. rewrite (nth_indep _ 0 (if (0 <? p)%nat then 0 else v)) by (rewrite map_length, seq_length; lia).
      rewrite (map_nth (fun n => if (n <? p)%nat then 0 else v)), seq_nth by lia. cbn [Nat.add]. destruct (Nat.ltb_spec n p); [lia|reflexivity]. }
  assert (Z0 : feq (@f0 ER) f0 = true) by (cbn; unfold Reqb; destruct (Req_EM_T 0 0); [reflexivity|lra]).
  destruct (G _ _ (q ^ p - 1) (@ret_streams ER p Hp Z0)) as (r1 & A1 & A2); [reflexivity|].
  assert (Qp : 0 < q ^ p) by now apply pow_lt.
  destruct (G _ _ (INR p * ln q) (@log_ret_streams ER p Hp Z0)) as (r2 & B1 & B2).
  { cbn. destruct (Rlt_dec 0 (q ^ p)); [|lra]. f_equal. clear -Hq. induction p as [|p IH]; [cbn; rewrite ln_1; ring|]. rewrite S_INR. cbn [pow]. rewrite ln_mult, IH by (try apply pow_lt; exact Hq). ring. }
  exists r1, r2. split; [exact A1|]. split; [exact B1|]. intros n Hn. split; [now apply A2|now apply B2].
Qed.
Lemma under_water_ladder c q n : 1 / 10000 < c -> 0 <= q <= 1 -> @under_water ER (map Fin (down c q n)) = Z.of_nat n.
Proof.
  intros Hc Hq. assert (T := tolerance_fin). induction n as [|n IH].
  - change (map Fin (down c q 0)) with [Fin c]. cbn [under_water]. rewrite T. change [Fin c] with (map Fin [c]). rewrite peak_fin. change (peak []) with (Fin 0). cbn. unfold Rltb.
    rewrite Rmax_left by lra. replace (c + - 0) with c by ring. rewrite Rabs_right by lra. destruct (Rlt_dec (1 / 10000) c); [reflexivity|lra].
  - change (map Fin (down c q (S n))) with (Fin (c * q ^ S n) :: map Fin (down c q n)). cbn [under_water]. rewrite IH, T.
    change (Fin (c * q ^ S n) :: map Fin (down c q n)) with (map Fin (down c q (S n))). rewrite !peak_fin, !down_peak by lra. cbn. unfold Rltb. replace (c + - c) with 0 by ring. rewrite Rabs_R0.
    destruct (Rlt_dec (1 / 10000) 0); [lra|]. lia.
Qed.
Theorem drawdown_on_ladder c q len : 1 / 10000 < c -> 0 <= q <= 1 -> countably len ->
  exists depths sf s0, call Drawdown (reals (ladder c q len)) None true = Ok (drawdown_reals depths, sf, s0) /\ length depths = len /\
    forall n, (n < len)%nat -> nth n depths (0, 0%Z) = (q ^ n - 1, Z.of_nat n).
Proof.
  intros Hc Hq Hl. assert (C := ladder_countable c q len Hl). set (xs := ladder c q len) in *. assert (Lx : length xs = len) by apply ladder_length.
  destruct (@drawdown_streams ER) as (st & H & _). exists (map (fun h => (rdrawdown h, @under_water ER (map Fin h))) (hists [] xs)). do 2 eexists.
  split. { unfold reals. rewrite H; [|apply map_some, C|unfold below31; rewrite rev_length, map_length, Lx; apply Hl]. unfold drawdown_reals. do 4 f_equal.
    change (@nil (@F ER)) with (map Fin []). change (@F ER) with ext. rewrite hists_map, !map_map. apply map_ext. intros h. cbn [fst snd]. f_equal. apply rdrawdown_fin. }
  split; [now rewrite map_length, hists_length|]. intros n Hn.
  rewrite (nth_map_hists (fun h => (rdrawdown h, @under_water ER (map Fin h))) xs n) by lia. unfold xs. rewrite ladder_upto by exact Hn. rewrite under_water_ladder by assumption. f_equal.
  destruct n as [|n]; cbn [down rdrawdown]; [cbn [rpeak]; destruct (Rlt_dec 0 (1 / 10000)); cbn; lra|]. rewrite down_peak by lra. destruct (Rlt_dec c (1 / 10000)); [lra|].
  replace (c * q ^ S n / c) with (q ^ S n) by (field; lra). apply Rmin_right. assert (q ^ S n <= 1) by (rewrite <- (pow1 (S n)); apply pow_incr; lra). lra.
Qed.
