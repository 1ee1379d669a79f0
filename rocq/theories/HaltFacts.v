(** * HaltFacts: what the indicators say once the prices stop moving (C78). *)
From Coq Require Import Reals Lra List ZArith Bool Lia.
From Verif Require Import Num Py Tensor Streamable Common Finance Series Formulas Positions ER MovingFacts Linear RealFacts RealStats RealMarket RealMirror RealLinear RealScale RealScale2 NormFacts ReturnFacts
  SignalFacts ImplBasic ImplComp ImplScalar ImplWindow ImplCorr ImplMarket MarketFacts MarketReal StatFacts Accuracy AccuracyMain AccuracyMarket Index AccuracyIndex Order OrderFacts Steady SteadyFacts SteadyMarket
  Super SuperFacts SuperNum Agree AgreeFacts Line LineFacts Halt.
Import ListNotations.
Local Open Scope R_scope.

(** ** Histories *)
Lemma halted xs n c : halts xs n c -> forall i, (n + i < length xs)%nat -> upto (n + i) xs = repeat c i ++ upto n xs.
Proof.
  intros [_ H]. induction i as [|i IH]; intros L; [now rewrite Nat.add_0_r|]. rewrite Nat.add_succ_r in *. rewrite upto_next by exact L. cbn [repeat app]. rewrite IH by lia. f_equal. apply H. lia.
Qed.
Lemma halted_window xs n c p m : halts xs n c -> (n + p <= m + 1)%nat -> (m < length xs)%nat -> firstn p (upto m xs) = repeat c p.
Proof.
  intros H L M. destruct H as [H0 H]. destruct p as [|p]; [reflexivity|]. assert (E := halted xs n c (conj H0 H) (m - n) ltac:(lia)). replace (n + (m - n))%nat with m in E by lia. rewrite E.
  destruct (upto_head n xs H0) as [r Er]. change (nth n xs 0) with (at_pos xs n) in Er. rewrite H in Er by lia. rewrite Er.
  assert (G : forall k q : nat, (q <= S k)%nat -> firstn q (repeat c k ++ c :: r) = repeat c q).
  { induction k as [|k IH]; intros [|q] Hq; try reflexivity; [replace q with 0%nat by lia; reflexivity|]. cbn [repeat app firstn]. now rewrite IH by lia. }
  apply G. lia.
Qed.
Lemma halted_ago xs n c p m : halts xs n c -> (n + p <= m)%nat -> (m < length xs)%nat -> nth p (upto m xs) 0 = c.
Proof.
  intros H L M. rewrite <- (firstn_skipn (S p) (upto m xs)). rewrite app_nth1 by (rewrite firstn_length, upto_length; lia). rewrite (halted_window xs n c) by (assumption || lia).
  rewrite (nth_indep _ 0 c) by (rewrite repeat_length; lia). apply nth_repeat.
Qed.
Lemma at_run g xs m : (m < length xs)%nat -> at_pos (run g xs) m = g (upto m xs).
Proof. apply run_at. Qed.

(** ** The averages with memory *)
Definition keep_ema (p : nat) : R := (INR p - 1) / (INR p + 1).
Definition keep_rma (p : nat) : R := (INR p - 1) / INR p.
Lemma ema_halt p c h : (1 <= p)%nat -> (p <= length h)%nat -> forall i, rema p (repeat c i ++ h) - c = keep_ema p ^ i * (rema p h - c).
Proof.
  intros Hp L. assert (P := INR_pos p Hp). induction i as [|i IH]; [cbn; ring|]. cbn [repeat app rema pow]. cbn [length]. rewrite app_length, repeat_length.
  destruct (Nat.leb_spec (S (i + length h)) p); [lia|]. rewrite Rmult_assoc, <- IH. unfold keep_ema. field. lra.
Qed.
Lemma rma_halt p c h : (1 <= p)%nat -> (p <= length h)%nat -> forall i, rrma p (repeat c i ++ h) - c = keep_rma p ^ i * (rrma p h - c).
Proof.
  intros Hp L. assert (P := INR_pos p Hp). induction i as [|i IH]; [cbn; ring|]. cbn [repeat app rrma pow]. cbn [length]. rewrite app_length, repeat_length.
  destruct (Nat.leb_spec (S (i + length h)) p); [lia|]. rewrite Rmult_assoc, <- IH. unfold keep_rma. field. lra.
Qed.
Theorem averages_halt p xs n c : (1 <= p)%nat -> countable xs -> halts xs n c ->
  exists ema rma, outputs (ExponentialMovingAverage (Z.of_nat p)) xs ema /\ outputs (RollingMovingAverage (Z.of_nat p)) xs rma /\
    forall m, (p <= n + 1)%nat -> (n <= m < length xs)%nat ->
      at_pos ema m - c = ((INR p - 1) / (INR p + 1)) ^ (m - n) * (at_pos ema n - c) /\
      at_pos rma m - c = ((INR p - 1) / INR p) ^ (m - n) * (at_pos rma n - c).
Proof.
  intros Hp C H. do 2 eexists. split; [exact (ema_outputs xs C p Hp)|]. split; [exact (rma_outputs xs C p Hp)|]. intros m L M. rewrite !run_at by lia.
  assert (E := halted xs n c H (m - n) ltac:(lia)). replace (n + (m - n))%nat with m in E by lia. rewrite E. assert (U := upto_length n xs ltac:(lia)).
  split; [apply ema_halt|apply rma_halt]; lia.
Qed.

(** ** The operators with a window *)
Lemma rmean_repeat c p : (1 <= p)%nat -> rmean (repeat c p) = c.
Proof. intros H. unfold rmean. rewrite rsum_repeat, repeat_length. field. apply not_0_INR. lia. Qed.
Lemma rvar_repeat c p : (1 <= p)%nat -> rvar (repeat c p) = 0.
Proof.
  intros H. unfold rvar. rewrite rmean_repeat by exact H. set (g := fun _ => _). assert (E : map g (repeat c p) = repeat (g c) p) by (clear; induction p as [|p IH]; [reflexivity|cbn [repeat map]; now rewrite IH]).
  rewrite E, rmean_repeat by exact H. unfold g. ring.
Qed.
Theorem windows_halt p factor k xs n c : (1 <= p)%nat -> (Z.of_nat p < 2147483648)%Z -> @Series.num ER factor = Fin k -> countable xs -> halts xs n c ->
  exists sma msd low high lower middle upper sf s0,
    outputs (SimpleMovingAverage (Z.of_nat p)) xs sma /\ outputs (MovingStandardDeviation (Z.of_nat p)) xs msd /\
    outputs (LocalMinimum (Z.of_nat p)) xs low /\ outputs (LocalMaximum (Z.of_nat p)) xs high /\
    call (BollingerBands (Z.of_nat p) factor) (reals xs) None true = Ok (Tup [reals lower; reals middle; reals upper], sf, s0) /\
    length lower = length xs /\ length middle = length xs /\ length upper = length xs /\
    forall m, (n + p <= m + 1)%nat -> (m < length xs)%nat ->
      at_pos sma m = c /\ at_pos msd m = 0 /\ at_pos low m = c /\ at_pos high m = c /\ at_pos lower m = c /\ at_pos middle m = c /\ at_pos upper m = c.
Proof.
  intros Hp Hb Ek C H. destruct (lmin_outputs xs C p Hp Hb) as (lo & L1 & L2). destruct (lmax_outputs xs C p Hp Hb) as (hi & M1 & M2).
  destruct (@bollinger_streams ER [] p factor Hp) as (st & B & _). specialize (B (map (@sing ER) (map Fin xs))).
  exists (run (rsma p) xs), (run (rmsd p) xs), (run (fun h => lo (firstn p h)) xs), (run (fun h => hi (firstn p h)) xs),
    (run (fun h => rsma p h - rmsd p h * k) xs), (run (rsma p) xs), (run (fun h => rsma p h + rmsd p h * k) xs). do 2 eexists.
  split; [exact (sma_outputs xs C p Hp)|]. split; [exact (msd_outputs xs C p Hp)|]. split; [exact L2|]. split; [exact M2|]. split.
  { rewrite one_input in B. rewrite B; [|apply map_some, map_some, C|now apply one_ok].
    rewrite (one_series _ (fun h => rsma p h - rmsd p h * k)), (one_series _ (rsma p)), (one_series _ (fun h => rsma p h + rmsd p h * k)); [reflexivity|..].
    - intros h. rewrite sma_eq, msd_eq, Ek by exact Hp. reflexivity.
    - intros h. now apply sma_eq.
    - intros h. rewrite sma_eq, msd_eq, Ek by exact Hp. reflexivity. }
  rewrite !run_length. do 3 (split; [reflexivity|]). intros m L M. rewrite !run_at by exact M. assert (W := halted_window xs n c p m H L M).
  assert (S : rsma p (upto m xs) = c) by (rewrite rsma_window by lia; rewrite W; now apply rmean_repeat).
  assert (D : rmsd p (upto m xs) = 0) by (rewrite rmsd_window by lia; rewrite W, rvar_repeat by exact Hp; apply sqrt_0).
  rewrite S, D, W. assert (NE : repeat c p <> []) by (destruct p; [lia|discriminate]).
  split; [reflexivity|]. split; [reflexivity|]. split; [exact (repeat_spec _ _ _ (proj1 (L1 _ NE)))|]. split; [exact (repeat_spec _ _ _ (proj1 (M1 _ NE)))|]. repeat split; ring.
Qed.

(** ** Changes *)
Lemma change_halt (f : ext -> ext) p xs n c m : halts xs n c -> (n + p <= m)%nat -> (m < length xs)%nat -> f (Fin 1) = Fin 0 ->
  @change ER f p (map Fin (upto m xs)) = Fin 0.
Proof.
  intros H L M F1. unfold change. destruct (_ || _) eqn:Q; [reflexivity|]. apply orb_false_iff in Q as [_ Q]. unfold now, ago in *. change (@f0 ER) with (Fin 0) in *. change (@F ER) with ext in *. rewrite !(map_nth Fin) in *.
  rewrite !(halted_ago xs n c) in * by (assumption || lia). cbn in Q. unfold Reqb in Q. destruct (Req_EM_T c 0) as [E|E]; [discriminate Q|]. cbn [fdiv ER]. rewrite e_div_fin by exact E.
  replace (c / c) with 1 by (field; exact E). exact F1.
Qed.
Lemma self_zero : feq (@f0 ER) f0 = true.
Proof. cbn. unfold Reqb. destruct (Req_EM_T 0 0); [reflexivity|lra]. Qed.
Lemma logs_halt p xs n c m : (1 <= p)%nat -> halts xs n c -> (n + p <= m)%nat -> (m < length xs)%nat -> @log_ret ER p (map Fin (upto m xs)) = Fin 0.
Proof. intros Hp H L M. apply (change_halt _ p xs n c); [assumption..|]. cbn. destruct (Rlt_dec 0 1); [|lra]. now rewrite ln_1. Qed.
Lemma skip_upto {X} i m (xs : list X) : (i <= m)%nat -> (m < length xs)%nat -> skipn i (upto m xs) = upto (m - i) xs.
Proof. intros H L. unfold upto. rewrite skipn_rev, firstn_length, firstn_firstn. f_equal. f_equal. lia. Qed.
Lemma trail_halt p q xs n c m : (1 <= p)%nat -> (1 <= q)%nat -> halts xs n c -> (n + p + q <= m + 1)%nat -> (m < length xs)%nat ->
  firstn q (trail (@log_ret ER p) (map Fin (upto m xs))) = map Fin (repeat 0 q).
Proof.
  intros Hp Hq H L M. assert (Lt : length (trail (@log_ret ER p) (map Fin (upto m xs))) = S m) by (rewrite ReturnFacts.trail_length, map_length; now apply upto_length).
  apply (nth_ext _ _ NaN (Fin 0)); [rewrite firstn_length, map_length, repeat_length, Lt; lia|]. intros i Hi. rewrite firstn_length, Lt in Hi.
  rewrite (map_nth Fin), nth_repeat. rewrite nth_firstn by lia. rewrite nth_trail by (change (@F ER) with ext; rewrite map_length, upto_length; lia).
  change (@F ER) with ext. rewrite skipn_map, skip_upto by lia. apply (logs_halt p xs n c); assumption || lia.
Qed.
Theorem changes_halt p q xs n c : (1 <= p)%nat -> (1 <= q)%nat -> countable xs -> halts xs n c ->
  exists mom (ret log_ret vol : list ext) sr ir sl il sv iv, outputs (Momentum (Z.of_nat p)) xs mom /\
    call (Return (Z.of_nat p)) (reals xs) None true = Ok (@scalars ER ret, sr, ir) /\
    call (LogarithmicReturn (Z.of_nat p)) (reals xs) None true = Ok (@scalars ER log_ret, sl, il) /\
    call (Volatility (Z.of_nat q) (Z.of_nat p)) (reals xs) None true = Ok (@scalars ER vol, sv, iv) /\
    length ret = length xs /\ length log_ret = length xs /\ length vol = length xs /\
    forall m, (n + p <= m < length xs)%nat ->
      at_pos mom m = 0 /\ nth m ret NaN = Fin 0 /\ nth m log_ret NaN = Fin 0 /\ ((n + p + q <= m + 1)%nat -> nth m vol NaN = Fin 0).
Proof.
  intros Hp Hq C H. destruct (@ret_streams ER p Hp self_zero) as (s1 & R1 & _). destruct (@log_ret_streams ER p Hp self_zero) as (s2 & R2 & _). destruct (@volatility_streams ER q p Hq Hp self_zero) as (s3 & R3 & _).
  exists (run (rmomentum p) xs), (map (@Formulas.ret ER p) (hists [] (map Fin xs))), (map (@log_ret ER p) (hists [] (map Fin xs))), (map (@volatility ER q p) (hists [] (map Fin xs))). do 6 eexists.
  split; [exact (momentum_outputs xs C p Hp)|]. assert (NE : map Fin xs <> []) by apply map_some, C. assert (Sh := countable_short xs C).
  split; [unfold reals; now apply R1|]. split; [unfold reals; now apply R2|]. split; [unfold reals; now apply R3|]. rewrite !map_length, !hists_length, !map_length. do 3 (split; [reflexivity|]).
  intros m [L M]. assert (NT : forall f, nth m (map f (hists [] (map Fin xs))) NaN = f (map Fin (upto m xs))).
  { intros f. rewrite <- (RealLinear.upto_map Fin). apply nth_map_hists. now rewrite map_length. }
  rewrite run_at by exact M. rewrite !NT. split; [|split; [|split]].
  - unfold rmomentum. rewrite upto_length by exact M. destruct (Nat.leb_spec (S m) p); [reflexivity|]. rewrite !(halted_ago xs n c) by (assumption || lia). ring.
  - apply (change_halt _ p xs n c); [assumption..|]. cbn. f_equal. ring.
  - now apply (logs_halt p xs n c).
  - intros Q. unfold volatility. change (@F ER) with ext. rewrite map_length, upto_length by exact M. destruct (Nat.leb_spec (S m) (Nat.max q p)); [reflexivity|].
    unfold msd. destruct (_ <? q)%nat; [reflexivity|]. rewrite (trail_halt p q xs n c) by (assumption || lia). rewrite sqrt_fvar by (destruct q; [lia|discriminate]). rewrite rvar_repeat by exact Hq. now rewrite sqrt_0.
Qed.
