(** * FallFacts: what the indicators say while the prices only fall (C82). *)
From Coq Require Import Reals Lra List ZArith Bool Lia.
From Verif Require Import Num Py Tensor Streamable Common Finance Series Formulas Positions ER MovingFacts Linear RealFacts RealStats RealMarket RealMirror RealLinear RealScale RealScale2 NormFacts ReturnFacts
  SignalFacts ImplBasic ImplComp ImplScalar ImplWindow ImplCorr ImplMarket MarketFacts MarketReal StatFacts Accuracy AccuracyMain AccuracyMarket Index AccuracyIndex Order OrderFacts Steady SteadyFacts SteadyMarket
  Super SuperFacts SuperNum Agree AgreeFacts Line LineFacts UnitsFacts SwappedFacts Mirror Rise RiseFacts.
Import ListNotations.
Local Open Scope R_scope.

(** ** Negated series *)
Lemma rmean_opp l : rmean (map Ropp l) = - rmean l.
Proof. unfold rmean. rewrite rsum_opp, map_length. unfold Rdiv. ring. Qed.
Lemma rsma_opp p h : rsma p (map Ropp h) = - rsma p h.
Proof. unfold rsma. rewrite map_length, firstn_map, rmean_opp. destruct (_ <? p)%nat; ring. Qed.
Lemma rema_opp p h : rema p (map Ropp h) = - rema p h.
Proof. induction h as [|x h IH]; [cbn; ring|]. rewrite !rema_avg in *. assert (R := rsma_opp p (x :: h)). cbn [map] in *. cbn [ravg length]. rewrite map_length, R, IH. destruct (_ <=? p)%nat; ring. Qed.
Lemma rrma_opp p h : rrma p (map Ropp h) = - rrma p h.
Proof. induction h as [|x h IH]; [cbn; ring|]. assert (R := rsma_opp p (x :: h)). cbn [map] in *. cbn [rrma length]. rewrite map_length, R, IH. unfold Rdiv. destruct (_ <=? p)%nat; ring. Qed.
Lemma rcrossover_opp slow fast h : rcrossover slow fast (map Ropp h) = - rcrossover slow fast h.
Proof. unfold rcrossover. rewrite !rsma_opp, map_length. destruct (_ <? slow)%nat; ring. Qed.
Lemma rmacd_opp slow fast h : rmacd slow fast (map Ropp h) = - rmacd slow fast h.
Proof. unfold rmacd. rewrite !rema_opp, map_length. destruct (_ <? slow)%nat; ring. Qed.
Lemma trail_opp (g : list R -> R) h : (forall k, g (map Ropp k) = - g k) -> trail g (map Ropp h) = map Ropp (trail g h).
Proof. intros G. induction h as [|x h IH]; [reflexivity|]. cbn [map trail]. rewrite IH. f_equal. apply (G (x :: h)). Qed.
Lemma rmacd_signal_opp slow fast m h : rmacd_signal slow fast m (map Ropp h) = - rmacd_signal slow fast m h.
Proof. unfold rmacd_signal. rewrite map_length, (trail_opp _ h (rmacd_opp slow fast)), firstn_map, rema_opp. destruct (_ <? slow)%nat; ring. Qed.
Lemma at_opp l n : at_pos (map Ropp l) n = - at_pos l n.
Proof. unfold at_pos. rewrite <- Ropp_0 at 1. apply map_nth. Qed.
Lemma opp_opp (l : list R) : map Ropp (map Ropp l) = l.
Proof. rewrite map_map. rewrite <- (map_id l) at 2. apply map_ext. intros. apply Ropp_involutive. Qed.
Lemma run_opp g xs : (forall h, g (map Ropp h) = - g h) -> run g (map Ropp xs) = map Ropp (run g xs).
Proof. intros G. unfold run. change (@nil R) with (map Ropp []) at 1. rewrite hists_map, !map_map. apply map_ext, G. Qed.
Lemma falling_opp xs : falling xs -> rising (map Ropp xs).
Proof. intros H n L. rewrite map_length in L. rewrite !at_opp. specialize (H n L). lra. Qed.
Lemma countable_opp xs : countable xs -> countable (map Ropp xs).
Proof. intros [H L]. split; [destruct xs; [contradiction|discriminate]|rewrite map_length; exact L]. Qed.
Lemma outputs_once op xs a b : outputs op xs a -> outputs op xs b -> a = b.
Proof.
  intros [La (s & i & A)] [Lb (s' & i' & B)]. rewrite A in B. assert (E : reals a = reals b) by congruence. clear -E. assert (M : map Fin a = map Fin b) by (unfold reals, scalars in E; congruence).
  clear E. revert b M. induction a as [|x a IH]; intros [|y b] M; try discriminate M; [reflexivity|]. cbn [map] in M. injection M as -> M. f_equal. now apply IH.
Qed.

(** ** Averages *)
Theorem averages_fall p q xs : (1 <= p <= q)%nat -> countable xs -> falling xs ->
  exists sma_p sma_q ema_p ema_q rma_p rma_q,
    outputs (SimpleMovingAverage (Z.of_nat p)) xs sma_p /\ outputs (SimpleMovingAverage (Z.of_nat q)) xs sma_q /\
    outputs (ExponentialMovingAverage (Z.of_nat p)) xs ema_p /\ outputs (ExponentialMovingAverage (Z.of_nat q)) xs ema_q /\
    outputs (RollingMovingAverage (Z.of_nat p)) xs rma_p /\ outputs (RollingMovingAverage (Z.of_nat q)) xs rma_q /\
    forall n, (n < length xs)%nat ->
      ((p <= n + 1)%nat -> at_pos xs n <= at_pos sma_p n /\ at_pos xs n <= at_pos ema_p n <= at_pos rma_p n) /\
      ((q <= n + 1)%nat -> at_pos sma_p n <= at_pos sma_q n /\ at_pos ema_p n <= at_pos ema_q n /\ at_pos rma_p n <= at_pos rma_q n) /\
      ((p <= n + 1)%nat -> (S n < length xs)%nat -> at_pos sma_p (S n) <= at_pos sma_p n /\ at_pos ema_p (S n) <= at_pos ema_p n /\ at_pos rma_p (S n) <= at_pos rma_p n).
Proof.
  intros Hp C H. assert (Hq : (1 <= q)%nat) by lia. assert (Cn := countable_opp xs C).
  destruct (averages_rise p q (map Ropp xs) Hp Cn (falling_opp xs H)) as (a1 & a2 & a3 & a4 & a5 & a6 & O1 & O2 & O3 & O4 & O5 & O6 & K).
  exists (run (rsma p) xs), (run (rsma q) xs), (run (rema p) xs), (run (rema q) xs), (run (rrma p) xs), (run (rrma q) xs).
  split; [apply sma_outputs; auto; apply Hp|]. split; [now apply sma_outputs|]. split; [apply ema_outputs; auto; apply Hp|]. split; [now apply ema_outputs|]. split; [apply rma_outputs; auto; apply Hp|]. split; [now apply rma_outputs|].
  rewrite (outputs_once _ _ _ _ O1 (sma_outputs _ Cn p (proj1 Hp))), (outputs_once _ _ _ _ O2 (sma_outputs _ Cn q Hq)), (outputs_once _ _ _ _ O3 (ema_outputs _ Cn p (proj1 Hp))),
    (outputs_once _ _ _ _ O4 (ema_outputs _ Cn q Hq)), (outputs_once _ _ _ _ O5 (rma_outputs _ Cn p (proj1 Hp))), (outputs_once _ _ _ _ O6 (rma_outputs _ Cn q Hq)) in K.
  rewrite (run_opp _ xs (rsma_opp p)), (run_opp _ xs (rsma_opp q)), (run_opp _ xs (rema_opp p)), (run_opp _ xs (rema_opp q)), (run_opp _ xs (rrma_opp p)), (run_opp _ xs (rrma_opp q)), map_length in K.
  intros n Hn. specialize (K n Hn). rewrite !at_opp in K. destruct K as (K1 & K2 & K3). split; [intros L; specialize (K1 L); lra|]. split; [intros L; specialize (K2 L); lra|]. intros L L'. specialize (K3 L L'). lra.
Qed.

(** ** Crossovers *)
Lemma nonpos_opp (l : list R) : Forall (fun x => 0 <= x) (map Ropp l) -> Forall (fun x => x <= 0) l.
Proof. intros H. apply (proj1 (Forall_map Ropp (fun x => 0 <= x) l)) in H. eapply Forall_impl; [|exact H]. intros x Hx. cbn in Hx. lra. Qed.
Lemma side_nonpos l : Forall (fun x => x <= 0) l -> @side ER (map Fin l) = true <-> Forall (fun x => x = 0) l.
Proof.
  intros H. induction H as [|x l Hx H IH]; [split; [constructor|reflexivity]|]. cbn [map side]. change (@flt ER (Fin x) f0) with (Rltb x 0). change (@flt ER f0 (Fin x)) with (Rltb 0 x). unfold Rltb.
  destruct (Rlt_dec x 0) as [L|L]; [split; [discriminate|intros A; inversion A; lra]|]. destruct (Rlt_dec 0 x); [lra|]. rewrite IH. split; [intros A; constructor; [lra|exact A]|intros A; now inversion A].
Qed.
Lemma crossing_nonpos x y l : Forall (fun x => x <= 0) (x :: y :: l) ->
  (@crossing ER (map Fin (x :: y :: l)) = 0%Z \/ @crossing ER (map Fin (x :: y :: l)) = (-1)%Z) /\
  (@crossing ER (map Fin (x :: y :: l)) = (-1)%Z <-> x < 0 /\ Forall (fun z => z = 0) (y :: l)).
Proof.
  intros H. assert (S1 := side_nonpos _ H). inversion H as [|? ? Hx Hr]; subst. assert (S2 := side_nonpos _ Hr).
  assert (E : @crossing ER (map Fin (x :: y :: l)) = if Bool.eqb (@side ER (map Fin (x :: y :: l))) (@side ER (map Fin (y :: l))) then 0%Z else if @side ER (map Fin (x :: y :: l)) then 1%Z else (-1)%Z) by reflexivity.
  rewrite E. destruct (@side ER (map Fin (x :: y :: l))), (@side ER (map Fin (y :: l))); cbn [Bool.eqb].
  - split; [now left|]. split; [discriminate|]. intros [L _]. assert (A := proj1 S1 eq_refl). inversion A. lra.
  - exfalso. assert (A := proj1 S1 eq_refl). inversion A as [|? ? _ A']; subst. apply S2 in A'. discriminate A'.
  - split; [now right|]. split; [|reflexivity]. intros _. assert (A := proj1 S2 eq_refl). split; [|exact A]. destruct (Rlt_dec x 0); [assumption|]. exfalso. assert (x = 0) by lra. assert (B : false = true) by (apply S1; constructor; assumption). discriminate B.
  - split; [now left|]. split; [discriminate|]. intros [_ A]. apply S2 in A. discriminate A.
Qed.
Lemma upto_skip {X} (xs : list X) n i : (i <= n)%nat -> (n < length xs)%nat -> skipn i (upto n xs) = upto (n - i) xs.
Proof.
  intros Hi Hn. unfold upto. rewrite skipn_rev, firstn_length, firstn_firstn. f_equal. f_equal. lia.
Qed.
Theorem crossovers_fall slow fast m xs : (1 <= fast <= slow)%nat -> (1 <= m)%nat -> countable xs -> falling xs ->
  exists cross signals s f macd signal histogram sf s0 sf' s0',
    outputs (SimpleMovingAverageCrossover (Z.of_nat slow) (Z.of_nat fast)) xs cross /\
    call (SimpleMovingAverageCrossoverSignal (Z.of_nat slow) (Z.of_nat fast)) (reals xs) None true = Ok (@ints ER signals, sf, s0) /\ length signals = length xs /\
    call (MovingAverageConvergenceDivergence (Z.of_nat slow) (Z.of_nat fast) (Z.of_nat m)) (reals xs) None true =
      Ok (Tup [reals s; reals f; reals macd; reals signal; reals histogram], sf', s0') /\ length macd = length xs /\ length signal = length xs /\
    forall n, (n < length xs)%nat -> at_pos cross n <= 0 /\ at_pos macd n <= 0 /\ at_pos signal n <= 0 /\
      (nth n signals 0%Z = 0%Z \/ nth n signals 0%Z = (-1)%Z) /\
      (nth n signals 0%Z = (-1)%Z <-> (slow <= n)%nat /\ at_pos cross n < 0 /\ forall k, (k < n)%nat -> at_pos cross k = 0).
Proof.
  intros Hp Hm C H. destruct (signal_outputs slow fast xs) as (sf & s0 & E1); [lia|lia|exact C|]. destruct (macd_outputs slow fast m xs) as (sf' & s0' & E2); [lia|lia|exact Hm|exact C|].
  do 7 eexists. exists sf, s0, sf', s0'. split; [apply crossover_outputs; [lia|lia|exact C]|]. split; [exact E1|]. split; [now rewrite map_length, hists_length|]. split; [exact E2|].
  rewrite !run_length. do 2 (split; [reflexivity|]). intros n Hn. rewrite !run_at by exact Hn.
  assert (S : forall k, (k < length xs)%nat -> stairs (map Ropp (upto k xs))).
  { intros k Hk. rewrite <- RealLinear.upto_map. apply upto_stairs; [now apply falling_opp|now rewrite map_length]. }
  assert (Cn := crossover_nonneg slow fast _ Hp (S n Hn)). rewrite rcrossover_opp in Cn. assert (Mn := macd_nonneg slow fast _ Hp (S n Hn)). rewrite rmacd_opp in Mn.
  split; [lra|]. split; [lra|]. split.
  { assert (Sn : 0 <= rmacd_signal slow fast m (map Ropp (upto n xs))).
    { unfold rmacd_signal. destruct (_ <? slow)%nat; [lra|]. rewrite rema_avg. assert (A := part_ema m Hm). assert (A' := part_rma m Hm). apply avg_nonneg; [lra|exact Hm|]. apply Forall_firstn, trail_nonneg; [|exact (S n Hn)]. intros k K. now apply macd_nonneg. }
    rewrite rmacd_signal_opp in Sn. lra. }
  rewrite nth_map_hists by exact Hn. unfold rsignal. rewrite upto_length by exact Hn. destruct (Nat.leb_spec (Datatypes.S n) slow) as [L|L].
  { split; [now left|]. split; [discriminate|]. intros [L' _]. lia. }
  assert (T : Forall (fun x => x <= 0) (trail (rcrossover slow fast) (upto n xs))).
  { apply nonpos_opp. rewrite <- (trail_opp _ _ (rcrossover_opp slow fast)). apply trail_nonneg; [|exact (S n Hn)]. intros k K. now apply crossover_nonneg. }
  assert (Lt : length (trail (rcrossover slow fast) (upto n xs)) = Datatypes.S n) by now rewrite ReturnFacts.trail_length, upto_length.
  assert (Nt : forall i, (i <= n)%nat -> nth i (trail (rcrossover slow fast) (upto n xs)) 0 = rcrossover slow fast (upto (n - i) xs)).
  { intros i Hi. rewrite ReturnFacts.nth_trail by (rewrite upto_length by exact Hn; lia). now rewrite upto_skip by assumption. }
  destruct (trail (rcrossover slow fast) (upto n xs)) as [|x [|y l]]; [discriminate Lt|cbn in Lt; lia|].
  destruct (crossing_nonpos x y l T) as [K1 K2]. split; [exact K1|]. rewrite K2. clear K1 K2.
  assert (X : x = rcrossover slow fast (upto n xs)) by (assert (Q := Nt 0%nat ltac:(lia)); rewrite Nat.sub_0_r in Q; exact Q).
  assert (Y : Forall (fun z => z = 0) (y :: l) <-> forall k, (k < n)%nat -> at_pos (run (rcrossover slow fast) xs) k = 0).
  { rewrite Forall_forall. split.
    - intros A k Hk. rewrite run_at by lia. assert (Q := Nt (n - k)%nat ltac:(lia)). replace (n - (n - k))%nat with k in Q by lia. rewrite <- Q. destruct (n - k)%nat as [|i] eqn:E; [lia|]. apply A. cbn [nth]. apply (nth_In (y :: l)). cbn [length] in *. lia.
    - intros A z Hz. apply (In_nth _ _ 0) in Hz as (i & Hi & <-). assert (Q := Nt (Datatypes.S i) ltac:(cbn [length] in *; lia)). change (nth (Datatypes.S i) (x :: y :: l) 0) with (nth i (y :: l) 0) in Q. rewrite Q, <- run_at by (cbn [length] in *; lia). apply A. cbn [length] in *. lia. }
  rewrite X, Y. split; [intros [A B]; split; [lia|now split]|intros (_ & A & B); now split].
Qed.

(** ** Extrema, changes, drawdown *)
Theorem extrema_fall p xs : (1 <= p)%nat -> (Z.of_nat p < 2147483648)%Z -> countable xs -> falling xs ->
  exists gmin gmax lmin lmax mom,
    outputs GlobalMinimum xs gmin /\ outputs GlobalMaximum xs gmax /\ outputs (LocalMinimum (Z.of_nat p)) xs lmin /\ outputs (LocalMaximum (Z.of_nat p)) xs lmax /\
    outputs (Momentum (Z.of_nat p)) xs mom /\
    forall n, (n < length xs)%nat ->
      at_pos gmin n = at_pos xs n /\ at_pos gmax n = at_pos xs 0 /\ at_pos lmin n = at_pos xs n /\ at_pos lmax n = at_pos xs (n + 1 - p) /\ at_pos mom n <= 0.
Proof.
  intros Hp Hb C H. destruct (gmin_outputs xs C) as (g1 & G1 & E1). destruct (gmax_outputs xs C) as (g2 & G2 & E2). destruct (lmin_outputs xs C p Hp Hb) as (g3 & G3 & E3). destruct (lmax_outputs xs C p Hp Hb) as (g4 & G4 & E4).
  do 5 eexists. split; [exact E1|]. split; [exact E2|]. split; [exact E3|]. split; [exact E4|]. split; [exact (momentum_outputs xs C p Hp)|].
  intros n Hn. rewrite !run_at by exact Hn. assert (Lh := upto_length n xs Hn).
  assert (S : forall i j, (i <= j < length (upto n xs))%nat -> nth i (upto n xs) 0 <= nth j (upto n xs) 0).
  { intros i j L. assert (Q : stairs (map Ropp (upto n xs))) by (rewrite <- RealLinear.upto_map; apply upto_stairs; [now apply falling_opp|now rewrite map_length]).
    assert (Q' := stairs_nth _ Q i j ltac:(rewrite map_length; exact L)). change (nth ?k (map Ropp (upto n xs)) 0) with (at_pos (map Ropp (upto n xs)) k) in Q'. rewrite !at_opp in Q'. unfold at_pos in Q'. lra. }
  assert (K : forall q, (1 <= q)%nat -> forall y, In y (firstn q (upto n xs)) -> at_pos xs n <= y <= at_pos xs (n + 1 - Nat.min q (n + 1))).
  { intros q Hq y Hy. apply (In_nth _ _ 0) in Hy as (i & Hi & <-). rewrite firstn_length in Hi. rewrite nth_firstn by lia. split.
    - replace (at_pos xs n) with (nth 0 (upto n xs) 0) by (rewrite upto_nth by lia; now rewrite Nat.sub_0_r). apply S. lia.
    - replace (n + 1 - Nat.min q (n + 1))%nat with (n - (Nat.min q (n + 1) - 1))%nat by lia. rewrite <- upto_nth by lia. apply S. lia. }
  assert (I : forall q i, (i < Nat.min q (n + 1))%nat -> In (at_pos xs (n - i)) (firstn q (upto n xs))).
  { intros q i Hi. rewrite <- upto_nth by lia. rewrite <- (nth_firstn i q (upto n xs) 0) by lia. apply nth_In. rewrite firstn_length. lia. }
  assert (All : upto n xs = firstn (n + 1) (upto n xs)) by (rewrite firstn_all2; [reflexivity|lia]).
  split; [|split; [|split; [|split]]].
  - rewrite All. apply (low_is g1); [exact G1| |].
    + assert (J := I (n + 1)%nat 0%nat ltac:(lia)). rewrite Nat.sub_0_r in J. exact J.
    + intros y Hy. apply (K (n + 1)%nat ltac:(lia)) in Hy. lra.
  - rewrite All. apply (high_is g2); [exact G2| |].
    + assert (J := I (n + 1)%nat n ltac:(lia)). rewrite Nat.sub_diag in J. exact J.
    + intros y Hy. apply (K (n + 1)%nat ltac:(lia)) in Hy. rewrite Nat.min_id, Nat.sub_diag in Hy. lra.
  - apply (low_is g3); [exact G3| |].
    + assert (J := I p 0%nat ltac:(lia)). rewrite Nat.sub_0_r in J. exact J.
    + intros y Hy. apply (K p Hp) in Hy. lra.
  - apply (high_is g4); [exact G4| |].
    + assert (J := I p (Nat.min p (n + 1) - 1)%nat ltac:(lia)). replace (n - (Nat.min p (n + 1) - 1))%nat with (n + 1 - p)%nat in J by lia. exact J.
    + intros y Hy. apply (K p Hp) in Hy. replace (n + 1 - Nat.min p (n + 1))%nat with (n + 1 - p)%nat in Hy by lia. lra.
  - unfold rmomentum. rewrite Lh. destruct (Nat.leb_spec (Datatypes.S n) p); [lra|]. assert (Q := S 0%nat p ltac:(lia)). lra.
Qed.
Lemma fall_nth xs : falling xs -> forall j i, (i <= j < length xs)%nat -> at_pos xs j <= at_pos xs i.
Proof.
  intros H. induction j as [|j IH]; intros i L; [replace i with 0%nat by lia; lra|]. destruct (Nat.eq_dec i (S j)) as [->|]; [lra|]. assert (Q := H j ltac:(lia)). assert (Q' := IH i ltac:(lia)). lra.
Qed.
Lemma peak_first xs : falling xs -> 0 < at_pos xs 0 -> forall n, (n < length xs)%nat -> rpeak (upto n xs) = at_pos xs 0.
Proof.
  intros H P. induction n as [|n IH]; intros L.
  - rewrite (SignalFacts.upto_0 _ 0) by exact L. cbn [rpeak]. unfold Rmax, at_pos in *. destruct (Rle_dec _ 0); lra.
  - rewrite upto_next by exact L. cbn [rpeak]. rewrite IH by lia. apply Rmax_right. apply (fall_nth xs H (S n) 0%nat). lia.
Qed.
Theorem drawdown_fall xs : countable xs -> falling xs -> 1 / 10000 < at_pos xs 0 ->
  exists depths sf s0, call Drawdown (reals xs) None true = Ok (drawdown_reals depths, sf, s0) /\ length depths = length xs /\
    forall n, (n < length xs)%nat -> nth n depths (0, 0%Z) = (at_pos xs n / at_pos xs 0 - 1, Z.of_nat n).
Proof.
  intros C H P. destruct (@drawdown_streams ER) as (st & B & _). exists (map (fun h => (rdrawdown h, @under_water ER (map Fin h))) (hists [] xs)). do 2 eexists.
  split. { unfold reals. rewrite B; [|apply map_some, C|unfold below31; rewrite rev_length, map_length; apply C]. unfold drawdown_reals. do 4 f_equal.
    change (@nil (@F ER)) with (map Fin []). change (@F ER) with ext. rewrite hists_map, !map_map. apply map_ext. intros h. cbn [fst snd]. f_equal. apply rdrawdown_fin. }
  split; [now rewrite map_length, hists_length|]. intros n Hn. rewrite (nth_map_hists (fun h => (rdrawdown h, @under_water ER (map Fin h))) xs) by exact Hn. f_equal.
  - destruct n as [|n].
    + rewrite (SignalFacts.upto_0 _ 0) by exact Hn. cbn [rdrawdown rpeak]. destruct (Rlt_dec 0 (1 / 10000)); [unfold at_pos in *; field; lra|lra].
    + rewrite upto_next by exact Hn. unfold rdrawdown. rewrite (peak_first xs H) by (lra || lia). destruct (Rlt_dec (at_pos xs 0) (1 / 10000)); [lra|]. change (nth (S n) xs 0) with (at_pos xs (S n)). apply Rmin_right.
      assert (Q := fall_nth xs H (S n) 0%nat ltac:(lia)). assert (at_pos xs (S n) / at_pos xs 0 <= 1); [|lra]. apply Rmult_le_reg_r with (at_pos xs 0); [lra|]. replace (at_pos xs (S n) / at_pos xs 0 * at_pos xs 0) with (at_pos xs (S n)) by (field; lra). lra.
  - induction n as [|n IH].
    + rewrite (SignalFacts.upto_0 _ 0) by exact Hn. cbn [map]. assert (E : forall x, @under_water ER [Fin x] = if @flt ER tolerance (fabs (@fsub ER (Fin (rpeak [x])) (Fin 0))) then 0%Z else 1%Z).
      { intros x. cbn [under_water]. change ([Fin x]) with (map Fin [x]). rewrite peak_fin. reflexivity. }
      rewrite E. assert (Q := peak_first xs H ltac:(lra) 0%nat Hn). rewrite (SignalFacts.upto_0 _ 0) in Q by exact Hn. rewrite Q.
      assert (F1 : @flt ER tolerance (fabs (@fsub ER (Fin (at_pos xs 0)) (Fin 0))) = true); [|now rewrite F1].
      rewrite tolerance_fin. cbn. unfold Rltb. destruct (Rlt_dec _ _) as [|G]; [reflexivity|]. exfalso. apply G. match goal with |- _ < Rabs ?z => replace z with (at_pos xs 0) by ring end. rewrite Rabs_right by lra. exact P.
    + assert (IH' := IH ltac:(lia)). assert (Q1 := peak_first xs H ltac:(lra) (S n) Hn). assert (Q2 := peak_first xs H ltac:(lra) n ltac:(lia)).
      rewrite upto_next in * by exact Hn. cbn [map under_water]. rewrite <- !map_cons, !peak_fin, Q1, Q2, IH'.
      assert (F0 : @flt ER tolerance (fabs (@fsub ER (Fin (at_pos xs 0)) (Fin (at_pos xs 0)))) = false).
      { rewrite tolerance_fin. cbn. unfold Rltb. destruct (Rlt_dec _ _) as [G|]; [|reflexivity]. exfalso. match type of G with _ < Rabs ?z => replace z with 0 in G by ring end. rewrite Rabs_R0 in G. lra. }
      rewrite F0. lia.
Qed.

(** ** Relative strength *)
Theorem strength_fall p xs : (2 <= p)%nat -> countable xs -> falling xs ->
  exists (index : list ext) sf s0, call (RelativeStrengthIndex (Z.of_nat p)) (reals xs) None true = Ok (@scalars ER index, sf, s0) /\ length index = length xs /\
    forall n, (p <= n < length xs)%nat -> nth n index NaN = if Rlt_dec (at_pos xs n) (at_pos xs 0) then Fin 0 else NaN.
Proof.
  intros Hp C H. destruct (strength_rise p (map Ropp xs) Hp (countable_opp xs C) (falling_opp xs H)) as (o & s & i & E & L & K).
  destruct (rsi_mirror p 0 (map Ropp xs)) as (o1 & o2 & s1 & i1 & s2 & i2 & M1 & M2 & L1 & L2 & _ & M); [lia|destruct C as [C _]; destruct xs; [contradiction|discriminate]|unfold short; rewrite map_length; destruct C; lia|].
  assert (Eo : o1 = o). { rewrite E in M1. assert (Q : @scalars ER o1 = @scalars ER o) by congruence. unfold scalars in Q. congruence. } subst o1.
  assert (B : map (mirror 0) (map Ropp xs) = xs) by (rewrite map_map; rewrite <- (map_id xs) at 2; apply map_ext; intros; unfold mirror; ring). rewrite B in M2.
  exists o2, s2, i2. split; [exact M2|]. rewrite map_length in *. split; [exact L2|]. intros n Hn. etransitivity; [apply M; lia|]. etransitivity; [apply (f_equal (e_sub (Fin 100))); exact (K n Hn)|]. rewrite !at_opp.
  destruct (Rlt_dec (- at_pos xs 0) (- at_pos xs n)), (Rlt_dec (at_pos xs n) (at_pos xs 0)); try lra; [|reflexivity]. cbn. f_equal. ring.
Qed.
(** The signals are not mirrored: a fall out of a pause is signalled, a rise is not. *)
Theorem signals_not_mirrored : exists sf s0 sf' s0',
  call (@SimpleMovingAverageCrossoverSignal ER 2 1) (reals [5; 5; 5; 4]) None true = Ok (@ints ER [0; 0; 0; -1]%Z, sf, s0) /\
  call (@SimpleMovingAverageCrossoverSignal ER 2 1) (reals [-5; -5; -5; -4]) None true = Ok (@ints ER [0; 0; 0; 0]%Z, sf', s0').
Proof.
  assert (C1 : countable [5; 5; 5; 4]) by (split; [discriminate|cbn; lia]). assert (C2 : countable [-5; -5; -5; -4]) by (split; [discriminate|cbn; lia]).
  assert (F1 : falling [5; 5; 5; 4]) by (intros [|[|[|n]]] L; cbn in L; try lia; unfold at_pos; cbn [nth]; lra).
  assert (F2 : rising [-5; -5; -5; -4]) by (intros [|[|[|n]]] L; cbn in L; try lia; unfold at_pos; cbn [nth]; lra).
  destruct (crossovers_fall 2 1 1 _ ltac:(lia) ltac:(lia) C1 F1) as (cr & sg & s & f & ma & si & hi & sf & s0 & sf' & s0' & O & E & L & _ & _ & _ & K).
  rewrite (outputs_once _ _ _ _ O (crossover_outputs 2 1 _ ltac:(lia) ltac:(lia) C1)) in K. clear O.
  destruct (crossovers_rise 2 1 1 _ ltac:(lia) ltac:(lia) C2 F2) as (cr' & sg' & s' & f' & ma' & si' & hi' & sf2 & s2 & sf2' & s2' & _ & E' & L' & _ & _ & _ & K').
  exists sf, s0, sf2, s2. split.
  - change (@SimpleMovingAverageCrossoverSignal ER 2 1) with (@SimpleMovingAverageCrossoverSignal ER (Z.of_nat 2) (Z.of_nat 1)). rewrite E. do 4 f_equal.
    destruct sg as [|a [|b [|c [|d [|e sg]]]]]; try discriminate L. cbn [length] in K.
    assert (V : forall k, (k < 4)%nat -> at_pos (run (rcrossover 2 1) [5; 5; 5; 4]) k = nth k [0; 0; 0; - (1 / 2)] 0).
    { intros [|[|[|[|k]]]] Hk; try lia; rewrite run_at by (cbn; lia); unfold upto, rcrossover, rsma, rmean, rsum; cbn; field. }
    assert (K0 := K 0%nat ltac:(lia)). assert (K1 := K 1%nat ltac:(lia)). assert (K2 := K 2%nat ltac:(lia)). assert (K3 := K 3%nat ltac:(lia)). cbn [nth] in K0, K1, K2, K3. rewrite !V in K0, K1, K2, K3 by lia. cbn [nth] in *.
    destruct K0 as (_ & _ & _ & [->| ->] & X0); [|apply proj1 in X0; specialize (X0 eq_refl); lra].
    destruct K1 as (_ & _ & _ & [->| ->] & X1); [|apply proj1 in X1; specialize (X1 eq_refl); lra].
    destruct K2 as (_ & _ & _ & [->| ->] & X2); [|apply proj1 in X2; specialize (X2 eq_refl); lra].
    assert (D : d = (-1)%Z) by (apply K3; split; [lia|]; split; [lra|]; intros k Hk; rewrite V by lia; destruct k as [|[|[|k]]]; try lia; reflexivity). now rewrite D.
  - change (@SimpleMovingAverageCrossoverSignal ER 2 1) with (@SimpleMovingAverageCrossoverSignal ER (Z.of_nat 2) (Z.of_nat 1)). rewrite E'. do 4 f_equal.
    destruct sg' as [|a [|b [|c [|d [|e sg']]]]]; try discriminate L'. cbn [length] in K'.
    assert (K0 := K' 0%nat ltac:(lia)). assert (K1 := K' 1%nat ltac:(lia)). assert (K2 := K' 2%nat ltac:(lia)). assert (K3 := K' 3%nat ltac:(lia)). cbn [nth] in K0, K1, K2, K3.
    destruct K0 as (_ & -> & _), K1 as (_ & -> & _), K2 as (_ & -> & _), K3 as (_ & -> & _). reflexivity.
Qed.
