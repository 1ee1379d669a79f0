(** * RiseFacts: what the indicators say while the prices only rise (C80). *)
From Coq Require Import Reals Lra List ZArith Bool Lia.
From Verif Require Import Num Py Tensor Streamable Common Finance Series Formulas Positions ER MovingFacts Linear RealFacts RealStats RealMarket RealMirror RealLinear RealScale RealScale2 NormFacts ReturnFacts
  SignalFacts ImplBasic ImplComp ImplScalar ImplWindow ImplCorr ImplMarket MarketFacts MarketReal StatFacts Accuracy AccuracyMain AccuracyMarket Index AccuracyIndex Order OrderFacts Steady SteadyFacts SteadyMarket
  Super SuperFacts SuperNum Agree AgreeFacts Line LineFacts UnitsFacts SwappedFacts Rise.
Import ListNotations.
Local Open Scope R_scope.

(** ** Histories, newest first *)
Fixpoint stairs (h : list R) : Prop := match h with x :: r => match r with y :: _ => y <= x | [] => True end /\ stairs r | [] => True end.
Lemma upto_stairs xs : rising xs -> forall n, (n < length xs)%nat -> stairs (upto n xs).
Proof.
  intros H. induction n as [|n IH]; intros L; [rewrite (SignalFacts.upto_0 _ 0) by exact L; cbn; auto|].
  rewrite upto_next by exact L. destruct (upto_head n xs ltac:(lia)) as [r E]. cbn [stairs]. split; [|apply IH; lia]. rewrite E. apply H, L.
Qed.
Lemma stairs_top x h : stairs (x :: h) -> Forall (fun y => y <= x) h.
Proof.
  revert x. induction h as [|y h IH]; intros x H; constructor; [apply H|]. destruct H as [H1 H2]. eapply Forall_impl; [|apply IH, H2]. intros z Hz. cbn in Hz. lra.
Qed.
Lemma stairs_firstn p : forall h, stairs h -> stairs (firstn p h).
Proof.
  induction p as [|p IH]; intros [|x h] H; cbn [firstn]; try exact I. destruct H as [H1 H2]. split; [|now apply IH]. destruct p, h; cbn; auto.
Qed.
Lemma rmean_upper l c : l <> [] -> Forall (fun y => y <= c) l -> rmean l <= c.
Proof.
  intros NE H. unfold rmean. assert (P : 0 < INR (length l)) by (apply lt_0_INR; destruct l; [contradiction|cbn; lia]).
  apply Rmult_le_reg_r with (INR (length l)); [exact P|]. replace (rsum l / INR (length l) * INR (length l)) with (rsum l) by (field; lra).
  clear NE P. induction H as [|x l Hx _ IH]; [cbn; lra|]. change (rsum (x :: l)) with (x + rsum l). cbn [length]. rewrite S_INR. lra.
Qed.
Lemma rmean_lower l c : l <> [] -> Forall (fun y => c <= y) l -> c <= rmean l.
Proof.
  intros NE H. unfold rmean. assert (P : 0 < INR (length l)) by (apply lt_0_INR; destruct l; [contradiction|cbn; lia]).
  apply Rmult_le_reg_r with (INR (length l)); [exact P|]. replace (rsum l / INR (length l) * INR (length l)) with (rsum l) by (field; lra).
  clear NE P. induction H as [|x l Hx _ IH]; [cbn; lra|]. change (rsum (x :: l)) with (x + rsum l). cbn [length]. rewrite S_INR. lra.
Qed.
(** A mean moves towards a new number by the part 1 / n. *)
Lemma rmean_cons x l : l <> [] -> rmean (x :: l) = rmean l + 1 / INR (S (length l)) * (x - rmean l).
Proof.
  intros NE. unfold rmean. change (rsum (x :: l)) with (x + rsum l). cbn [length]. rewrite S_INR.
  assert (P : 0 < INR (length l)) by (apply lt_0_INR; destruct l; [contradiction|cbn; lia]). field. lra.
Qed.
Lemma blend_le a b e f x : 0 <= a <= b -> b <= 1 -> e <= f -> e <= x -> e + a * (x - e) <= f + b * (x - f).
Proof.
  intros A B E X. assert (0 <= (1 - b) * (f - e)) by (apply Rmult_le_pos; lra). assert (0 <= (b - a) * (x - e)) by (apply Rmult_le_pos; lra). lra.
Qed.
Lemma blend_top a e x : 0 <= a <= 1 -> e <= x -> e <= e + a * (x - e) <= x.
Proof.
  intros A X. assert (0 <= a * (x - e)) by (apply Rmult_le_pos; lra). assert (0 <= (1 - a) * (x - e)) by (apply Rmult_le_pos; lra). lra.
Qed.

(** ** A general average: the mean of the first [p] numbers, then a step of the part [a] towards every new number. *)
Fixpoint ravg (a : R) (p : nat) (h : list R) : R :=
  match h with
  | [] => 0
  | x :: r => if (length h <=? p)%nat then rsma p h else ravg a p r + a * (x - ravg a p r)
  end.
Lemma rema_avg p h : rema p h = ravg (2 / (INR p + 1)) p h.
Proof. induction h as [|x h IH]; [reflexivity|]. cbn [rema ravg]. destruct (_ <=? p)%nat; [reflexivity|]. rewrite IH. ring. Qed.
Lemma rrma_avg p h : (1 <= p)%nat -> rrma p h = ravg (1 / INR p) p h.
Proof. intros Hp. assert (P := INR_pos p Hp). induction h as [|x h IH]; [reflexivity|]. cbn [rrma ravg]. destruct (_ <=? p)%nat; [reflexivity|]. rewrite IH. field. lra. Qed.
Lemma rsma_exact h : rsma (length h) h = rmean h.
Proof. unfold rsma. rewrite Nat.ltb_irrefl, firstn_all. reflexivity. Qed.
Lemma avg_top a p x h : 0 <= a <= 1 -> (1 <= p <= S (length h))%nat -> stairs (x :: h) -> ravg a p (x :: h) <= x.
Proof.
  intros A. revert x. induction h as [|y h IH]; intros x L H.
  - cbn [ravg length]. destruct (Nat.leb_spec 1 p); [|lia]. cbn [length] in L. replace p with (length [x]) by (cbn; lia). rewrite rsma_exact. apply rmean_upper; [discriminate|]. constructor; [lra|constructor].
  - cbn [ravg]. destruct (Nat.leb_spec (length (x :: y :: h)) p) as [Q|Q].
    + cbn [length] in L, Q. replace p with (length (x :: y :: h)) by (cbn [length]; lia). rewrite rsma_exact. apply rmean_upper; [discriminate|]. constructor; [lra|]. now apply stairs_top.
    + apply blend_top; [exact A|]. destruct H as [H1 H2]. assert (I := IH y). cbn [length] in *. specialize (I ltac:(lia) H2). exact (Rle_trans _ _ _ I H1).
Qed.
(** It never falls. *)
Lemma avg_rises a p x h : 0 <= a <= 1 -> (1 <= p <= length h)%nat -> stairs (x :: h) -> ravg a p h <= ravg a p (x :: h).
Proof.
  intros A L H. cbn [ravg]. destruct (Nat.leb_spec (length (x :: h)) p) as [Q|Q]; [cbn [length] in Q; lia|]. apply blend_top; [exact A|].
  destruct h as [|y h]; [cbn in L; lia|]. destruct H as [H1 H2]. assert (T := avg_top a p y h A). cbn [length] in *. specialize (T ltac:(lia) H2). lra.
Qed.
(** It is not below the plain mean of everything seen, if the part is at least 1 / p. *)
Lemma avg_mean a p h : (1 <= p <= length h)%nat -> 1 / INR p <= a <= 1 -> stairs h -> rmean h <= ravg a p h.
Proof.
  intros [Hp L] A. assert (P := INR_pos p Hp). assert (A0 : 0 <= a) by (assert (0 < 1 / INR p) by (apply Rdiv_lt_0_compat; lra); lra).
  revert L. induction h as [|x h IH]; intros L H; [cbn in L; lia|]. cbn [ravg].
  destruct (Nat.leb_spec (length (x :: h)) p) as [Q|Q]; [replace p with (length (x :: h)) by lia; rewrite rsma_exact; lra|].
  cbn [length] in *. assert (NE : h <> []) by (destruct h; [cbn in Q; lia|discriminate]). rewrite rmean_cons by exact NE. apply blend_le.
  - split; [apply Rlt_le, Rdiv_lt_0_compat; [lra|apply lt_0_INR; lia]|]. eapply Rle_trans; [|apply A]. unfold Rdiv. rewrite !Rmult_1_l. apply Rinv_le_contravar; [exact P|]. apply le_INR. lia.
  - apply A.
  - apply IH; [lia|apply H].
  - apply rmean_upper; [exact NE|now apply stairs_top].
Qed.
(** The one with the larger part and the shorter seed is above. *)
Lemma avg_order a p b q h : (1 <= p <= q)%nat -> (q <= length h)%nat -> 0 <= b <= a -> 1 / INR p <= a <= 1 -> stairs h -> ravg b q h <= ravg a p h.
Proof.
  intros Hp L B A. revert L. induction h as [|x h IH]; intros L H; [cbn in L; lia|].
  destruct (Nat.eq_dec (length (x :: h)) q) as [Q|Q].
  - assert (E : ravg b q (x :: h) = rmean (x :: h)) by (cbn [ravg]; rewrite <- Q, Nat.leb_refl; apply rsma_exact). rewrite E. apply avg_mean; [lia|exact A|exact H].
  - cbn [ravg]. destruct (Nat.leb_spec (length (x :: h)) q); [lia|]. destruct (Nat.leb_spec (length (x :: h)) p); [lia|]. cbn [length] in *.
    destruct h as [|y h]; [cbn in *; lia|]. destruct H as [S1 S2]. apply blend_le; [lra|lra|apply IH; [cbn [length] in *; lia|exact S2]|].
    assert (T := avg_top b q y h ltac:(lra)). cbn [length] in *. specialize (T ltac:(lia) S2). exact (Rle_trans _ _ _ T S1).
Qed.

(** ** The simple average *)
Lemma stairs_nth h : stairs h -> forall i j, (i <= j < length h)%nat -> nth j h 0 <= nth i h 0.
Proof.
  induction h as [|x h IH]; intros H i j L; [cbn in L; lia|]. destruct j as [|j]; [replace i with 0%nat by lia; lra|]. destruct i as [|i].
  - cbn [nth]. assert (T := stairs_top x h H). rewrite Forall_forall in T. apply T, nth_In. cbn [length] in L. lia.
  - cbn [nth]. apply IH; [apply H|cbn [length] in L; lia].
Qed.
Lemma firstn_snoc (h : list R) : forall p, (p < length h)%nat -> firstn (S p) h = firstn p h ++ [nth p h 0].
Proof. induction h as [|x h IH]; intros [|p] L; cbn [length] in L; try lia; [reflexivity|]. cbn [firstn app nth]. f_equal. change (match h with [] => [] | a :: l => a :: firstn p l end) with (firstn (S p) h). apply IH. lia. Qed.
Lemma rsum_snoc l x : rsum (l ++ [x]) = rsum l + x.
Proof. unfold rsum. induction l as [|y l IH]; cbn; [ring|]. rewrite IH. ring. Qed.
Lemma sma_order_step p h : (1 <= p)%nat -> (S p <= length h)%nat -> stairs h -> rmean (firstn (S p) h) <= rmean (firstn p h).
Proof.
  intros Hp L H. rewrite firstn_snoc by lia. assert (Lp : length (firstn p h) = p) by (rewrite firstn_length; lia).
  assert (B : nth p h 0 <= rmean (firstn p h)).
  { apply rmean_lower; [intros E; rewrite E in Lp; cbn in Lp; lia|]. apply Forall_forall. intros y Hy. apply (In_nth _ _ 0) in Hy as (i & Hi & <-). rewrite Lp in Hi.
    rewrite nth_firstn by exact Hi. apply stairs_nth; [exact H|lia]. }
  unfold rmean in *. rewrite rsum_snoc, app_length, Lp in *. cbn [length]. rewrite Nat.add_1_r, S_INR. assert (P := INR_pos p Hp).
  set (s := rsum (firstn p h)) in *. apply Rmult_le_reg_r with (INR p + 1); [lra|]. replace ((s + nth p h 0) / (INR p + 1) * (INR p + 1)) with (s + nth p h 0) by (field; lra).
  replace (s / INR p * (INR p + 1)) with (s + s / INR p) by (field; lra). lra.
Qed.
Lemma sma_order p q h : (1 <= p <= q)%nat -> (q <= length h)%nat -> stairs h -> rmean (firstn q h) <= rmean (firstn p h).
Proof.
  intros [Hp Hq] L H. induction Hq as [|q Hq IH]; [lra|]. eapply Rle_trans; [apply sma_order_step; [lia|exact L|exact H]|]. apply IH. lia.
Qed.
Lemma sma_rises p x h : (1 <= p <= length h)%nat -> stairs (x :: h) -> rsma p h <= rsma p (x :: h).
Proof.
  intros [Hp L] H. unfold rsma. cbn [length]. destruct (Nat.ltb_spec (length h) p); [lia|]. destruct (Nat.ltb_spec (S (length h)) p); [lia|].
  destruct p as [|p]; [lia|]. change (firstn (S p) (x :: h)) with (x :: firstn p h). rewrite firstn_snoc by lia. unfold rmean. rewrite rsum_snoc, app_length. cbn [length]. rewrite firstn_length.
  replace (Nat.min p (length h)) with p by lia. rewrite Nat.add_1_r. change (rsum (x :: firstn p h)) with (x + rsum (firstn p h)).
  apply Rmult_le_compat_r; [apply Rlt_le, Rinv_0_lt_compat, lt_0_INR; lia|]. assert (T := stairs_top x h H). rewrite Forall_forall in T. assert (I : In (nth p h 0) h) by (apply nth_In; lia). specialize (T _ I). lra.
Qed.
Lemma sma_top p x h : (1 <= p <= S (length h))%nat -> stairs (x :: h) -> rsma p (x :: h) <= x.
Proof.
  intros L H. unfold rsma. destruct (Nat.ltb_spec (length (x :: h)) p); [cbn [length] in *; lia|]. apply rmean_upper; [destruct p; [lia|discriminate]|].
  destruct p as [|p]; [lia|]. cbn [firstn]. constructor; [lra|]. assert (T := stairs_top x h H). rewrite Forall_forall in *. intros y Hy. apply T. rewrite <- (firstn_skipn p h). apply in_or_app. now left.
Qed.
Lemma sma_seen p h : (p <= length h)%nat -> rsma p h = rmean (firstn p h).
Proof. intros L. unfold rsma. destruct (Nat.ltb_spec (length h) p); [lia|reflexivity]. Qed.

(** ** Averages *)
Lemma part_rma p : (1 <= p)%nat -> 0 <= 1 / INR p <= 1.
Proof.
  intros Hp. assert (P := INR_pos p Hp). assert (1 <= INR p) by (apply (le_INR 1); exact Hp). split; [apply Rlt_le, Rdiv_lt_0_compat; lra|].
  apply Rmult_le_reg_r with (INR p); [lra|]. replace (1 / INR p * INR p) with 1 by (field; lra). lra.
Qed.
Lemma part_ema p : (1 <= p)%nat -> 1 / INR p <= 2 / (INR p + 1) <= 1.
Proof.
  intros Hp. assert (P := INR_pos p Hp). assert (1 <= INR p) by (apply (le_INR 1); exact Hp). split.
  - apply Rmult_le_reg_r with (INR p * (INR p + 1)); [apply Rmult_lt_0_compat; lra|]. replace (1 / INR p * (INR p * (INR p + 1))) with (INR p + 1) by (field; lra).
    replace (2 / (INR p + 1) * (INR p * (INR p + 1))) with (2 * INR p) by (field; lra). lra.
  - apply Rmult_le_reg_r with (INR p + 1); [lra|]. replace (2 / (INR p + 1) * (INR p + 1)) with 2 by (field; lra). lra.
Qed.
Lemma parts_order p q : (1 <= p <= q)%nat -> 1 / INR q <= 1 / INR p /\ 2 / (INR q + 1) <= 2 / (INR p + 1).
Proof.
  intros [Hp Hq]. assert (P := INR_pos p Hp). assert (Q : INR p <= INR q) by (apply le_INR, Hq). split.
  - unfold Rdiv. apply Rmult_le_compat_l; [lra|]. apply Rinv_le_contravar; lra.
  - unfold Rdiv. apply Rmult_le_compat_l; [lra|]. apply Rinv_le_contravar; lra.
Qed.
Theorem averages_rise p q xs : (1 <= p <= q)%nat -> countable xs -> rising xs ->
  exists sma_p sma_q ema_p ema_q rma_p rma_q,
    outputs (SimpleMovingAverage (Z.of_nat p)) xs sma_p /\ outputs (SimpleMovingAverage (Z.of_nat q)) xs sma_q /\
    outputs (ExponentialMovingAverage (Z.of_nat p)) xs ema_p /\ outputs (ExponentialMovingAverage (Z.of_nat q)) xs ema_q /\
    outputs (RollingMovingAverage (Z.of_nat p)) xs rma_p /\ outputs (RollingMovingAverage (Z.of_nat q)) xs rma_q /\
    forall n, (n < length xs)%nat ->
      ((p <= n + 1)%nat -> at_pos sma_p n <= at_pos xs n /\ at_pos rma_p n <= at_pos ema_p n <= at_pos xs n) /\
      ((q <= n + 1)%nat -> at_pos sma_q n <= at_pos sma_p n /\ at_pos ema_q n <= at_pos ema_p n /\ at_pos rma_q n <= at_pos rma_p n) /\
      ((p <= n + 1)%nat -> (S n < length xs)%nat -> at_pos sma_p n <= at_pos sma_p (S n) /\ at_pos ema_p n <= at_pos ema_p (S n) /\ at_pos rma_p n <= at_pos rma_p (S n)).
Proof.
  intros [Hp Hq] C H. do 6 eexists. split; [exact (sma_outputs xs C p Hp)|]. split; [apply (sma_outputs xs C q); lia|]. split; [exact (ema_outputs xs C p Hp)|].
  split; [apply (ema_outputs xs C q); lia|]. split; [exact (rma_outputs xs C p Hp)|]. split; [apply (rma_outputs xs C q); lia|].
  assert (A1 := part_rma p Hp). assert (A2 := part_ema p Hp). assert (A3 := part_rma q ltac:(lia)). assert (A4 := part_ema q ltac:(lia)). destruct (parts_order p q (conj Hp Hq)) as [B1 B2].
  intros n Hn. rewrite !run_at by exact Hn. assert (S := upto_stairs xs H n Hn). assert (Lh := upto_length n xs Hn). destruct (upto_head n xs Hn) as [r Er]. change (nth n xs 0) with (at_pos xs n) in Er.
  split; [|split].
  - intros L. rewrite rema_avg, rrma_avg by exact Hp. assert (O := avg_order (2 / (INR p + 1)) p (1 / INR p) p (upto n xs) ltac:(lia) ltac:(lia) ltac:(lra) ltac:(lra) S).
    rewrite Er in *. cbn [length] in Lh. assert (T := avg_top (2 / (INR p + 1)) p (at_pos xs n) r ltac:(lra) ltac:(lia) S). assert (U := sma_top p (at_pos xs n) r ltac:(lia) S). lra.
  - intros L. rewrite !sma_seen, !rema_avg, !rrma_avg by lia. split; [apply sma_order; lia || assumption|]. split; apply avg_order; lia || lra || assumption.
  - intros L L2. rewrite !run_at by exact L2. assert (S' := upto_stairs xs H (Datatypes.S n) L2). rewrite upto_next in * by exact L2. rewrite !rema_avg, !rrma_avg by exact Hp.
    split; [apply sma_rises; [lia|exact S']|]. split; apply avg_rises; lia || lra || assumption.
Qed.

(** ** Crossovers *)
Lemma avg_nonneg a p h : 0 <= a <= 1 -> (1 <= p)%nat -> Forall (fun x => 0 <= x) h -> 0 <= ravg a p h.
Proof.
  intros A Hp H. induction H as [|x h Hx H IH]; [cbn; lra|]. cbn [ravg]. destruct (Nat.leb_spec (length (x :: h)) p) as [L|L].
  - unfold rsma. destruct (Nat.ltb_spec (length (x :: h)) p); [lra|]. apply rmean_lower; [destruct p; [lia|discriminate]|]. apply Forall_firstn. now constructor.
  - replace (ravg a p h + a * (x - ravg a p h)) with ((1 - a) * ravg a p h + a * x) by ring. apply Rplus_le_le_0_compat; apply Rmult_le_pos; lra.
Qed.
Lemma crossover_nonneg slow fast h : (1 <= fast <= slow)%nat -> stairs h -> 0 <= rcrossover slow fast h.
Proof.
  intros Hp H. unfold rcrossover. destruct (Nat.ltb_spec (length h) slow) as [L|L]; [unfold rsma; destruct (Nat.ltb_spec (length h) slow); [lra|lia]|].
  rewrite !sma_seen by lia. assert (O := sma_order fast slow h Hp L H). lra.
Qed.
Lemma macd_nonneg slow fast h : (1 <= fast <= slow)%nat -> stairs h -> 0 <= rmacd slow fast h.
Proof.
  intros [Hp Hq] H. unfold rmacd. destruct (Nat.ltb_spec (length h) slow) as [L|L]; [lra|]. rewrite !rema_avg.
  assert (A1 := part_ema fast Hp). assert (A2 := part_ema slow ltac:(lia)). assert (A3 := part_rma slow ltac:(lia)). destruct (parts_order fast slow (conj Hp Hq)) as [B1 B2].
  assert (O := avg_order (2 / (INR fast + 1)) fast (2 / (INR slow + 1)) slow h (conj Hp Hq) L ltac:(lra) ltac:(lra) H). lra.
Qed.
Lemma trail_nonneg (g : list R -> R) h : (forall k, stairs k -> 0 <= g k) -> stairs h -> Forall (fun x => 0 <= x) (trail g h).
Proof. intros G. induction h as [|x h IH]; intros H; [constructor|]. cbn [trail]. constructor; [now apply G|apply IH, H]. Qed.
Lemma side_nonneg l : Forall (fun x => 0 <= x) l -> @side ER (map Fin l) = true.
Proof.
  intros H. induction H as [|x l Hx H IH]; [reflexivity|]. cbn [map side]. change (@flt ER (Fin x) f0) with (Rltb x 0). change (@flt ER f0 (Fin x)) with (Rltb 0 x). unfold Rltb.
  destruct (Rlt_dec x 0); [lra|]. destruct (Rlt_dec 0 x); [reflexivity|exact IH].
Qed.
Lemma crossing_nonneg l : Forall (fun x => 0 <= x) l -> @crossing ER (map Fin l) = 0%Z.
Proof.
  intros H. destruct l as [|x [|y l]]; [reflexivity..|]. assert (S1 := side_nonneg _ H). assert (S2 := side_nonneg (y :: l) ltac:(now inversion H)).
  unfold crossing. cbn [map] in *. rewrite S1, S2. reflexivity.
Qed.
Theorem crossovers_rise slow fast m xs : (1 <= fast <= slow)%nat -> (1 <= m)%nat -> countable xs -> rising xs ->
  exists cross signals s f macd signal histogram sf s0 sf' s0',
    outputs (SimpleMovingAverageCrossover (Z.of_nat slow) (Z.of_nat fast)) xs cross /\
    call (SimpleMovingAverageCrossoverSignal (Z.of_nat slow) (Z.of_nat fast)) (reals xs) None true = Ok (@ints ER signals, sf, s0) /\ length signals = length xs /\
    call (MovingAverageConvergenceDivergence (Z.of_nat slow) (Z.of_nat fast) (Z.of_nat m)) (reals xs) None true =
      Ok (Tup [reals s; reals f; reals macd; reals signal; reals histogram], sf', s0') /\ length macd = length xs /\ length signal = length xs /\
    forall n, (n < length xs)%nat -> 0 <= at_pos cross n /\ nth n signals 0%Z = 0%Z /\ 0 <= at_pos macd n /\ 0 <= at_pos signal n.
Proof.
  intros Hp Hm C H. destruct (signal_outputs slow fast xs) as (sf & s0 & E1); [lia|lia|exact C|]. destruct (macd_outputs slow fast m xs) as (sf' & s0' & E2); [lia|lia|exact Hm|exact C|].
  do 7 eexists. exists sf, s0, sf', s0'. split; [apply crossover_outputs; [lia|lia|exact C]|]. split; [exact E1|]. split; [now rewrite map_length, hists_length|]. split; [exact E2|].
  rewrite !run_length. do 2 (split; [reflexivity|]). intros n Hn. rewrite !run_at by exact Hn. assert (S := upto_stairs xs H n Hn). split; [now apply crossover_nonneg|]. split; [|split].
  - rewrite nth_map_hists by exact Hn. unfold rsignal. destruct (_ <=? slow)%nat; [reflexivity|]. apply crossing_nonneg, trail_nonneg; [|exact S]. intros k K. now apply crossover_nonneg.
  - now apply macd_nonneg.
  - unfold rmacd_signal. destruct (_ <? slow)%nat; [lra|]. rewrite rema_avg. assert (A := part_ema m Hm). assert (A' := part_rma m Hm). apply avg_nonneg; [lra|exact Hm|]. apply Forall_firstn, trail_nonneg; [|exact S].
    intros k K. now apply macd_nonneg.
Qed.

(** ** Extrema, changes, drawdown *)
Lemma high_is m l x : is_high m -> In x l -> (forall y, In y l -> y <= x) -> m l = x.
Proof. intros M I U. destruct (M l) as [J V]; [intros ->; exact I|]. specialize (U _ J). specialize (V _ I). lra. Qed.
Lemma low_is m l x : is_low m -> In x l -> (forall y, In y l -> x <= y) -> m l = x.
Proof. intros M I U. destruct (M l) as [J V]; [intros ->; exact I|]. specialize (U _ J). specialize (V _ I). lra. Qed.
Lemma upto_nth xs n i : (n < length xs)%nat -> (i <= n)%nat -> nth i (upto n xs) 0 = at_pos xs (n - i).
Proof.
  intros Hn Hi. unfold upto, at_pos. rewrite rev_nth by (rewrite firstn_length; lia). rewrite firstn_length. replace (Nat.min (S n) (length xs) - S i)%nat with (n - i)%nat by lia. apply nth_firstn. lia.
Qed.
Theorem extrema_rise p xs : (1 <= p)%nat -> (Z.of_nat p < 2147483648)%Z -> countable xs -> rising xs ->
  exists gmin gmax lmin lmax mom,
    outputs GlobalMinimum xs gmin /\ outputs GlobalMaximum xs gmax /\ outputs (LocalMinimum (Z.of_nat p)) xs lmin /\ outputs (LocalMaximum (Z.of_nat p)) xs lmax /\
    outputs (Momentum (Z.of_nat p)) xs mom /\
    forall n, (n < length xs)%nat ->
      at_pos gmin n = at_pos xs 0 /\ at_pos gmax n = at_pos xs n /\ at_pos lmin n = at_pos xs (n + 1 - p) /\ at_pos lmax n = at_pos xs n /\ 0 <= at_pos mom n.
Proof.
  intros Hp Hb C H. destruct (gmin_outputs xs C) as (g1 & G1 & E1). destruct (gmax_outputs xs C) as (g2 & G2 & E2). destruct (lmin_outputs xs C p Hp Hb) as (g3 & G3 & E3). destruct (lmax_outputs xs C p Hp Hb) as (g4 & G4 & E4).
  do 5 eexists. split; [exact E1|]. split; [exact E2|]. split; [exact E3|]. split; [exact E4|]. split; [exact (momentum_outputs xs C p Hp)|].
  intros n Hn. rewrite !run_at by exact Hn. assert (S := upto_stairs xs H n Hn). assert (Lh := upto_length n xs Hn).
  assert (K : forall q, (1 <= q)%nat -> forall y, In y (firstn q (upto n xs)) -> at_pos xs (n + 1 - Nat.min q (n + 1)) <= y <= at_pos xs n).
  { intros q Hq y Hy. apply (In_nth _ _ 0) in Hy as (i & Hi & <-). rewrite firstn_length in Hi. rewrite nth_firstn by lia. split.
    - replace (n + 1 - Nat.min q (n + 1))%nat with (n - (Nat.min q (n + 1) - 1))%nat by lia. rewrite <- upto_nth by lia. apply stairs_nth; [exact S|lia].
    - replace (at_pos xs n) with (nth 0 (upto n xs) 0) by (rewrite upto_nth by lia; now rewrite Nat.sub_0_r). apply stairs_nth; [exact S|lia]. }
  assert (I : forall q i, (i < Nat.min q (n + 1))%nat -> In (at_pos xs (n - i)) (firstn q (upto n xs))).
  { intros q i Hi. rewrite <- upto_nth by lia. rewrite <- (nth_firstn i q (upto n xs) 0) by lia. apply nth_In. rewrite firstn_length. lia. }
  assert (All : upto n xs = firstn (n + 1) (upto n xs)) by (rewrite firstn_all2; [reflexivity|lia]).
  split; [|split; [|split; [|split]]].
  - rewrite All. apply (low_is g1); [exact G1| |].
    + assert (J := I (n + 1)%nat n ltac:(lia)). rewrite Nat.sub_diag in J. exact J.
    + intros y Hy. apply (K (n + 1)%nat ltac:(lia)) in Hy. rewrite Nat.min_id, Nat.sub_diag in Hy. lra.
  - rewrite All. apply (high_is g2); [exact G2| |].
    + assert (J := I (n + 1)%nat 0%nat ltac:(lia)). rewrite Nat.sub_0_r in J. exact J.
    + intros y Hy. apply (K (n + 1)%nat ltac:(lia)) in Hy. lra.
  - apply (low_is g3); [exact G3| |].
    + assert (J := I p (Nat.min p (n + 1) - 1)%nat ltac:(lia)). replace (n - (Nat.min p (n + 1) - 1))%nat with (n + 1 - p)%nat in J by lia. exact J.
    + intros y Hy. apply (K p Hp) in Hy. replace (n + 1 - Nat.min p (n + 1))%nat with (n + 1 - p)%nat in Hy by lia. lra.
  - apply (high_is g4); [exact G4| |].
    + assert (J := I p 0%nat ltac:(lia)). rewrite Nat.sub_0_r in J. exact J.
    + intros y Hy. apply (K p Hp) in Hy. lra.
  - unfold rmomentum. rewrite Lh. destruct (Nat.leb_spec (Datatypes.S n) p); [lra|]. assert (Q := stairs_nth _ S 0%nat p ltac:(lia)). lra.
Qed.
Lemma peak_below x r : Forall (fun y => y <= x) r -> rpeak r <= Rmax 0 x.
Proof. intros H. induction H as [|y r Hy H IH]; [apply Rmax_l|]. cbn [rpeak]. apply Rmax_lub; [|exact IH]. eapply Rle_trans; [exact Hy|apply Rmax_r]. Qed.
Lemma depth_rise h : stairs h -> rdrawdown h = 0.
Proof.
  destruct h as [|x r]; intros H; [reflexivity|]. unfold rdrawdown. destruct (Rlt_dec (rpeak r) (1 / 10000)); [reflexivity|]. apply Rmin_left.
  assert (B := peak_below x r (stairs_top x r H)). assert (X : rpeak r <= x) by (unfold Rmax in B; destruct (Rle_dec 0 x); lra).
  assert (1 <= x / rpeak r); [|lra]. apply Rmult_le_reg_r with (rpeak r); [lra|]. replace (x / rpeak r * rpeak r) with x by (field; lra). lra.
Qed.
Theorem drawdown_rise xs : countable xs -> rising xs ->
  exists depths sf s0, call Drawdown (reals xs) None true = Ok (drawdown_reals depths, sf, s0) /\ length depths = length xs /\
    forall n, (n < length xs)%nat -> fst (nth n depths (0, 0%Z)) = 0.
Proof.
  intros C H. destruct (@drawdown_streams ER) as (st & B & _). exists (map (fun h => (rdrawdown h, @under_water ER (map Fin h))) (hists [] xs)). do 2 eexists.
  split. { unfold reals. rewrite B; [|apply map_some, C|unfold below31; rewrite rev_length, map_length; apply C]. unfold drawdown_reals. do 4 f_equal.
    change (@nil (@F ER)) with (map Fin []). change (@F ER) with ext. rewrite hists_map, !map_map. apply map_ext. intros h. cbn [fst snd]. f_equal. apply rdrawdown_fin. }
  split; [now rewrite map_length, hists_length|]. intros n Hn. rewrite (nth_map_hists (fun h => (rdrawdown h, @under_water ER (map Fin h))) xs) by exact Hn. cbn [fst]. apply depth_rise, upto_stairs; assumption.
Qed.

(** ** Relative strength *)
Lemma changes_nonneg h : stairs h -> Forall (fun c => 0 <= c) (rchanges h).
Proof.
  induction h as [|x [|y h] IH]; intros H; [constructor..|]. destruct H as [H1 H2]. change (rchanges (x :: y :: h)) with ((x - y) :: rchanges (y :: h)). constructor; [lra|now apply IH].
Qed.
Lemma some_change h x : stairs (x :: h) -> Exists (fun c => 0 < c) (rchanges (x :: h)) \/ Forall (fun y => y = x) (x :: h).
Proof.
  revert x. induction h as [|y h IH]; intros x H; [right; repeat constructor|]. destruct H as [H1 H2]. change (rchanges (x :: y :: h)) with ((x - y) :: rchanges (y :: h)).
  destruct (Rlt_dec y x); [left; constructor; lra|]. assert (y = x) by lra. subst y. destruct (IH x H2) as [E|E]; [left; now constructor|right; now constructor].
Qed.
Lemma no_loss c : Forall (fun x => 0 <= x) c -> map dn c = map (fun _ => 0) c /\ map up c = c /\ map Rabs c = c.
Proof.
  intros H. induction H as [|x c Hx H (I1 & I2 & I3)]; [repeat split|]. cbn [map]. rewrite I1, I2, I3. rewrite Rabs_right by lra. unfold dn, up. rewrite Rmax_left, Rmax_right by lra. repeat split.
Qed.
Lemma rrma_zeros p (c : list R) : rrma p (map (fun _ => 0) c) = 0.
Proof.
  induction c as [|x c IH]; [reflexivity|]. cbn [map rrma]. rewrite IH. destruct (_ <=? p)%nat; [|unfold Rdiv; ring]. unfold rsma. destruct (_ <? p)%nat; [reflexivity|].
  unfold rmean. assert (E : forall q (d : list R), rsum (firstn q (map (fun _ => 0) d)) = 0).
  { clear. intros q d. revert q. induction d as [|y d IH]; intros [|q]; try reflexivity. cbn [map firstn]. unfold rsum in *. cbn [fold_right]. rewrite IH. ring. }
  change (0 :: map (fun _ => 0) c) with (map (fun _ : R => 0) (x :: c)). rewrite E. unfold Rdiv. ring.
Qed.
Lemma rsum_nonneg l : Forall (fun x => 0 <= x) l -> 0 <= rsum l.
Proof. intros H. induction H as [|x l Hx H IH]; unfold rsum in *; cbn [fold_right]; lra. Qed.
Lemma rsum_some l : Forall (fun x => 0 <= x) l -> Exists (fun x => 0 < x) l -> 0 < rsum l.
Proof.
  intros H E. induction E as [x l Hx|x l E IH]; inversion H; subst; unfold rsum in *; cbn [fold_right].
  - assert (Q := rsum_nonneg l H3). unfold rsum in Q. lra.
  - specialize (IH H3). lra.
Qed.
Lemma rrma_nonneg_list p c : (1 <= p)%nat -> Forall (fun x => 0 <= x) c -> 0 <= rrma p c.
Proof. intros Hp H. rewrite rrma_avg by exact Hp. apply avg_nonneg; [now apply part_rma|exact Hp|exact H]. Qed.
Lemma rrma_some p c : (2 <= p <= length c)%nat -> Forall (fun x => 0 <= x) c -> Exists (fun x => 0 < x) c -> 0 < rrma p c.
Proof.
  intros [Hp L] H E. assert (P := INR_pos p ltac:(lia)). assert (P2 : 2 <= INR p) by (apply (le_INR 2), Hp). induction c as [|x c IH]; [inversion E|]. cbn [rrma].
  destruct (Nat.leb_spec (length (x :: c)) p) as [Q|Q].
  - replace p with (length (x :: c)) by lia. rewrite rsma_exact. unfold rmean. apply Rdiv_lt_0_compat; [now apply rsum_some|apply lt_0_INR; cbn; lia].
  - cbn [length] in *. inversion H; subst. assert (0 <= rrma p c) by (apply rrma_nonneg_list; [lia|assumption]). apply Rdiv_lt_0_compat; [|exact P].
    inversion E; subst; [assert (0 <= rrma p c * (INR p - 1)) by (apply Rmult_le_pos; lra); lra|]. assert (0 < rrma p c) by (apply IH; lia || assumption). assert (0 < rrma p c * (INR p - 1)) by (apply Rmult_lt_0_compat; lra). lra.
Qed.
Lemma rsi_rise p h : (1 <= p)%nat -> (p < length h)%nat -> stairs h -> @rsi ER p (map Fin h) = if Rlt_dec 0 (rrma p (rchanges h)) then Fin 100 else NaN.
Proof.
  intros Hp L H. assert (N := changes_nonneg h H). destruct (no_loss _ N) as (D & U & A). assert (G := rrma_nonneg_list p _ Hp N). destruct (Rlt_dec 0 (rrma p (rchanges h))) as [P|P].
  - rewrite rsi_exact; [|exact Hp|exact L|unfold average_move; now rewrite A]. rewrite D, U, rrma_zeros. f_equal. field. lra.
  - assert (Z : rrma p (rchanges h) = 0) by lra. apply rsi_nan; [exact L|rewrite gain_fin, rwilder_rrma, U, Z by exact Hp; reflexivity|rewrite loss_fin, rwilder_rrma, D, rrma_zeros by exact Hp; reflexivity].
Qed.
Lemma rchanges_length h : length (rchanges h) = (length h - 1)%nat.
Proof. induction h as [|x [|y h] IH]; [reflexivity..|]. change (rchanges (x :: y :: h)) with ((x - y) :: rchanges (y :: h)). cbn [length] in *. rewrite IH. lia. Qed.
Theorem strength_rise p xs : (2 <= p)%nat -> countable xs -> rising xs ->
  exists (index : list ext) sf s0, call (RelativeStrengthIndex (Z.of_nat p)) (reals xs) None true = Ok (@scalars ER index, sf, s0) /\ length index = length xs /\
    forall n, (p <= n < length xs)%nat -> nth n index NaN = if Rlt_dec (at_pos xs 0) (at_pos xs n) then Fin 100 else NaN.
Proof.
  intros Hp C H. destruct (@rsi_streams ER p ltac:(lia)) as (st & B & _). exists (map (@rsi ER p) (hists [] (map Fin xs))). do 2 eexists.
  split; [unfold reals; apply B; [apply map_some, C|now apply countable_short]|]. split; [now rewrite map_length, hists_length, map_length|]. intros n Hn.
  assert (E : nth n (map (@rsi ER p) (hists [] (map Fin xs))) NaN = @rsi ER p (upto n (map Fin xs))) by (apply nth_map_hists; rewrite map_length; lia).
  change (@ER.ext) with (@F ER) in *. rewrite E, RealLinear.upto_map. assert (S := upto_stairs xs H n ltac:(lia)). assert (Lh := upto_length n xs ltac:(lia)). rewrite rsi_rise by (lia || exact S).
  assert (N := changes_nonneg _ S). assert (L0 : nth n (upto n xs) 0 = at_pos xs 0) by (rewrite upto_nth by lia; now rewrite Nat.sub_diag).
  destruct (upto_head n xs ltac:(lia)) as [r Er]. change (nth n xs 0) with (at_pos xs n) in Er. assert (Q := some_change r (at_pos xs n)). rewrite <- Er in Q. specialize (Q S).
  destruct (Rlt_dec (at_pos xs 0) (at_pos xs n)) as [X|X].
  - destruct Q as [Q|Q]; [|rewrite Forall_forall in Q; assert (I : In (nth n (upto n xs) 0) (upto n xs)) by (apply nth_In; lia); specialize (Q _ I); lra].
    assert (P : 0 < rrma p (rchanges (upto n xs))) by (apply rrma_some; [rewrite rchanges_length; lia|exact N|exact Q]). destruct (Rlt_dec 0 _); [reflexivity|contradiction].
  - assert (A : forall x, In x (upto n xs) -> x = at_pos xs n).
    { intros x Hx. apply (In_nth _ _ 0) in Hx as (i & Hi & <-). assert (Q1 := stairs_nth _ S 0%nat i ltac:(lia)). assert (Q2 := stairs_nth _ S i n ltac:(lia)). rewrite Er in Q1 at 2. cbn [nth] in Q1. lra. }
    assert (Z := rchanges_const (at_pos xs n) (upto n xs) A). assert (Z' : rchanges (upto n xs) = map (fun _ => 0) (rchanges (upto n xs))).
    { clear -Z. induction Z as [|x l Hx _ IH]; [reflexivity|]. cbn [map]. now rewrite <- IH, Hx. }
    rewrite Z', rrma_zeros. destruct (Rlt_dec 0 0); [lra|reflexivity].
Qed.
