(** * SteadyFacts: small errors stay small (C67), from the closed forms. *)
From Coq Require Import Reals Lra List ZArith Bool Lia.
From Verif Require Import Num Py Tensor Streamable Common Finance Series Formulas Positions ER MovingFacts Linear RealFacts RealStats RealMarket RealLinear RealScale RealScale2 NormFacts ImplBasic ImplComp ImplScalar ImplWindow ImplMarket MarketReal AccuracyMain Steady.
Import ListNotations.
Local Open Scope R_scope.

Definition lip (K : R) (g : list R -> R) : Prop := forall e u v, 0 <= e -> off e u v -> Rabs (g u - g v) <= K * e.
Lemma Forall2_length' {A B} (R : A -> B -> Prop) l l' : Forall2 R l l' -> length l = length l'.
Proof. induction 1; cbn; congruence. Qed.
Lemma off_tail e x y u v : off e (x :: u) (y :: v) -> Rabs (x - y) <= e /\ off e u v.
Proof.
  intros [L H]. cbn [length] in *. split; [exact (H O ltac:(lia))|]. split; [lia|]. intros i Hi. exact (H (S i) ltac:(lia)).
Qed.
Lemma off_firstn e p u v : off e u v -> off e (firstn p u) (firstn p v).
Proof.
  intros [L H]. split; [rewrite !firstn_length; lia|]. intros i Hi. rewrite firstn_length in Hi.
  assert (E : forall l : list R, nth i (firstn p l) 0 = nth i l 0).
  { intros l. rewrite <- (firstn_skipn p l) at 2. destruct (Nat.lt_ge_cases i (length (firstn p l))); [now rewrite app_nth1|].
    rewrite firstn_length in *. rewrite nth_overflow by (rewrite firstn_length; lia). rewrite app_nth2 by (rewrite firstn_length; lia). symmetry. apply nth_overflow. rewrite skipn_length. lia. }
  rewrite !E. apply H. lia.
Qed.
Lemma sum_off e : forall u v, off e u v -> Rabs (rsum u - rsum v) <= INR (length u) * e.
Proof.
  induction u as [|x u IH]; intros [|y v] H; [cbn; rewrite Rminus_diag_eq, Rabs_R0 by reflexivity; lra|destruct H; discriminate..|].
  destruct (off_tail _ _ _ _ _ H) as [H1 H2]. specialize (IH v H2). change (rsum (x :: u)) with (x + rsum u). change (rsum (y :: v)) with (y + rsum v).
  change (length (x :: u)) with (S (length u)). rewrite S_INR. replace (x + rsum u - (y + rsum v)) with ((x - y) + (rsum u - rsum v)) by lra.
  eapply Rle_trans; [apply Rabs_triang|]. lra.
Qed.
Lemma mean_off e u v : 0 <= e -> off e u v -> Rabs (rmean u - rmean v) <= e.
Proof.
  intros He H. pose proof (sum_off e u v H) as S. destruct H as [L _]. unfold rmean. rewrite <- L. destruct u as [|x u]; [cbn in L; destruct v; [|discriminate]; rewrite Rminus_diag_eq, Rabs_R0 by reflexivity; exact He|].
  assert (P : 0 < INR (length (x :: u))) by (apply (lt_INR 0); cbn; lia). replace (rsum (x :: u) / INR (length (x :: u)) - rsum v / INR (length (x :: u))) with ((rsum (x :: u) - rsum v) / INR (length (x :: u))) by (field; lra).
  unfold Rdiv. rewrite Rabs_mult, (Rabs_pos_eq (/ _)) by (left; now apply Rinv_0_lt_compat). apply (Rmult_le_reg_r (INR (length (x :: u)))); [exact P|]. rewrite Rmult_assoc, Rinv_l by lra. lra.
Qed.
Lemma same_zero e : 0 <= e -> Rabs (0 - 0) <= e.
Proof. intros H. now rewrite Rminus_0_r, Rabs_R0. Qed.
Lemma rsma_steady p : lip 1 (rsma p).
Proof.
  intros e u v He H. unfold rsma. destruct H as [L H]. rewrite <- L. destruct (length u <? p)%nat; [apply same_zero; lra|]. rewrite Rmult_1_l. apply mean_off; [exact He|]. now apply off_firstn.
Qed.
Lemma blend_two a b x y x' y' e : 0 <= a -> 0 <= b -> Rabs (x - x') <= e -> Rabs (y - y') <= e -> Rabs ((x * a + y * b) - (x' * a + y' * b)) <= (a + b) * e.
Proof.
  intros Ha Hb H1 H2. replace (x * a + y * b - (x' * a + y' * b)) with ((x - x') * a + (y - y') * b) by ring. eapply Rle_trans; [apply Rabs_triang|].
  rewrite !Rabs_mult, (Rabs_pos_eq a), (Rabs_pos_eq b) by assumption. assert (Rabs (x - x') * a <= e * a) by (apply Rmult_le_compat_r; assumption). assert (Rabs (y - y') * b <= e * b) by (apply Rmult_le_compat_r; assumption). lra.
Qed.
Lemma rema_steady p : (1 <= p)%nat -> lip 1 (rema p).
Proof.
  intros Hp e u v He. assert (P : 1 <= INR p) by (apply (le_INR 1 p); exact Hp). revert v. induction u as [|x u IH]; intros [|y v] H; [apply same_zero; lra|destruct H; discriminate..|].
  destruct (off_tail _ _ _ _ _ H) as [H1 H2]. cbn [rema]. destruct (H) as [L _]. rewrite <- L. destruct (length (x :: u) <=? p)%nat; [now apply rsma_steady|]. specialize (IH v H2). rewrite Rmult_1_l in *.
  assert (B : 0 < 2 / (INR p + 1) <= 1).
  { split; [apply Rdiv_lt_0_compat; lra|]. apply (Rmult_le_reg_r (INR p + 1)); [lra|]. unfold Rdiv. rewrite Rmult_assoc, Rinv_l by lra. lra. }
  eapply Rle_trans; [apply (blend_two _ _ _ _ _ _ e); [lra|lra|exact H1|exact IH]|]. lra.
Qed.
Lemma rrma_steady p : (1 <= p)%nat -> lip 1 (rrma p).
Proof.
  intros Hp e u v He. assert (P : 1 <= INR p) by (apply (le_INR 1 p); exact Hp). revert v. induction u as [|x u IH]; intros [|y v] H; [apply same_zero; lra|destruct H; discriminate..|].
  destruct (off_tail _ _ _ _ _ H) as [H1 H2]. cbn [rrma]. destruct (H) as [L _]. rewrite <- L. destruct (length (x :: u) <=? p)%nat; [now apply rsma_steady|]. specialize (IH v H2). rewrite Rmult_1_l in *.
  assert (I : 0 < / INR p) by (apply Rinv_0_lt_compat; lra). assert (J : / INR p <= 1) by (rewrite <- Rinv_1; apply Rinv_le_contravar; lra).
  replace ((rrma p u * (INR p - 1) + x) / INR p) with (x * / INR p + rrma p u * (1 - / INR p)) by (field; lra).
  replace ((rrma p v * (INR p - 1) + y) / INR p) with (y * / INR p + rrma p v * (1 - / INR p)) by (field; lra).
  eapply Rle_trans; [apply (blend_two _ _ _ _ _ _ e); [lra|lra|exact H1|exact IH]|]. lra.
Qed.
Lemma nth_steady p : lip 1 (fun h => nth p h 0).
Proof.
  intros e u v He [L H]. rewrite Rmult_1_l. destruct (Nat.lt_ge_cases p (length u)) as [Q|Q]; [now apply H|]. rewrite !nth_overflow by lia. now apply same_zero.
Qed.
Lemma diff_lip a b c d K M : Rabs (a - b) <= K -> Rabs (c - d) <= M -> Rabs ((a - c) - (b - d)) <= K + M.
Proof. intros H1 H2. replace (a - c - (b - d)) with ((a - b) + - (c - d)) by lra. eapply Rle_trans; [apply Rabs_triang|]. rewrite Rabs_Ropp. lra. Qed.
Lemma sum_lip a b c d K M : Rabs (a - b) <= K -> Rabs (c - d) <= M -> Rabs ((a + c) - (b + d)) <= K + M.
Proof. intros H1 H2. replace (a + c - (b + d)) with ((a - b) + (c - d)) by lra. eapply Rle_trans; [apply Rabs_triang|]. lra. Qed.
Lemma minus_steady K M f g : lip K f -> lip M g -> lip (K + M) (fun h => f h - g h).
Proof. intros F G e u v He H. rewrite Rmult_plus_distr_r. apply diff_lip; [now apply F|now apply G]. Qed.
Lemma plus_steady K M f g : lip K f -> lip M g -> lip (K + M) (fun h => f h + g h).
Proof. intros F G e u v He H. rewrite Rmult_plus_distr_r. apply sum_lip; [now apply F|now apply G]. Qed.
Lemma early_steady (c : nat -> bool) K f : 0 <= K -> lip K f -> lip K (fun h => if c (length h) then 0 else f h).
Proof. intros HK F e u v He H. destruct (H) as [L _]. rewrite <- L. destruct (c (length u)); [apply same_zero, Rmult_le_pos; lra|now apply F]. Qed.
Lemma rmomentum_steady p : lip 2 (rmomentum p).
Proof. unfold rmomentum. apply (early_steady (fun n => n <=? p)%nat 2); [lra|]. replace 2 with (1 + 1) by lra. apply minus_steady; apply nth_steady. Qed.
Lemma rcrossover_steady slow fast : lip 2 (fun h => (if (length h <? slow)%nat then 0 else rsma fast h) - rsma slow h).
Proof. replace 2 with (1 + 1) by lra. apply minus_steady; [|apply rsma_steady]. apply (early_steady (fun n => n <? slow)%nat 1); [lra|apply rsma_steady]. Qed.
Lemma rmsd_steady p : (1 <= p)%nat -> lip 1 (rmsd p).
Proof.
  intros Hp e u v He H. unfold rmsd. destruct (H) as [L _]. rewrite <- L. destruct (Nat.ltb_spec (length u) p); [apply same_zero; lra|]. rewrite Rmult_1_l. apply deviation_lip; [exact He| |now apply off_firstn].
  now apply firstn_ne'.
Qed.
Lemma trail_steady K g e u v : lip K g -> 0 <= e -> off e u v -> off (K * e) (trail g u) (trail g v).
Proof.
  intros G He. revert v. induction u as [|x u IH]; intros [|y v] H; [split; [reflexivity|cbn; lia]|destruct H; discriminate..|].
  destruct (off_tail _ _ _ _ _ H) as [_ H2]. destruct (IH v H2) as [L I]. split; [cbn [trail length]; lia|]. intros [|i] Hi; cbn [trail nth]; [now apply G|]. apply I. cbn [trail length] in Hi. lia.
Qed.
Lemma lip_pos K g e u v : 0 <= K -> lip K g -> 0 <= e -> off e u v -> 0 <= K * e.
Proof. intros. apply Rmult_le_pos; assumption. Qed.
Lemma rmacd_steady slow fast : (1 <= slow)%nat -> (1 <= fast)%nat -> lip 2 (rmacd slow fast).
Proof. intros Hs Hf. unfold rmacd. apply (early_steady (fun n => n <? slow)%nat 2); [lra|]. replace 2 with (1 + 1) by lra. apply minus_steady; now apply rema_steady. Qed.
Lemma rmacd_signal_steady slow fast m : (1 <= slow)%nat -> (1 <= fast)%nat -> (1 <= m)%nat -> lip 2 (rmacd_signal slow fast m).
Proof.
  intros Hs Hf Hm e u v He H. unfold rmacd_signal. destruct (H) as [L _]. rewrite <- L. destruct (length u <? slow)%nat; [apply same_zero; lra|].
  assert (T := trail_steady 2 _ e u v (rmacd_steady slow fast Hs Hf) He H). apply (off_firstn _ (length u + 1 - slow)) in T.
  assert (Q := rema_steady m Hm (2 * e) _ _ ltac:(lra) T). rewrite Rmult_1_l in Q. rewrite ?L in *. exact Q.
Qed.
Lemma rmacd_histogram_steady slow fast m : (1 <= slow)%nat -> (1 <= fast)%nat -> (1 <= m)%nat -> lip 4 (rmacd_histogram slow fast m).
Proof.
  intros Hs Hf Hm. unfold rmacd_histogram. apply (early_steady (fun n => n + 1 <? slow + m)%nat 4); [lra|]. replace 4 with (2 + 2) by lra. apply minus_steady; [now apply rmacd_steady|now apply rmacd_signal_steady].
Qed.
Lemma scale_steady K f k : lip K f -> lip (K * Rabs k) (fun h => f h * k).
Proof. intros F e u v He H. replace (f u * k - f v * k) with ((f u - f v) * k) by ring. rewrite Rabs_mult. replace (K * Rabs k * e) with (K * e * Rabs k) by ring. apply Rmult_le_compat_r; [apply Rabs_pos|now apply F]. Qed.

(** ** From closed forms to streams *)
Lemma apart_off e xs ys j n : (n < length xs)%nat -> apart e xs ys -> off e (upto n (rnumbers xs j)) (upto n (rnumbers ys j)).
Proof.
  intros Hn [L H]. split; [rewrite !upto_length; rewrite ?rnumbers_length; lia|]. intros i Hi. rewrite upto_length in Hi by (rewrite rnumbers_length; lia).
  rewrite !nth_upto by (rewrite ?rnumbers_length; lia). rewrite !nth_rnumbers. apply H.
Qed.
Lemma reach_apart s K g e xs ys : 0 <= K -> lip K g -> 0 <= e -> apart e xs ys -> apart (K * e) (map (reach s g) (hists [] xs)) (map (reach s g) (hists [] ys)).
Proof.
  intros HK G He H. destruct (H) as [L _]. split; [now rewrite !map_length, !hists_length|]. intros n j. assert (P : 0 <= K * e) by (apply Rmult_le_pos; assumption).
  destruct (Nat.lt_ge_cases n (length xs)) as [Hn|Hn].
  - destruct (Nat.lt_ge_cases j (prod s)) as [Hj|Hj].
    + rewrite !reach_number; [|lia..]. apply G; [exact He|]. now apply apart_off.
    + unfold rnumber. rewrite !nth_map_hists by lia. rewrite !nth_overflow; [now apply same_zero|unfold reach; rewrite map_length, seq_length; exact Hj..].
  - unfold rnumber. rewrite !(nth_overflow (map _ _)) by (rewrite map_length, hists_length; lia). destruct j; now apply same_zero.
Qed.
Lemma reach_rshaped s g xs : rshaped s xs -> rshaped s (map (reach s g) (hists [] xs)).
Proof.
  intros [_ Sh]. split; [|unfold short in *; now rewrite map_length, hists_length]. apply Forall_map, Forall_forall. intros h _. unfold reach. now rewrite map_length, seq_length.
Qed.
Theorem steady_from (op : @operator ER) s f g K :
  @streams ER _ op (ok_rows s) (tensors s) (fun hs => tensors s (map (each s f) hs)) ->
  (forall l, f (map Fin l) = Fin (g l)) -> 0 <= K -> lip K g -> steady K op s.
Proof.
  intros ST E HK G e xs ys He NE OX OY A. assert (NY : ys <> []) by (destruct A as [L _]; destruct xs, ys; easy).
  destruct (stream_fins op s f g xs ST E NE OX) as (sx & ix & Ex). destruct (stream_fins op s f g ys ST E NY OY) as (sy & iy & Ey).
  do 6 eexists. split; [exact Ex|]. split; [exact Ey|]. split; [now rewrite map_length, hists_length|]. split; [now apply reach_rshaped|]. split; [now apply reach_rshaped|]. now apply reach_apart.
Qed.
Theorem steady_all_from (op : @operator ER) s fs gs Ks :
  @streams ER _ op (ok_rows s) (tensors s) (fun hs => Tup (map (fun f => tensors s (map (each s f) hs)) fs)) ->
  Forall2 known fs gs -> Forall2 (fun K g => 0 <= K /\ lip K g) Ks gs -> steady_all Ks op s.
Proof.
  intros (st & H & _) Kn G e xs ys He NE OX OY A. assert (NY : ys <> []) by (destruct A as [L _]; destruct xs, ys; easy).
  exists (map (fun g => map (reach s g) (hists [] xs)) gs), (map (fun g => map (reach s g) (hists [] ys)) gs). do 4 eexists.
  split; [rewrite (H (fins xs) (fins_ne xs NE) (fins_ok s xs OX)); exact (f_equal (fun z => Ok (Tup z, _, _)) (each_streams s fs gs xs Kn))|].
  split; [rewrite (H (fins ys) (fins_ne ys NY) (fins_ok s ys OY)); exact (f_equal (fun z => Ok (Tup z, _, _)) (each_streams s fs gs ys Kn))|].
  assert (Lg := Forall2_length' _ _ _ G). rewrite !map_length. split; [now symmetry|]. split; [now symmetry|]. clear - G He A. induction G as [|K g Ks gs [HK Hg] _ IH]; intros i Hi; [cbn in Hi; lia|].
  destruct i as [|i]; cbn [map nth]; [|apply IH; cbn in Hi; lia]. split; [now rewrite map_length, hists_length|]. now apply reach_apart.
Qed.
Theorem averages_steady s p slow fast : (1 <= p)%nat -> (1 <= slow)%nat -> (1 <= fast)%nat ->
  steady 1 (SimpleMovingAverage (Z.of_nat p)) s /\ steady 1 (ExponentialMovingAverage (Z.of_nat p)) s /\ steady 1 (RollingMovingAverage (Z.of_nat p)) s /\
  steady 1 (MovingStandardDeviation (Z.of_nat p)) s /\ steady 2 (Momentum (Z.of_nat p)) s /\ steady 2 (SimpleMovingAverageCrossover (Z.of_nat slow) (Z.of_nat fast)) s.
Proof.
  intros Hp Hs Hf. repeat apply conj.
  - apply (steady_from _ s (sma p) (rsma p)); [now apply sma_streams|intros; now apply sma_eq|lra|apply rsma_steady].
  - apply (steady_from _ s (ema p) (rema p)); [now apply ema_streams|intros; now apply ema_eq|lra|now apply rema_steady].
  - apply (steady_from _ s (rma p) (rrma p)); [now apply rma_streams|intros; now apply rma_eq|lra|now apply rrma_steady].
  - apply (steady_from _ s (msd p) (rmsd p)); [now apply msd_streams|intros; now apply msd_eq|lra|now apply rmsd_steady].
  - apply (steady_from _ s (momentum p) (rmomentum p)); [now apply momentum_streams| |lra|apply rmomentum_steady].
    intros l. unfold momentum, rmomentum. rewrite map_length. destruct (length l <=? p)%nat; [reflexivity|]. unfold now, ago. change (@f0 ER) with (Fin 0). rewrite !(map_nth Fin). reflexivity.
  - eapply (steady_from _ s _ (fun h => (if (length h <? slow)%nat then 0 else rsma fast h) - rsma slow h)); [now apply crossover_streams| |lra|apply rcrossover_steady].
    intros l. change (e_sub (if (length (map Fin l) <? slow)%nat then Fin 0 else sma fast (map Fin l)) (sma slow (map Fin l)) =
      Fin ((if (length l <? slow)%nat then 0 else rsma fast l) - rsma slow l)).
    rewrite map_length, (sma_eq slow), (sma_eq fast) by assumption. destruct (length l <? slow)%nat; reflexivity.
Qed.
Theorem macd_steady s slow fast m : (1 <= slow)%nat -> (1 <= fast)%nat -> (1 <= m)%nat ->
  steady_all [1; 1; 2; 2; 4] (MovingAverageConvergenceDivergence (Z.of_nat slow) (Z.of_nat fast) (Z.of_nat m)) s.
Proof.
  intros Hs Hf Hm.
  apply (steady_all_from _ s [ema slow; ema fast; macd slow fast; macd_signal slow fast m; macd_histogram slow fast m]
           [rema slow; rema fast; rmacd slow fast; rmacd_signal slow fast m; rmacd_histogram slow fast m]).
  - exact (@macd_streams ER s slow fast m Hs Hf Hm).
  - constructor; [intros l; now apply ema_eq|]. constructor; [intros l; now apply ema_eq|]. constructor; [intros l; now apply macd_eq|].
    constructor; [intros l; now apply macd_signal_eq|]. constructor; [intros l; now apply macd_histogram_eq|]. constructor.
  - repeat (apply Forall2_cons; [split; [lra|]|]); [now apply rema_steady|now apply rema_steady|now apply rmacd_steady|now apply rmacd_signal_steady|now apply rmacd_histogram_steady|constructor].
Qed.
Theorem bands_steady s p factor k : (1 <= p)%nat -> @num ER factor = Fin k ->
  steady_all [1 + Rabs k; 1; 1 + Rabs k] (BollingerBands (Z.of_nat p) factor) s.
Proof.
  intros Hp Hk. apply (steady_all_from _ s
    [fun c => @fsub ER (@sma ER p c) (@fmul ER (@msd ER p c) (@num ER factor)); @sma ER p; fun c => @fadd ER (@sma ER p c) (@fmul ER (@msd ER p c) (@num ER factor))]
    [fun h => rsma p h - rmsd p h * k; rsma p; fun h => rsma p h + rmsd p h * k]).
  - exact (@bollinger_streams ER s p factor Hp).
  - constructor; [intros l; rewrite sma_eq, msd_eq, Hk by exact Hp; reflexivity|]. constructor; [intros l; now apply sma_eq|].
    constructor; [intros l; rewrite sma_eq, msd_eq, Hk by exact Hp; reflexivity|]. constructor.
  - assert (A := Rabs_pos k). assert (Q := scale_steady 1 _ k (rmsd_steady p Hp)). rewrite Rmult_1_l in Q.
    repeat (apply Forall2_cons; [split; [lra|]|]); [apply minus_steady; [apply rsma_steady|exact Q]|apply rsma_steady|apply plus_steady; [apply rsma_steady|exact Q]|constructor].
Qed.

