(** * TickFacts: whole multiples of a tick in float32 (C69). *)
From Coq Require Import Reals Lra List ZArith Bool Lia Permutation.
From Coq Require Import Floats.SpecFloat.
From Flocq Require Import Core BinarySingleNaN.
From Verif Require Import Num Py Tensor Streamable Common Finance Series Formulas Positions ImplBasic ImplComp ImplMarket MovingFacts ReturnFacts MarketFacts B32 ER Ieee Rounding Accuracy RoundIeee AccuracyIeee Ticks.
Import ListNotations.
Local Open Scope R_scope.

Lemma tick_pos e : 0 < tick e.
Proof. apply bpow_gt_0. Qed.

Section Facts.
Context {N : FOps} {fin : F -> Prop} {val : F -> R} {rd : R -> R} (A : nearest N fin val rd).

Lemma rd_id y : representable y -> rd y = y.
Proof. intros H. assert (Q := n_near _ _ _ _ A y y H). rewrite Rminus_eq_0, Rabs_R0 in Q. assert (P := Rabs_pos (rd y - y)). destruct (Req_dec (rd y - y) 0) as [E|E]; [lra|]. apply Rabs_no_R0 in E. lra. Qed.
Lemma ticks_big e z : tick_size e -> (Z.abs z <= 2 ^ 24)%Z -> Rabs (IZR z * tick e) <= big.
Proof.
  intros [_ E] H. rewrite Rabs_mult, (Rabs_right (tick e)) by (apply Rle_ge, Rlt_le, tick_pos). rewrite <- abs_IZR.
  apply (Rle_trans _ (IZR (2 ^ 24) * tick 103)).
  - apply Rmult_le_compat; [apply IZR_le; lia|apply Rlt_le, tick_pos|now apply IZR_le|]. apply bpow_le. exact E.
  - unfold tick. change (IZR (2 ^ 24)) with (bpow radix2 24). rewrite <- bpow_plus. right. exact (bpow_pos 127).
Qed.
Lemma zero_ticks : fin f0 /\ val f0 = 0.
Proof. apply (n_of_Z _ _ _ _ A 0). cbn. lia. Qed.
Lemma add_ticks e x y a b : tick_size e -> fin x -> fin y -> val x = IZR a * tick e -> val y = IZR b * tick e -> (Z.abs (a + b) <= 2 ^ 24)%Z ->
  fin (fadd x y) /\ val (fadd x y) = IZR (a + b) * tick e.
Proof.
  intros He Fx Fy Ex Ey H. assert (E : val x + val y = IZR (a + b) * tick e) by (rewrite Ex, Ey, plus_IZR; ring).
  destruct (n_add _ _ _ _ A x y Fx Fy) as [G1 G2]; [rewrite E; now apply ticks_big|]. split; [exact G1|]. rewrite G2, E. apply rd_id. exists (a + b)%Z, e. destruct He. auto.
Qed.
Lemma sub_ticks e x y a b : tick_size e -> fin x -> fin y -> val x = IZR a * tick e -> val y = IZR b * tick e -> (Z.abs (a - b) <= 2 ^ 24)%Z ->
  fin (fsub x y) /\ val (fsub x y) = IZR (a - b) * tick e.
Proof.
  intros He Fx Fy Ex Ey H. assert (E : val x - val y = IZR (a - b) * tick e) by (rewrite Ex, Ey, minus_IZR; ring).
  destruct (n_sub _ _ _ _ A x y Fx Fy) as [G1 G2]; [rewrite E; now apply ticks_big|]. split; [exact G1|]. rewrite G2, E. apply rd_id. exists (a - b)%Z, e. destruct He. auto.
Qed.
(** Sums in any order. *)
Definition zsum (l : list Z) : Z := fold_right Z.add 0%Z l.
Lemma zsum_app u v : zsum (u ++ v) = (zsum u + zsum v)%Z.
Proof. unfold zsum. induction u as [|x u IH]; cbn; [reflexivity|]. rewrite IH. lia. Qed.
Lemma zsum_perm u v : Permutation u v -> zsum u = zsum v.
Proof. unfold zsum. induction 1; cbn; lia. Qed.
Lemma zsum_abs l : (Z.abs (zsum l) <= zsum (map Z.abs l))%Z.
Proof. unfold zsum. induction l as [|x l IH]; cbn; lia. Qed.
Lemma zabs_nonneg l : (0 <= zsum (map Z.abs l))%Z.
Proof. unfold zsum. induction l as [|x l IH]; cbn; lia. Qed.
Lemma forall2_perm {X Y} (P : X -> Y -> Prop) l l' : Permutation l l' -> forall k, Forall2 P l k -> exists k', Permutation k k' /\ Forall2 P l' k'.
Proof.
  induction 1 as [|x l l' H IH|x y l|l l' l'' H1 IH1 H2 IH2]; intros k K.
  - exists k. split; [apply Permutation_refl|exact K].
  - inversion K as [|? z ? k0 Hz Hk]; subst. destruct (IH k0 Hk) as (k' & P1 & P2). exists (z :: k'). split; [now constructor|now constructor].
  - inversion K as [|? z ? k0 Hz Hk]; subst. inversion Hk as [|? w ? k1 Hw Hk1]; subst. exists (w :: z :: k1). split; [constructor|]. constructor; [assumption|]. now constructor.
  - destruct (IH1 k K) as (k' & P1 & P2). destruct (IH2 k' P2) as (k'' & P3 & P4). exists k''. split; [eapply Permutation_trans; eassumption|exact P4].
Qed.
Theorem sums_exact e l v zs : tick_size e -> summed l v -> Forall2 (fun x z => fin x /\ val x = IZR z * tick e) l zs -> (zsum (map Z.abs zs) <= 2 ^ 24)%Z ->
  fin v /\ val v = IZR (zsum zs) * tick e.
Proof.
  intros He S. revert zs. induction S as [|x|l a b u v P S1 IH1 S2 IH2]; intros zs H L.
  - inversion H; subst. destruct zero_ticks as [Z1 Z2]. split; [exact Z1|]. rewrite Z2. cbn. ring.
  - inversion H as [|? z ? k [Fx Ex] Hk]; subst. inversion Hk; subst. split; [exact Fx|]. rewrite Ex. cbn [zsum fold_right]. now rewrite Z.add_0_r.
  - destruct (forall2_perm _ _ _ P zs H) as (k & P1 & P2). apply Forall2_app_inv_l in P2 as (ka & kb & Ka & Kb & ->).
    rewrite (zsum_perm _ _ P1), zsum_app. rewrite (zsum_perm _ _ (Permutation_map Z.abs P1)), map_app, zsum_app in L.
    assert (Na := zabs_nonneg ka). assert (Nb := zabs_nonneg kb). destruct (IH1 ka Ka ltac:(lia)) as [F1 E1], (IH2 kb Kb ltac:(lia)) as [F2 E2].
    assert (Ta := zsum_abs ka). assert (Tb := zsum_abs kb). apply add_ticks; try assumption. lia.
Qed.
Lemma rsum_ticks e zs : fold_right Rplus 0 (map (fun z => IZR z * tick e) zs) = IZR (zsum zs) * tick e.
Proof. unfold zsum. induction zs as [|z zs IH]; cbn [map fold_right]; [ring|]. rewrite IH, plus_IZR. ring. Qed.
Lemma ticks_list e M l : Forall (ticks fin val e M) l -> exists zs, Forall2 (fun x z => fin x /\ val x = IZR z * tick e) l zs /\ Forall (fun z => (Z.abs z <= M)%Z) zs /\ map val l = map (fun z => IZR z * tick e) zs.
Proof.
  induction 1 as [|x l (Fx & z & Hz & Ez) _ (zs & H1 & H2 & H3)]; [exists []; repeat constructor|].
  exists (z :: zs). split; [constructor; auto|]. split; [constructor; auto|]. cbn [map]. now rewrite H3, Ez.
Qed.
Lemma zsum_bound M zs : Forall (fun z => (Z.abs z <= M)%Z) zs -> (zsum (map Z.abs zs) <= Z.of_nat (length zs) * M)%Z.
Proof. unfold zsum. induction 1 as [|z zs H _ IH]; cbn [map fold_right length]; lia. Qed.
Lemma forall2_len {X Y} (P : X -> Y -> Prop) l k : Forall2 P l k -> length l = length k.
Proof. induction 1; cbn; lia. Qed.
Theorem sums_agree e M l u v : tick_size e -> Forall (ticks fin val e M) l -> (Z.of_nat (length l) * M <= 2 ^ 24)%Z -> summed l u -> summed l v ->
  fin u /\ val u = fold_right Rplus 0 (map val l) /\ val v = val u.
Proof.
  intros He T B S1 S2. destruct (ticks_list e M l T) as (zs & H1 & H2 & H3). assert (L := forall2_len _ _ _ H1). assert (Q := zsum_bound M zs H2). rewrite <- L in Q.
  destruct (sums_exact e l u zs He S1 H1 ltac:(lia)) as [F1 E1], (sums_exact e l v zs He S2 H1 ltac:(lia)) as [_ E2]. split; [exact F1|]. rewrite H3, rsum_ticks. split; [exact E1|]. now rewrite E1, E2.
Qed.
(** The mean of a list of ticks is rounded once. *)
Lemma mean_ticks e M l v : tick_size e -> summed l v -> l <> [] -> Forall (ticks fin val e M) l -> (Z.of_nat (length l) * M <= 2 ^ 24)%Z -> (0 <= M)%Z -> (Z.of_nat (length l) <= 2 ^ 24)%Z ->
  let q := fdiv v (f_of_Z (Z.of_nat (length l))) in
  fin q /\ val q = rd (fold_right Rplus 0 (map val l) / INR (length l)).
Proof.
  intros He S NE T B HM BL q. destruct (ticks_list e M l T) as (zs & H1 & H2 & H3). assert (L := forall2_len _ _ _ H1). assert (Q := zsum_bound M zs H2). rewrite <- L in Q.
  destruct (sums_exact e l v zs He S H1) as [F1 E1]; [lia|]. assert (Lp : (1 <= length l)%nat) by (destruct l; [now elim NE|cbn; lia]).
  destruct (n_of_Z _ _ _ _ A (Z.of_nat (length l))) as [F2 E2]; [lia|]. rewrite <- INR_IZR_INZ in E2. assert (P : 1 <= INR (length l)) by (apply (le_INR 1); exact Lp).
  assert (EQ : val v = fold_right Rplus 0 (map val l)) by (rewrite H3, rsum_ticks; exact E1).
  destruct (n_div _ _ _ _ A v (f_of_Z (Z.of_nat (length l))) F1 F2) as [G1 G2]; [rewrite E2; lra| |].
  - rewrite E2. unfold Rdiv. rewrite Rabs_mult, (Rabs_right (/ _)) by (apply Rle_ge, Rlt_le, Rinv_0_lt_compat; lra).
    apply (Rle_trans _ (Rabs (val v) * 1)); [apply Rmult_le_compat_l; [apply Rabs_pos|]; rewrite <- Rinv_1; apply Rinv_le_contravar; lra|]. rewrite Rmult_1_r, E1. apply ticks_big; [exact He|]. assert (Ta := zsum_abs zs). lia.
  - split; [exact G1|]. unfold q. rewrite G2, E2, EQ. reflexivity.
Qed.
Lemma all_ticks_number e M xs j n s : all_ticks fin val e M xs -> Forall (fun r => length r = prod s) xs -> (n < length xs)%nat -> (j < prod s)%nat -> ticks fin val e M (number xs j n).
Proof.
  intros H L Hn Hj. unfold all_ticks in H. rewrite Forall_forall in H, L. assert (I := nth_In xs [] Hn). specialize (H _ I). rewrite Forall_forall in H. apply H. apply nth_In. rewrite (L _ I). exact Hj.
Qed.
Lemma rows_of s xs : ok_rows s (rev xs) -> Forall (fun r => length r = prod s) xs.
Proof. intros [H _]. unfold shaped in H. apply Forall_rev in H. now rewrite rev_involutive in H. Qed.

(** ** Operators *)
Theorem momentum_ticks e s p xs : tick_size e -> (1 <= p)%nat -> xs <> [] -> ok_rows s (rev xs) -> all_ticks fin val e (2 ^ 23) xs ->
  exists out sf s0, call (Momentum (Z.of_nat p)) (tensors s xs) None true = Ok (tensors s out, sf, s0) /\ length out = length xs /\
    forall n j, (n < length xs)%nat -> (j < prod s)%nat -> fin (number out j n) /\
      val (number out j n) = if (n <? p)%nat then 0 else val (number xs j n) - val (number xs j (n - p)).
Proof.
  intros He Hp NE OK T. destruct (momentum_positions s p xs Hp NE OK) as (out & sf & s0 & E & L & H). exists out, sf, s0. split; [exact E|]. split; [exact L|].
  intros n j Hn Hj. rewrite H by assumption. destruct (Nat.ltb_spec n p); [exact zero_ticks|].
  destruct (all_ticks_number e _ xs j n s T (rows_of s xs OK) Hn Hj) as (F1 & a & Ba & Ea), (all_ticks_number e _ xs j (n - p) s T (rows_of s xs OK) ltac:(lia) Hj) as (F2 & b & Bb & Eb).
  destruct (sub_ticks e _ _ a b He F1 F2 Ea Eb) as [G1 G2]; [lia|]. split; [exact G1|]. rewrite G2, Ea, Eb, minus_IZR. ring.
Qed.
Lemma window_ticks e M s p xs n j : (1 <= p)%nat -> ok_rows s (rev xs) -> all_ticks fin val e M xs -> (n < length xs)%nat -> (p <= n + 1)%nat -> (j < prod s)%nat ->
  Forall (ticks fin val e M) (map (fun i => number xs j (n - i)) (seq 0 p)).
Proof. intros Hp OK T Hn L Hj. apply Forall_map, Forall_forall. intros i Hi. apply (all_ticks_number e M xs j (n - i) s T (rows_of s xs OK)); [lia|exact Hj]. Qed.
Lemma sma_value e M s p xs n j : tick_size e -> (0 <= M)%Z -> (1 <= p)%nat -> (Z.of_nat p * M <= 2 ^ 24)%Z -> (Z.of_nat p <= 2 ^ 24)%Z ->
  ok_rows s (rev xs) -> all_ticks fin val e M xs -> (n < length xs)%nat -> (p <= n + 1)%nat -> (j < prod s)%nat ->
  let q := fdiv (fsum (map (fun i => number xs j (n - i)) (seq 0 p))) (f_of_Z (Z.of_nat p)) in fin q /\ val q = rd (true_mean val p xs j n).
Proof.
  intros He HM Hp B B' OK T Hn L Hj. cbv zeta. set (l := map (fun i => number xs j (n - i)) (seq 0 p)).
  assert (Ll : length l = p) by (unfold l; now rewrite map_length, seq_length).
  destruct (mean_ticks e M l (fsum l) He (n_sum _ _ _ _ A l)) as [G1 G2]; try (rewrite Ll; assumption); try assumption.
  - intros E0. rewrite E0 in Ll. cbn in Ll. lia.
  - now apply (window_ticks e M s).
  - rewrite Ll in G1, G2. split; [exact G1|]. rewrite G2. unfold true_mean, l. rewrite map_map. reflexivity.
Qed.
Theorem average_ticks e M s p xs : tick_size e -> (0 <= M)%Z -> (1 <= p)%nat -> (Z.of_nat p * M <= 2 ^ 24)%Z -> (Z.of_nat p <= 2 ^ 24)%Z ->
  xs <> [] -> ok_rows s (rev xs) -> all_ticks fin val e M xs ->
  exists out sf s0, call (SimpleMovingAverage (Z.of_nat p)) (tensors s xs) None true = Ok (tensors s out, sf, s0) /\ length out = length xs /\
    forall n j, (n < length xs)%nat -> (p <= n + 1)%nat -> (j < prod s)%nat -> fin (number out j n) /\ val (number out j n) = rd (true_mean val p xs j n) /\
      (forall y, representable y -> Rabs (val (number out j n) - true_mean val p xs j n) <= Rabs (y - true_mean val p xs j n)) /\
      (representable (true_mean val p xs j n) -> val (number out j n) = true_mean val p xs j n).
Proof.
  intros He HM Hp B B' NE OK T. destruct (sma_positions s p xs Hp NE OK) as (out & sf & s0 & E & L & H). exists out, sf, s0. split; [exact E|]. split; [exact L|].
  intros n j Hn Ln Hj. rewrite H by assumption. destruct (Nat.ltb_spec (n + 1) p); [lia|]. destruct (sma_value e M s p xs n j He HM Hp B B' OK T Hn Ln Hj) as [G1 G2].
  split; [exact G1|]. rewrite G2. split; [reflexivity|]. split; [intros y Hy; now apply (n_near _ _ _ _ A)|apply rd_id].
Qed.
Lemma true_mean_bound e M s p xs n j : (0 <= M)%Z -> (1 <= p)%nat -> ok_rows s (rev xs) -> all_ticks fin val e M xs -> (n < length xs)%nat -> (p <= n + 1)%nat -> (j < prod s)%nat ->
  - (IZR M * tick e) <= true_mean val p xs j n <= IZR M * tick e.
Proof.
  intros HM Hp OK T Hn L Hj. assert (W := window_ticks e M s p xs n j Hp OK T Hn L Hj). destruct (ticks_list e M _ W) as (zs & H1 & H2 & H3).
  assert (Ll := forall2_len _ _ _ H1). rewrite map_length, seq_length in Ll. assert (Q := zsum_bound M zs H2). rewrite <- Ll in Q. assert (Ta := zsum_abs zs).
  unfold true_mean. rewrite map_map in H3. rewrite H3, rsum_ticks. assert (P : 1 <= INR p) by (apply (le_INR 1); exact Hp). assert (B : - (INR p * IZR M) <= IZR (zsum zs) <= INR p * IZR M).
  { rewrite INR_IZR_INZ, <- mult_IZR, <- opp_IZR. split; apply IZR_le; lia. }
  assert (TP := tick_pos e). assert (C : IZR M * tick e = INR p * IZR M * tick e / INR p) by (field; lra). rewrite C. unfold Rdiv. rewrite Ropp_mult_distr_l.
  split; (apply Rmult_le_compat_r; [apply Rlt_le, Rinv_0_lt_compat; lra|]). { rewrite Ropp_mult_distr_l. apply Rmult_le_compat_r; lra. } apply Rmult_le_compat_r; lra.
Qed.
Theorem crossover_ticks e M s slow fast xs : tick_size e -> (0 <= M <= 2 ^ 23)%Z -> (1 <= slow)%nat -> (1 <= fast)%nat ->
  (Z.of_nat slow * M <= 2 ^ 24)%Z -> (Z.of_nat slow <= 2 ^ 24)%Z -> (Z.of_nat fast * M <= 2 ^ 24)%Z -> (Z.of_nat fast <= 2 ^ 24)%Z ->
  xs <> [] -> ok_rows s (rev xs) -> all_ticks fin val e M xs ->
  exists out sf s0, call (SimpleMovingAverageCrossover (Z.of_nat slow) (Z.of_nat fast)) (tensors s xs) None true = Ok (tensors s out, sf, s0) /\ length out = length xs /\
    forall n j, (n < length xs)%nat -> (slow <= n + 1)%nat -> (fast <= n + 1)%nat -> (j < prod s)%nat -> fin (number out j n) /\
      (true_mean val slow xs j n <= true_mean val fast xs j n -> 0 <= val (number out j n)) /\
      (true_mean val fast xs j n <= true_mean val slow xs j n -> val (number out j n) <= 0).
Proof.
  intros He HM Hs Hf B1 B1' B2 B2' NE OK T. destruct (tensor_positions _ _ _ _ (crossover_streams s slow fast Hs Hf) xs NE OK) as (out & sf & s0 & E & L & H). exists out, sf, s0. split; [exact E|]. split; [exact L|].
  intros n j Hn L1 L2 Hj. rewrite H by assumption. unfold crossover_code, sma. rewrite upto_length by (now rewrite numbers_length).
  destruct (Nat.ltb_spec (S n) slow); [lia|]. destruct (Nat.ltb_spec (S n) fast); [lia|]. rewrite !window_upto by lia.
  destruct (sma_value e M s slow xs n j He ltac:(lia) Hs B1 B1' OK T Hn L1 Hj) as [G1 G2], (sma_value e M s fast xs n j He ltac:(lia) Hf B2 B2' OK T Hn L2 Hj) as [K1 K2].
  set (a := fdiv (fsum (map (fun i => number xs j (n - i)) (seq 0 fast))) (f_of_Z (Z.of_nat fast))) in *. set (b := fdiv (fsum (map (fun i => number xs j (n - i)) (seq 0 slow))) (f_of_Z (Z.of_nat slow))) in *.
  assert (U := true_mean_bound e M s slow xs n j ltac:(lia) Hs OK T Hn L1 Hj). assert (V := true_mean_bound e M s fast xs n j ltac:(lia) Hf OK T Hn L2 Hj).
  set (u := true_mean val slow xs j n) in *. set (v := true_mean val fast xs j n) in *.
  assert (R1 : rd (IZR M * tick e) = IZR M * tick e) by (apply rd_id; exists M, e; destruct He; split; [lia|auto]).
  assert (R2 : rd (- (IZR M * tick e)) = - (IZR M * tick e)) by (apply rd_id; exists (- M)%Z, e; destruct He; split; [lia|]; rewrite opp_IZR; split; [assumption|ring]).
  assert (O := n_order _ _ _ _ A). assert (B3 := ticks_big e (2 * M) He ltac:(lia)). rewrite mult_IZR, Rabs_right in B3 by (assert (Q := tick_pos e); apply Rle_ge; apply Rmult_le_pos; [apply Rmult_le_pos; [lra|apply IZR_le; lia]|lra]).
  destruct U as [U1 U2], V as [V1 V2]. apply O in U1 as U3, U2 as U4, V1 as V3, V2 as V4. rewrite R1 in U4, V4. rewrite R2 in U3, V3.
  assert (Z0 : rd 0 = 0) by (apply rd_id; exists 0%Z, e; destruct He; split; [cbn; lia|]; split; [assumption|ring]).
  destruct (n_sub _ _ _ _ A a b K1 G1) as [F1 E1]; [rewrite K2, G2; apply Rabs_le; lra|]. split; [exact F1|]. rewrite E1, K2, G2. split; intros C; apply O in C.
  - apply (Rle_trans _ (rd 0)); [right; now symmetry|apply O; lra].
  - apply (Rle_trans _ (rd 0)); [apply O; lra|right; exact Z0].
Qed.
End Facts.

Section Candles.
Context {N : FOps} {fin : F -> Prop} {val : F -> R} {rd : R -> R} (A : nearest N fin val rd).
Lemma halve e z x : (-148 <= e <= 103)%Z -> (Z.abs z <= 2 ^ 24)%Z -> fin x -> val x = IZR z * tick e -> fin (fdiv x (f_of_Z 2)) /\ val (fdiv x (f_of_Z 2)) = val x / 2.
Proof.
  intros He Hz Fx Ex. destruct (n_of_Z _ _ _ _ A 2 ltac:(cbn; lia)) as [F2 E2]. assert (Q : val x / 2 = IZR z * tick (e - 1)).
  { rewrite Ex. unfold tick. replace (e - 1)%Z with (e + -1)%Z by lia. rewrite bpow_plus. change (bpow radix2 (-1)) with (/ 2). field. }
  destruct (n_div _ _ _ _ A x (f_of_Z 2) Fx F2) as [G1 G2]; [rewrite E2; lra|rewrite E2, Q; apply ticks_big; [split; lia|exact Hz]|].
  split; [exact G1|]. rewrite G2, E2. apply (rd_id A). rewrite Q. exists z, (e - 1)%Z. split; [exact Hz|]. split; [lia|reflexivity].
Qed.
Lemma quarter e z x : (-147 <= e <= 103)%Z -> (Z.abs z <= 2 ^ 24)%Z -> fin x -> val x = IZR z * tick e -> fin (fdiv x (f_of_Z 4)) /\ val (fdiv x (f_of_Z 4)) = val x / 4.
Proof.
  intros He Hz Fx Ex. destruct (n_of_Z _ _ _ _ A 4 ltac:(cbn; lia)) as [F2 E2]. assert (Q : val x / 4 = IZR z * tick (e - 2)).
  { rewrite Ex. unfold tick. replace (e - 2)%Z with (e + -2)%Z by lia. rewrite bpow_plus. change (bpow radix2 (-2)) with (/ 4). field. }
  destruct (n_div _ _ _ _ A x (f_of_Z 4) Fx F2) as [G1 G2]; [rewrite E2; lra|rewrite E2, Q; apply ticks_big; [split; lia|exact Hz]|].
  split; [exact G1|]. rewrite G2, E2. apply (rd_id A). rewrite Q. exists z, (e - 2)%Z. split; [exact Hz|]. split; [lia|reflexivity].
Qed.
Theorem heikin_ashi_ticks e xs : (-147 <= e <= 103)%Z -> xs <> [] -> Forall (candle_ticks fin val e (2 ^ 22)) xs ->
  exists out sf s0, call HeikinAshi (candles xs) None true = Ok (candles out, sf, s0) /\ length out = length xs /\
    forall n, (n < length xs)%nat -> let c := nth n xs no_candle in let b := nth (n - 1) xs no_candle in let h := nth n out no_candle in
      if ((n =? 0)%nat || feq (c_open b) f0)%bool then h = c else
      val (c_open h) = (val (c_open b) + val (c_close b)) / 2 /\
      val (c_close h) = (val (c_open c) + val (c_high c) + val (c_low c) + val (c_close c)) / 4 /\
      val (c_high h) = Rmax (val (c_high c)) (Rmax (val (c_open h)) (val (c_close h))) /\
      val (c_low h) = Rmin (val (c_low c)) (Rmin (val (c_open h)) (val (c_close h))).
Proof.
  intros He NE T. destruct (zero_ticks A) as [Fz Ez]. assert (Z0 : feq f0 f0 = true) by (now apply (n_eq _ _ _ _ A)).
  destruct (ha_positions xs NE Z0) as (out & sf & s0 & E & L & H). exists out, sf, s0. split; [exact E|]. split; [exact L|].
  intros n Hn. specialize (H n Hn). cbv zeta in H |- *. rewrite H. set (c := nth n xs no_candle). set (b := nth (n - 1) xs no_candle).
  destruct ((n =? 0)%nat || feq (c_open b) f0)%bool; [reflexivity|]. cbn [c_open c_close c_high c_low].
  rewrite Forall_forall in T. destruct (T c (nth_In xs no_candle Hn)) as ((F1 & z1 & H1 & E1) & (F2 & z2 & H2 & E2) & (F3 & z3 & H3 & E3) & (F4 & z4 & H4 & E4)).
  destruct (T b) as ((G1 & y1 & I1 & D1) & _ & _ & (G4 & y4 & I4 & D4)); [apply nth_In; lia|].
  assert (TS : tick_size e) by (split; lia).
  destruct (add_ticks A e _ _ y1 y4 TS G1 G4 D1 D4 ltac:(lia)) as [P1 P2]. destruct (halve e (y1 + y4) _ ltac:(lia) ltac:(lia) P1 P2) as [O1 O2].
  destruct (sums_exact A e _ _ [z4; z3; z2; z1] TS (n_sum _ _ _ _ A [c_close c; c_low c; c_high c; c_open c])) as [S1 S2]; [repeat constructor; auto|unfold zsum; cbn [map fold_right]; lia|].
  destruct (quarter e (zsum [z4; z3; z2; z1]) _ He ltac:(assert (Q := zsum_abs [z4; z3; z2; z1]); unfold zsum in Q |- *; cbn [map fold_right] in Q |- *; lia) S1 S2) as [C1 C2].
  set (open := fdiv (fadd (c_open b) (c_close b)) (f_of_Z 2)) in *. set (close := fdiv (fsum [c_close c; c_low c; c_high c; c_open c]) (f_of_Z 4)) in *.
  split; [rewrite O2, P2, D1, D4, plus_IZR; field|]. split.
  { rewrite C2, S2, E1, E2, E3, E4. unfold zsum. cbn [fold_right]. rewrite !plus_IZR. field. }
  destruct (n_rmax _ _ _ _ A (c_high c) [close; open] F2 ltac:(auto)) as [_ M1], (n_rmin _ _ _ _ A (c_low c) [close; open] F3 ltac:(auto)) as [_ M2].
  rewrite M1, M2. cbn [map fold_left]. split; [rewrite (Rmax_comm (val open))|rewrite (Rmin_comm (val open))]; symmetry; [apply Rmax_assoc|apply Rmin_assoc].
Qed.
End Candles.

(** ** The instances *)
Lemma summed_fold {N : FOps} l : forall m acc, summed m acc -> summed (m ++ l) (fold_left fadd l acc).
Proof.
  induction l as [|x l IH]; intros m acc H; [now rewrite app_nil_r|]. cbn [fold_left]. replace (m ++ x :: l) with ((m ++ [x]) ++ l) by (now rewrite <- app_assoc).
  apply IH. apply (summed_both _ m [x]); [apply Permutation_refl|exact H|constructor].
Qed.
Lemma valid32 : Valid_exp (FLT_exp (-149) 24).
Proof. apply FLT_exp_valid. reflexivity. Qed.
Lemma format_repr y : representable y -> generic_format radix2 (FLT_exp (-149) 24) y.
Proof.
  intros (z & e & Hz & He & ->). destruct (Z.eq_dec (Z.abs z) (2 ^ 24)) as [E|E].
  - assert (G : generic_format radix2 (FLT_exp (-149) 24) (bpow radix2 (24 + e))). { apply generic_format_bpow. unfold FLT_exp. lia. }
    rewrite bpow_plus in G. change (bpow radix2 24) with (IZR (2 ^ 24)) in G. unfold tick. destruct (Z.abs_spec z) as [[_ Q]|[_ Q]]; rewrite Q in E.
    + rewrite E. exact G.
    + replace z with (- (2 ^ 24))%Z by lia. rewrite opp_IZR, <- Ropp_mult_distr_l. now apply generic_format_opp.
  - apply generic_format_FLT. exists (Float radix2 z e); [reflexivity|cbn [Fnum]; change (radix2 ^ 24)%Z with (2 ^ 24)%Z; lia|exact He].
Qed.
Theorem b32_nearest log32 : nearest (B32 log32) b32_finite b32_value nearest32.
Proof.
  constructor.
  - exact b32_int.
  - intros x y Hx Hy B. destruct (sf_add prec32 emax32 Hp32 He32 x y Hx Hy) as [(_ & S1 & S2)|(S1 & _)]; [|destruct (S1 (in32 _ B))]. split; [exact S1|exact S2].
  - intros x y Hx Hy B. destruct (sf_sub prec32 emax32 Hp32 He32 x y Hx Hy) as [(_ & S1 & S2)|(S1 & _)]; [|destruct (S1 (in32 _ B))]. split; [exact S1|exact S2].
  - intros x y Hx Hy NZ B. destruct (sf_div prec32 emax32 Hp32 He32 x y Hx Hy NZ) as [(_ & S1 & S2)|(S1 & _)]; [|destruct (S1 (in32 _ B))]. split; [exact S1|exact S2].
  - intros l. exact (@summed_fold (B32 log32) l [] _ summed_none).
  - intros x y Hy. apply format_repr in Hy. exact (proj2 (@round_N_pt radix2 (FLT_exp (-149) 24) valid32 (fun x => negb (Z.even x)) x) y Hy).
  - intros x y H. apply round_le; [apply valid32|typeclasses eauto|exact H].
  - exact (o_eq _ _ _ (b32_ordered log32)).
  - exact (o_rmax _ _ _ (b32_ordered log32)).
  - exact (o_rmin _ _ _ (b32_ordered log32)).
Qed.
Theorem er_nearest : nearest ER er_finite er_value (fun r => r).
Proof.
  constructor.
  - intros z _. split; [exact I|reflexivity].
  - intros [a| | |] [b| | |] Hx Hy _; try easy.
  - intros [a| | |] [b| | |] Hx Hy _; try easy.
  - intros [a| | |] [b| | |] Hx Hy NZ _; try easy. cbn in NZ |- *. unfold e_div. cbn. destruct (Req_EM_T b 0) as [E|E]; [easy|]. split; [exact I|reflexivity].
  - intros l. exact (@summed_fold ER l [] _ summed_none).
  - intros x y _. rewrite Rminus_eq_0, Rabs_R0. apply Rabs_pos.
  - auto.
  - exact (o_eq _ _ _ er_ordered).
  - exact (o_rmax _ _ _ er_ordered).
  - exact (o_rmin _ _ _ er_ordered).
Qed.
Theorem resum_nearest (N : FOps) fin val rd s : nearest N fin val rd -> (forall l, @summed N l (s l)) -> nearest (resum N s) fin val rd.
Proof.
  intros A S. constructor; try apply A. intros l. assert (C : forall k v, @summed N k v -> @summed (resum N s) k v); [|exact (C l _ (S l))].
  intros k v Q. induction Q as [|x|k a b u v P Q1 IH1 Q2 IH2]; [exact (@summed_none (resum N s))|exact (@summed_one (resum N s) x)|exact (@summed_both (resum N s) k a b u v P IH1 IH2)].
Qed.

(** ** The sign of a difference is that of the exact one, for all finite numbers of half the largest size. *)
Theorem momentum_sign (N : FOps) fin val s p xs : accurate N fin val -> (1 <= p)%nat -> xs <> [] -> ok_rows s (rev xs) ->
  Forall (Forall (fun x => fin x /\ Rabs (val x) <= big / 2)) xs ->
  exists out sf s0, call (Momentum (Z.of_nat p)) (tensors s xs) None true = Ok (tensors s out, sf, s0) /\ length out = length xs /\
    forall n j, (p <= n < length xs)%nat -> (j < prod s)%nat -> fin (number out j n) /\
      (0 < val (number out j n) <-> val (number xs j (n - p)) < val (number xs j n)) /\
      (val (number out j n) < 0 <-> val (number xs j n) < val (number xs j (n - p))) /\
      (val (number out j n) = 0 <-> val (number xs j n) = val (number xs j (n - p))).
Proof.
  intros A Hp NE OK T. destruct (momentum_positions s p xs Hp NE OK) as (out & sf & s0 & E & L & H). exists out, sf, s0. split; [exact E|]. split; [exact L|].
  intros n j Hn Hj. rewrite H by (try assumption; lia). destruct (Nat.ltb_spec n p); [lia|]. assert (R := rows_of s xs OK).
  assert (P : forall i, (i < length xs)%nat -> fin (number xs j i) /\ Rabs (val (number xs j i)) <= big / 2).
  { intros i Hi. rewrite Forall_forall in T, R. assert (I := nth_In xs [] Hi). specialize (T _ I). rewrite Forall_forall in T. apply T, nth_In. rewrite (R _ I). exact Hj. }
  destruct (P n ltac:(lia)) as [F1 B1], (P (n - p)%nat ltac:(lia)) as [F2 B2]. set (x := number xs j n) in *. set (y := number xs j (n - p)) in *.
  destruct (a_sub _ _ _ A x y F1 F2) as [G1 G2]; [assert (Q := Rabs_triang (val x) (- val y)); rewrite Rabs_Ropp in Q; unfold Rminus; lra|].
  split; [exact G1|]. assert (U : 0 < half_ulp < 1 / 2) by (unfold half_ulp; lra). set (d := val (fsub x y)) in *. set (t := val x - val y) in *.
  assert (Q1 : 0 < t -> 0 < d). { intros Ht. rewrite (Rabs_right t) in G2 by lra. apply Rabs_le_inv in G2. assert (half_ulp * t < 1 / 2 * t) by (apply Rmult_lt_compat_r; lra). lra. }
  assert (Q2 : t < 0 -> d < 0). { intros Ht. rewrite (Rabs_left t) in G2 by lra. apply Rabs_le_inv in G2. assert (half_ulp * - t < 1 / 2 * - t) by (apply Rmult_lt_compat_r; lra). lra. }
  assert (Q3 : t = 0 -> d = 0). { intros Ht. rewrite Ht, Rabs_R0, Rmult_0_r in G2. apply Rabs_le_inv in G2. lra. }
  unfold t in *. destruct (Rtotal_order (val x - val y) 0) as [C|[C|C]]; [specialize (Q2 C)|specialize (Q3 C)|specialize (Q1 C)]; repeat split; intros; lra.
Qed.
(** Two orders of summation, two results. *)
Lemma orders_differ log32 : exists l u v, @summed (B32 log32) l u /\ @summed (B32 log32) l v /\ Forall b32_finite l /\ b32_value v - b32_value u = 2.
Proof.
  set (N := B32 log32). set (a := @f_of_Z N 16777216). set (o := @f_of_Z N 1). exists [a; o; o], (@fadd N (@fadd N a o) o), (@fadd N a (@fadd N o o)).
  split; [apply (@summed_both N _ [a; o] [o]); [apply Permutation_refl|apply (@summed_both N _ [a] [o]); [apply Permutation_refl|constructor|constructor]|constructor]|].
  split; [apply (@summed_both N _ [a] [o; o]); [apply Permutation_refl|constructor|apply (@summed_both N _ [o] [o]); [apply Permutation_refl|constructor|constructor]]|].
  split; [repeat constructor|]. assert (X : @fadd N (@fadd N a o) o = S754_finite false 8388608 1) by (vm_compute; reflexivity).
  assert (Y : @fadd N a (@fadd N o o) = S754_finite false 8388609 1) by (vm_compute; reflexivity). rewrite X, Y. unfold b32_value, SF2R, F2R. cbn [Fnum Fexp cond_Zopp]. change (bpow radix2 1) with 2. lra.
Qed.
