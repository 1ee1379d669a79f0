(** * AgreeFacts: the indicators of one series agree with each other (C68). *)
From Coq Require Import Reals Lra List ZArith Bool Lia.
From Verif Require Import Num Py Tensor Streamable Common Finance Series Formulas Positions ER MovingFacts Linear RealFacts RealStats RealMarket RealLinear RealScale RealScale2 NormFacts
  SignalFacts ImplBasic ImplComp ImplScalar ImplWindow ImplMarket MarketReal Accuracy AccuracyMain AccuracyMarket Index AccuracyIndex Order OrderFacts Steady SteadyFacts SteadyMarket Agree.
Import ListNotations.
Local Open Scope R_scope.

(** ** From closed forms to output series *)
Definition run (g : list R -> R) (xs : list R) : list R := map g (hists [] xs).
Lemma run_at g xs n : (n < length xs)%nat -> at_pos (run g xs) n = g (upto n xs).
Proof. intros H. unfold at_pos, run. now rewrite nth_map_hists. Qed.
Lemma run_length g xs : length (run g xs) = length xs.
Proof. unfold run. now rewrite map_length, hists_length. Qed.
Lemma countable_short xs : countable xs -> @short (@F ER) (rev (map Fin xs)).
Proof. intros [_ H]. unfold short. rewrite rev_length, map_length. lia. Qed.
Lemma map_some {X Y} (f : X -> Y) l : l <> [] -> map f l <> [].
Proof. destruct l; [intros H; now elim H|intros _ H; discriminate H]. Qed.
Lemma of_scalars (op : @operator ER) (f : list ext -> ext) g okh xs :
  @streams ER _ op okh (@scalars ER) (fun hs => @scalars ER (map f hs)) -> okh (rev (map Fin xs)) ->
  (forall h, h <> [] -> f (map Fin h) = Fin (g h)) -> xs <> [] -> outputs op xs (run g xs).
Proof.
  intros (st & H & _) OK HF NE. split; [apply run_length|]. exists (st (rev (map Fin xs))), (st []). unfold reals. rewrite H; [|now apply map_some|exact OK].
  do 4 f_equal. change (@nil (@F ER)) with (map Fin []). change (@F ER) with ext. rewrite hists_map, map_map. unfold run. rewrite map_map. apply map_ext_in.
  intros h Hh. apply HF. assert (Q := hists_forall (fun _ => True) xs [] (Forall_nil _) ltac:(apply Forall_forall; auto)). rewrite Forall_forall in Q. now apply Q.
Qed.
Lemma single_streams (op : @operator ER) (f : list ext -> ext) :
  @streams ER _ op (ok_rows []) (tensors []) (fun hs => tensors [] (map (each [] f) hs)) ->
  forall xs : list ext, xs <> [] -> @short (@F ER) (rev xs) -> exists sf s0, call op (@scalars ER xs) None true = Ok (@scalars ER (map f (hists [] xs)), sf, s0).
Proof.
  intros (st & H & _) xs NE OK. specialize (H (map (@sing ER) xs)). exists (st (rev (map (@sing ER) xs))), (st []).
  assert (E : tensors [] (map (@sing ER) xs) = @scalars ER xs) by apply MarketFacts.tensors_single. rewrite E in H.
  rewrite H; [|now apply map_some|rewrite <- map_rev; now apply ok_rows_sing]. do 3 f_equal.
  assert (E2 : hists [] (map (@sing ER) xs) = map (map (@sing ER)) (hists [] xs)) by exact (hists_map (@sing ER) xs []). rewrite E2, map_map.
  rewrite <- MarketFacts.tensors_single. f_equal. rewrite map_map. apply map_ext. intros h. apply each_sing.
Qed.
Lemma of_tensors (op : @operator ER) (f : list ext -> ext) g xs :
  @streams ER _ op (ok_rows []) (tensors []) (fun hs => tensors [] (map (each [] f) hs)) ->
  (forall h, f (map Fin h) = Fin (g h)) -> countable xs -> outputs op xs (run g xs).
Proof.
  intros S F C. split; [apply run_length|]. destruct (single_streams op f S (map Fin xs)) as (sf & s0 & E); [apply map_some, C|now apply countable_short|].
  exists sf, s0. unfold reals. rewrite E. do 4 f_equal. change (@nil (@ER.ext)) with (map Fin []). rewrite hists_map, map_map. unfold run. rewrite map_map. apply map_ext. exact F.
Qed.

Section Operators.
Variable xs : list R.
Hypothesis C : countable xs.
Variable p : nat.
Hypothesis Hp : (1 <= p)%nat.
Lemma sma_outputs : outputs (SimpleMovingAverage (Z.of_nat p)) xs (run (rsma p) xs).
Proof. apply (of_tensors _ (@sma ER p)); [exact (@sma_streams ER [] p Hp)|intros; now apply sma_eq|exact C]. Qed.
Lemma ema_outputs : outputs (ExponentialMovingAverage (Z.of_nat p)) xs (run (rema p) xs).
Proof. apply (of_tensors _ (@ema ER p)); [exact (@ema_streams ER [] p Hp)|intros; now apply ema_eq|exact C]. Qed.
Lemma rma_outputs : outputs (RollingMovingAverage (Z.of_nat p)) xs (run (rrma p) xs).
Proof. apply (of_tensors _ (@rma ER p)); [exact (@rma_streams ER [] p Hp)|intros; now apply rma_eq|exact C]. Qed.
Lemma msd_outputs : outputs (MovingStandardDeviation (Z.of_nat p)) xs (run (rmsd p) xs).
Proof. apply (of_tensors _ (@msd ER p)); [exact (@msd_streams ER [] p Hp)|intros; now apply msd_eq|exact C]. Qed.
Lemma momentum_outputs : outputs (Momentum (Z.of_nat p)) xs (run (rmomentum p) xs).
Proof.
  apply (of_tensors _ (@momentum ER p)); [exact (@momentum_streams ER [] p Hp)| |exact C].
  intros l. unfold momentum, rmomentum. rewrite map_length. destruct (length l <=? p)%nat; [reflexivity|]. unfold now, ago. change (@f0 ER) with (Fin 0). rewrite !(map_nth Fin). reflexivity.
Qed.
(** The extrema. *)
Definition is_low (m : list R -> R) : Prop := forall h, h <> [] -> In (m h) h /\ forall x, In x h -> m h <= x.
Definition is_high (m : list R -> R) : Prop := forall h, h <> [] -> In (m h) h /\ forall x, In x h -> x <= m h.
Lemma gmin_outputs : exists m, is_low m /\ outputs GlobalMinimum xs (run m xs).
Proof.
  assert (P := lowest (@running ER flt) (fun h NE _ => running_min er_orderly h NE)).
  exists (fun h => real_of (@running ER flt (map Fin h))). split; [intros h NE; apply P, NE|].
  apply (of_scalars _ (@running ER flt) _ _ xs (@global_min_streams ER)); [apply I|intros h NE; now apply P|apply C].
Qed.
Lemma gmax_outputs : exists m, is_high m /\ outputs GlobalMaximum xs (run m xs).
Proof.
  assert (P := highest (@running ER fgt) (fun h NE _ => running_max er_orderly h NE)).
  exists (fun h => real_of (@running ER fgt (map Fin h))). split; [intros h NE; apply P, NE|].
  apply (of_scalars _ (@running ER fgt) _ _ xs (@global_max_streams ER)); [apply I|intros h NE; now apply P|apply C].
Qed.
Hypothesis Hb : (Z.of_nat p < 2147483648)%Z.
Lemma lmin_outputs : exists m, is_low m /\ outputs (LocalMinimum (Z.of_nat p)) xs (run (fun h => m (firstn p h)) xs).
Proof.
  assert (P := lowest (@frmin ER) (fun h NE H => Order.o_rmin _ _ er_orderly h NE H)).
  exists (fun h => real_of (@frmin ER (map Fin h))). split; [intros h NE; apply P, NE|].
  apply (of_scalars _ (fun h => @frmin ER (firstn p h)) _ _ xs (@local_min_streams ER p Hp Hb)); [now apply countable_short|intros h NE; rewrite firstn_map; now apply P, window_some|apply C].
Qed.
Lemma lmax_outputs : exists m, is_high m /\ outputs (LocalMaximum (Z.of_nat p)) xs (run (fun h => m (firstn p h)) xs).
Proof.
  assert (P := highest (@frmax ER) (fun h NE H => Order.o_rmax _ _ er_orderly h NE H)).
  exists (fun h => real_of (@frmax ER (map Fin h))). split; [intros h NE; apply P, NE|].
  apply (of_scalars _ (fun h => @frmax ER (firstn p h)) _ _ xs (@local_max_streams ER p Hp Hb)); [now apply countable_short|intros h NE; rewrite firstn_map; now apply P, window_some|apply C].
Qed.
End Operators.

(** ** Histories *)
Lemma upto_some {X} n (xs : list X) : (n < length xs)%nat -> upto n xs <> [].
Proof. intros H E. assert (Q := upto_length n xs H). rewrite E in Q. discriminate Q. Qed.
Lemma upto_next n (xs : list R) : (S n < length xs)%nat -> upto (S n) xs = nth (S n) xs 0 :: upto n xs.
Proof. intros H. now apply SignalFacts.upto_S. Qed.
Lemma low_le m h k : is_low m -> k <> [] -> (forall x, In x k -> In x h) -> m h <= m k.
Proof. intros M NK S. destruct (M k NK) as [I _]. assert (NH : h <> []) by (intros E; subst h; exact (S _ I)). destruct (M h NH) as [_ L]. apply L, S, I. Qed.
Lemma high_ge m h k : is_high m -> k <> [] -> (forall x, In x k -> In x h) -> m k <= m h.
Proof. intros M NK S. destruct (M k NK) as [I _]. assert (NH : h <> []) by (intros E; subst h; exact (S _ I)). destruct (M h NH) as [_ L]. apply L, S, I. Qed.
Lemma low_unique m m' h : is_low m -> is_low m' -> h <> [] -> m h = m' h.
Proof. intros A B NE. destruct (A h NE) as [A1 A2], (B h NE) as [B1 B2]. apply Rle_antisym; auto. Qed.
Lemma high_unique m m' h : is_high m -> is_high m' -> h <> [] -> m h = m' h.
Proof. intros A B NE. destruct (A h NE) as [A1 A2], (B h NE) as [B1 B2]. apply Rle_antisym; auto. Qed.
Lemma upto_in n (xs : list R) x : In x (upto n xs) -> In x xs.
Proof. unfold upto. rewrite <- in_rev. apply window_in. Qed.
Lemma upto_head n (xs : list R) : (n < length xs)%nat -> exists r, upto n xs = nth n xs 0 :: r.
Proof. destruct n as [|n]; intros H; [exists []; now apply SignalFacts.upto_0|exists (upto n xs); now apply upto_next]. Qed.
Lemma window_length p n (xs : list R) : (n < length xs)%nat -> (p <= n + 1)%nat -> length (firstn p (upto n xs)) = p.
Proof. intros H L. rewrite firstn_length, upto_length by exact H. lia. Qed.
Lemma last_window p n (xs : list R) : (n < length xs)%nat -> (p <= n + 1)%nat -> firstn p (upto n xs) = rev (last_numbers p n xs).
Proof.
  intros H L. unfold upto, last_numbers. rewrite firstn_rev, firstn_length. replace (Nat.min (S n) (length xs) - p)%nat with (n + 1 - p)%nat by lia.
  f_equal. rewrite skipn_firstn_comm. f_equal. lia.
Qed.
Lemma rsma_window p n xs : (n < length xs)%nat -> (p <= n + 1)%nat -> rsma p (upto n xs) = rmean (firstn p (upto n xs)).
Proof. intros H L. unfold rsma. rewrite upto_length by exact H. destruct (Nat.ltb_spec (S n) p); [lia|reflexivity]. Qed.
Lemma rmsd_window p n xs : (n < length xs)%nat -> (p <= n + 1)%nat -> rmsd p (upto n xs) = sqrt (rvar (firstn p (upto n xs))).
Proof. intros H L. unfold rmsd. rewrite upto_length by exact H. destruct (Nat.ltb_spec (S n) p); [lia|reflexivity]. Qed.

(** ** Extrema and averages *)
Lemma between_extrema lo hi h : is_low lo -> is_high hi -> h <> [] -> Forall (between (lo h) (hi h)) h.
Proof. intros A B NE. apply Forall_forall. intros x Hx. destruct (A h NE) as [_ A2], (B h NE) as [_ B2]. split; auto. Qed.
Lemma rema_between p h lo hi : (1 <= p <= length h)%nat -> Forall (between lo hi) h -> lo <= rema p h <= hi.
Proof. intros Hp H. destruct (ema_bounds p h lo hi Hp H) as (m & E & B). rewrite ema_eq in E by lia. injection E as <-. exact B. Qed.
Lemma rrma_between p h lo hi : (1 <= p <= length h)%nat -> Forall (between lo hi) h -> lo <= rrma p h <= hi.
Proof. intros Hp H. destruct (rma_bounds p h lo hi Hp H) as (m & E & B). rewrite rma_eq in E by lia. injection E as <-. exact B. Qed.
Theorem order_agrees p xs : (1 <= p)%nat -> (Z.of_nat p < 2147483648)%Z -> countable xs ->
  exists gmin lmin sma ema rma lmax gmax,
    outputs GlobalMinimum xs gmin /\ outputs (LocalMinimum (Z.of_nat p)) xs lmin /\ outputs (SimpleMovingAverage (Z.of_nat p)) xs sma /\
    outputs (ExponentialMovingAverage (Z.of_nat p)) xs ema /\ outputs (RollingMovingAverage (Z.of_nat p)) xs rma /\
    outputs (LocalMaximum (Z.of_nat p)) xs lmax /\ outputs GlobalMaximum xs gmax /\
    forall n, (n < length xs)%nat ->
      at_pos gmin n <= at_pos lmin n <= at_pos xs n /\ at_pos xs n <= at_pos lmax n <= at_pos gmax n /\
      ((p <= n + 1)%nat -> at_pos lmin n <= at_pos sma n <= at_pos lmax n /\ at_pos gmin n <= at_pos ema n <= at_pos gmax n /\ at_pos gmin n <= at_pos rma n <= at_pos gmax n) /\
      ((n + 1 < length xs)%nat -> at_pos gmin (n + 1) <= at_pos gmin n /\ at_pos gmax n <= at_pos gmax (n + 1)).
Proof.
  intros Hp Hb C. destruct (gmin_outputs xs C) as (gm & G1 & G2), (gmax_outputs xs C) as (gM & H1 & H2), (lmin_outputs xs C p Hp Hb) as (lm & L1 & L2), (lmax_outputs xs C p Hp Hb) as (lM & M1 & M2).
  do 7 eexists. split; [exact G2|]. split; [exact L2|]. split; [exact (sma_outputs xs C p Hp)|]. split; [exact (ema_outputs xs C p Hp)|]. split; [exact (rma_outputs xs C p Hp)|]. split; [exact M2|]. split; [exact H2|].
  intros n Hn. rewrite !(run_at _ xs n) by exact Hn. assert (NE := upto_some n xs Hn). destruct (upto_head n xs Hn) as (r & Er).
  assert (WI : In (at_pos xs n) (firstn p (upto n xs))) by (rewrite Er; destruct p as [|p]; [lia|now left]).
  assert (WN : firstn p (upto n xs) <> []) by (intros E; rewrite E in WI; exact WI).
  assert (A := low_le gm (upto n xs) (firstn p (upto n xs)) G1 WN (fun x => window_in p _ x)). assert (B := high_ge gM (upto n xs) (firstn p (upto n xs)) H1 WN (fun x => window_in p _ x)).
  rewrite (low_unique gm lm _ G1 L1 WN) in A. rewrite (high_unique gM lM _ H1 M1 WN) in B.
  split; [split; [exact A|]; now apply L1|]. split; [split; [|exact B]; now apply M1|]. split.
  - intros L. assert (U := between_extrema gm gM _ G1 H1 NE). assert (Lh := upto_length n xs Hn). split; [|split; [apply rema_between|apply rrma_between]; try exact U; lia].
    rewrite rsma_window by assumption. apply rmean_bounds; [exact WN|]. now apply between_extrema.
  - intros L. rewrite Nat.add_1_r in *. rewrite !(run_at _ xs (S n)), (upto_next n xs L) by exact L. split; [apply low_le|apply high_ge]; try assumption; intros x Hx; now right.
Qed.
Theorem windows_nest p q xs : (1 <= p)%nat -> (p <= q)%nat -> (Z.of_nat q < 2147483648)%Z -> countable xs ->
  exists low_p low_q high_p high_q,
    outputs (LocalMinimum (Z.of_nat p)) xs low_p /\ outputs (LocalMinimum (Z.of_nat q)) xs low_q /\
    outputs (LocalMaximum (Z.of_nat p)) xs high_p /\ outputs (LocalMaximum (Z.of_nat q)) xs high_q /\
    forall n, (n < length xs)%nat -> at_pos low_q n <= at_pos low_p n /\ at_pos high_p n <= at_pos high_q n.
Proof.
  intros Hp Hq Hb C. destruct (lmin_outputs xs C p Hp ltac:(lia)) as (m1 & A1 & B1), (lmin_outputs xs C q ltac:(lia) Hb) as (m2 & A2 & B2),
    (lmax_outputs xs C p Hp ltac:(lia)) as (m3 & A3 & B3), (lmax_outputs xs C q ltac:(lia) Hb) as (m4 & A4 & B4).
  do 4 eexists. split; [exact B1|]. split; [exact B2|]. split; [exact B3|]. split; [exact B4|]. intros n Hn. rewrite !run_at by exact Hn.
  assert (NE := window_some p _ Hp (upto_some n xs Hn)). rewrite (low_unique m1 m2), (high_unique m3 m4) by assumption.
  assert (S : forall x, In x (firstn p (upto n xs)) -> In x (firstn q (upto n xs))).
  { intros x. replace (firstn p (upto n xs)) with (firstn p (firstn q (upto n xs))) by (rewrite firstn_firstn; f_equal; lia). apply window_in. }
  split; [now apply low_le|now apply high_ge].
Qed.

(** ** Momentum *)
Lemma rsum_app u v : rsum (u ++ v) = rsum u + rsum v.
Proof. unfold rsum. induction u as [|x u IH]; cbn; [lra|]. rewrite IH. lra. Qed.
Lemma rsum_rev l : rsum (rev l) = rsum l.
Proof. induction l as [|x l IH]; [reflexivity|]. cbn [rev]. rewrite rsum_app, IH. unfold rsum. cbn. lra. Qed.
Lemma rsum_cons x l : rsum (x :: l) = x + rsum l.
Proof. reflexivity. Qed.
Lemma rsum_window x h p : (1 <= p)%nat -> (p <= length h)%nat -> rsum (firstn p (x :: h)) = rsum (firstn p h) + (x - nth (p - 1) h 0).
Proof.
  intros Hp L. destruct p as [|p]; [lia|]. change (firstn (S p) (x :: h)) with (x :: firstn p h). rewrite Nat.sub_succ, Nat.sub_0_r, rsum_cons.
  assert (E : firstn (S p) h = firstn p h ++ [nth p h 0]).
  { clear Hp. revert h L. induction p as [|p IH]; intros [|y h] L; cbn [length] in L; try lia; [reflexivity|]. cbn [firstn nth app]. f_equal. apply (IH h). lia. }
  rewrite E, rsum_app, rsum_cons. change (rsum []) with 0. lra.
Qed.
Theorem momentum_agrees p xs : (1 <= p)%nat -> (Z.of_nat p < 2147483647)%Z -> countable xs ->
  exists sma mom low high,
    outputs (SimpleMovingAverage (Z.of_nat p)) xs sma /\ outputs (Momentum (Z.of_nat p)) xs mom /\
    outputs (LocalMinimum (Z.of_nat (p + 1))) xs low /\ outputs (LocalMaximum (Z.of_nat (p + 1))) xs high /\
    forall n, (p <= n < length xs)%nat ->
      at_pos sma n - at_pos sma (n - 1) = at_pos mom n / INR p /\ Rabs (at_pos mom n) <= at_pos high n - at_pos low n.
Proof.
  intros Hp Hb C. destruct (lmin_outputs xs C (p + 1) ltac:(lia) ltac:(lia)) as (lm & L1 & L2), (lmax_outputs xs C (p + 1) ltac:(lia) ltac:(lia)) as (lM & M1 & M2).
  do 4 eexists. split; [exact (sma_outputs xs C p Hp)|]. split; [exact (momentum_outputs xs C p Hp)|]. split; [exact L2|]. split; [exact M2|].
  intros n [H1 H2]. destruct n as [|n]; [lia|]. rewrite Nat.sub_succ, Nat.sub_0_r. rewrite !(run_at _ xs (S n)), (run_at _ xs n) by lia.
  rewrite !rsma_window by lia. unfold rmomentum. assert (Lh := upto_length n xs ltac:(lia)). assert (Lk := upto_length (S n) xs H2). rewrite Lk. destruct (Nat.leb_spec (S (S n)) p); [lia|].
  rewrite (upto_next n xs H2) in *. set (h := upto n xs) in *. set (x := nth (S n) xs 0) in *. split.
  - unfold rmean. rewrite rsum_window by lia. rewrite !firstn_length. cbn [length]. replace (Nat.min p (S (length h))) with p by lia. replace (Nat.min p (length h)) with p by lia.
    destruct p as [|p]; [lia|]. cbn [nth]. rewrite Nat.sub_succ, Nat.sub_0_r. field. apply not_0_INR. lia.
  - change (nth 0 (x :: h) 0) with x. set (w := firstn (p + 1) (x :: h)) in *. assert (Iw : forall i, (i <= p)%nat -> In (nth i (x :: h) 0) w).
    { intros i Hi. replace (nth i (x :: h) 0) with (nth i w 0) by (unfold w; apply nth_firstn; lia). apply nth_In. unfold w. rewrite firstn_length. cbn [length]. lia. }
    assert (I0 := Iw 0%nat ltac:(lia)). change (nth 0 (x :: h) 0) with x in I0. assert (I1 := Iw p ltac:(lia)). assert (NW : w <> []) by (intros E; rewrite E in I0; exact I0).
    destruct (L1 w NW) as [_ A], (M1 w NW) as [_ B]. assert (A0 := A _ I0). assert (A1 := A _ I1). assert (B0 := B _ I0). assert (B1 := B _ I1).
    unfold Rabs. destruct (Rcase_abs _); lra.
Qed.

(** ** Spread *)
Lemma rmean_le {A} (f g : A -> R) l : l <> [] -> (forall x, In x l -> f x <= g x) -> rmean (map f l) <= rmean (map g l).
Proof.
  intros NE H. unfold rmean. rewrite !map_length. apply Rmult_le_compat_r; [apply Rlt_le, Rinv_0_lt_compat, INR_pos; destruct l; [easy|cbn; lia]|].
  clear NE. induction l as [|x l IH]; [apply Rle_refl|]. cbn [map]. rewrite !rsum_cons. apply Rplus_le_compat; [apply H; now left|apply IH; intros y Hy; apply H; now right].
Qed.
Lemma popoviciu l lo hi : l <> [] -> Forall (between lo hi) l -> rvar l <= (hi - lo) / 2 * ((hi - lo) / 2).
Proof.
  intros NE B. rewrite rvar_moments by exact NE. set (m := rmean l).
  assert (Q : rmean (map (fun x => x * x) l) <= rmean (map (fun x => (lo + hi) * x + - (lo * hi)) l)).
  { apply rmean_le; [exact NE|]. intros x Hx. rewrite Forall_forall in B. destruct (B x Hx). assert (0 <= (hi - x) * (x - lo)) by (apply Rmult_le_pos; lra). lra. }
  rewrite (rmean_plus (fun x => (lo + hi) * x) (fun _ => - (lo * hi))), (rmean_scale (lo + hi) (fun x => x)), rmean_const, map_id in Q by exact NE. fold m in Q.
  assert (S := Rle_0_sqr (m - (lo + hi) / 2)). unfold Rsqr in S. nra.
Qed.
Theorem spread_agrees p xs : (1 <= p)%nat -> (Z.of_nat p < 2147483648)%Z -> countable xs ->
  exists sma msd low high squares,
    outputs (SimpleMovingAverage (Z.of_nat p)) xs sma /\ outputs (MovingStandardDeviation (Z.of_nat p)) xs msd /\
    outputs (LocalMinimum (Z.of_nat p)) xs low /\ outputs (LocalMaximum (Z.of_nat p)) xs high /\
    outputs (SimpleMovingAverage (Z.of_nat p)) (map (fun x => x * x) xs) squares /\
    forall n, (n < length xs)%nat -> (p <= n + 1)%nat ->
      0 <= at_pos msd n <= (at_pos high n - at_pos low n) / 2 /\ at_pos sma n * at_pos sma n + at_pos msd n * at_pos msd n = at_pos squares n.
Proof.
  intros Hp Hb C. destruct (lmin_outputs xs C p Hp Hb) as (lm & L1 & L2), (lmax_outputs xs C p Hp Hb) as (lM & M1 & M2).
  assert (C2 : countable (map (fun x => x * x) xs)) by (split; [apply map_some, C|rewrite map_length; apply C]).
  do 5 eexists. split; [exact (sma_outputs xs C p Hp)|]. split; [exact (msd_outputs xs C p Hp)|]. split; [exact L2|]. split; [exact M2|]. split; [exact (sma_outputs _ C2 p Hp)|].
  intros n Hn L. rewrite !(run_at _ xs n) by exact Hn. rewrite run_at by now rewrite map_length. rewrite !rsma_window, rmsd_window by (rewrite ?map_length; assumption).
  rewrite upto_map, firstn_map. assert (NE := window_some p _ Hp (upto_some n xs Hn)). set (w := firstn p (upto n xs)) in *. assert (V := rvar_nonneg w).
  assert (B := between_extrema lm lM w L1 M1 NE). assert (P := popoviciu w _ _ NE B). split; [split; [apply sqrt_pos|]|rewrite sqrt_sqrt by exact V; rewrite rvar_moments by exact NE; lra].
  assert (D : 0 <= (lM w - lm w) / 2). { destruct w as [|x w]; [easy|]. inversion B as [|? ? [B1 B2] _]; subst. lra. }
  rewrite <- (sqrt_square ((lM w - lm w) / 2)) by exact D. now apply sqrt_le_1_alt.
Qed.

(** ** Bands *)
Lemma outside_rev lo hi l : outside lo hi (rev l) = outside lo hi l.
Proof.
  unfold outside. induction l as [|x l IH]; [reflexivity|]. cbn [rev]. rewrite filter_app, app_length, IH. cbn [filter].
  destruct (Rlt_dec x lo); [|destruct (Rlt_dec hi x)]; cbn [length]; lia.
Qed.
Lemma outside_sum lo hi d m l : (forall x, x < lo \/ hi < x -> d <= (x - m) * (x - m)) -> INR (outside lo hi l) * d <= rsum (map (fun x => (x - m) * (x - m)) l).
Proof.
  intros H. unfold outside. induction l as [|x l IH]; [cbn; lra|]. cbn [filter map]. rewrite rsum_cons. assert (Q := Rle_0_sqr (x - m)). unfold Rsqr in Q.
  destruct (Rlt_dec x lo) as [A|A]; [|destruct (Rlt_dec hi x) as [B|B]]; cbn [length]; rewrite ?S_INR; try (specialize (H x)); lra.
Qed.
Lemma rsum_var l : l <> [] -> rsum (map (fun x => (x - rmean l) * (x - rmean l)) l) = INR (length l) * rvar l.
Proof. intros NE. unfold rvar. unfold rmean at 3. rewrite map_length. field. apply not_0_INR. destruct l; [easy|cbn; lia]. Qed.
Lemma none_outside lo hi l : (forall x, In x l -> lo <= x <= hi) -> outside lo hi l = 0%nat.
Proof.
  unfold outside. induction l as [|x l IH]; intros H; [reflexivity|]. cbn [filter]. destruct (H x (or_introl eq_refl)).
  destruct (Rlt_dec x lo); [lra|]. destruct (Rlt_dec hi x); [lra|]. apply IH. intros y Hy. apply H. now right.
Qed.
(** At most a part 1 / k² of the numbers lies further than k deviations from the mean. *)
Lemma chebyshev l k : l <> [] -> 0 <= k -> INR (outside (rmean l - sqrt (rvar l) * k) (rmean l + sqrt (rvar l) * k) l) * (k * k) <= INR (length l).
Proof.
  intros NE Hk. set (m := rmean l). set (s := sqrt (rvar l)). assert (V := rvar_nonneg l). assert (S0 : 0 <= s) by apply sqrt_pos. assert (SS : s * s = rvar l) by (apply sqrt_sqrt, V).
  assert (NL := pos_INR (length l)). assert (NO := pos_INR (outside (m - s * k) (m + s * k) l)).
  destruct (Rle_lt_or_eq_dec _ _ S0) as [SP|SZ].
  - assert (Q := outside_sum (m - s * k) (m + s * k) (s * k * (s * k)) m l). assert (RV := rsum_var l NE). fold m in RV. rewrite RV, <- SS in Q. set (c := INR (outside _ _ l)) in *.
    assert (Q' : c * (s * k * (s * k)) <= INR (length l) * (s * s)).
    { apply Q. intros x Hx. assert (0 <= s * k) by (apply Rmult_le_pos; lra). destruct Hx; nra. }
    apply (Rmult_le_reg_r (s * s)); [nra|]. replace (c * (k * k) * (s * s)) with (c * (s * k * (s * k))) by ring. exact Q'.
  - assert (Z : rvar l = 0) by (rewrite <- SS, <- SZ; ring). apply rvar_zero in Z; [|exact NE].
    rewrite none_outside; [cbn; lra|]. intros x Hx. assert (E : m = x) by (apply rmean_constant; [exact NE|]; intros y Hy; now apply Z). rewrite <- SZ. lra.
Qed.
(** No number lies further than sqrt (p - 1) deviations from the mean. *)
Lemma rsum_square l : rsum l * rsum l <= INR (length l) * rsum (map (fun x => x * x) l).
Proof.
  destruct l as [|x l]; [unfold rsum; cbn; lra|]. set (w := x :: l). assert (NE : w <> []) by discriminate. assert (V := rvar_nonneg w). rewrite rvar_moments in V by exact NE.
  unfold rmean in V. rewrite map_length in V. assert (P : 0 < INR (length w)) by (apply INR_pos; cbn; lia). set (n := INR (length w)) in *.
  assert (Q : 0 <= (rsum (map (fun x => x * x) w) / n - rsum w / n * (rsum w / n)) * (n * n)) by (apply Rmult_le_pos; [exact V|nra]).
  replace ((rsum (map (fun x => x * x) w) / n - rsum w / n * (rsum w / n)) * (n * n)) with (n * rsum (map (fun x => x * x) w) - rsum w * rsum w) in Q by (field; lra). lra.
Qed.
Lemma samuelson l x : In x l -> (x - rmean l) * (x - rmean l) <= (INR (length l) - 1) * rvar l.
Proof.
  intros I. assert (NE : l <> []) by (intros E; rewrite E in I; exact I). set (m := rmean l). assert (RV := rsum_var l NE). fold m in RV.
  assert (Z : rsum (map (fun y => y - m) l) = 0).
  { assert (Q := rmean_plus (fun y => y) (fun _ => - m) l). rewrite map_id, rmean_const in Q by exact NE. fold m in Q. unfold rmean in Q at 1. rewrite map_length in Q.
    assert (P : 0 < INR (length l)) by (apply INR_pos; destruct l; [easy|cbn; lia]). unfold Rminus. replace (rsum (map (fun x0 => x0 + - m) l)) with (rsum (map (fun x0 => x0 + - m) l) / INR (length l) * INR (length l)) by (field; lra). rewrite Q. ring. }
  apply in_split in I as (u & v & E). assert (SP : forall f : R -> R, rsum (map f l) = rsum (map f u) + (f x + rsum (map f v))) by (intros f; rewrite E, map_app, rsum_app; reflexivity). rewrite SP in RV, Z.
  assert (S := rsum_square (map (fun y => y - m) (u ++ v))). rewrite map_length, map_map, !map_app, !rsum_app in S.
  assert (Ln : INR (length l) = INR (length (u ++ v)) + 1) by (rewrite E, !app_length; cbn [length]; rewrite Nat.add_succ_r, S_INR; ring).
  rewrite Ln in RV |- *. set (k := INR (length (u ++ v))) in *. assert (K0 : 0 <= k) by apply pos_INR.
  set (a := rsum (map (fun y => y - m) u)) in *. set (b := rsum (map (fun y => y - m) v)) in *.
  set (a2 := rsum (map (fun y => (y - m) * (y - m)) u)) in *. set (b2 := rsum (map (fun y => (y - m) * (y - m)) v)) in *.
  assert (D : x - m = - (a + b)) by lra. set (d := x - m) in *. assert (T : a2 + b2 = (k + 1) * rvar l - d * d) by lra. rewrite T in S.
  assert (S' : d * d <= k * ((k + 1) * rvar l - d * d)) by (rewrite D at 1 2; lra).
  apply (Rmult_le_reg_l (k + 1)); [lra|]. nra.
Qed.
Lemma samuelson_bands l k : l <> [] -> 0 <= k -> INR (length l) - 1 <= k * k -> outside (rmean l - sqrt (rvar l) * k) (rmean l + sqrt (rvar l) * k) l = 0%nat.
Proof.
  intros NE Hk H. apply none_outside. intros x Hx. assert (Q := samuelson l x Hx). assert (V := rvar_nonneg l). assert (SS := sqrt_sqrt _ V). set (s := sqrt (rvar l)) in *.
  assert (S0 : 0 <= s) by apply sqrt_pos. assert (P : (x - rmean l) * (x - rmean l) <= s * k * (s * k)) by (eapply Rle_trans; [exact Q|]; rewrite <- SS; nra).
  assert (P0 : 0 <= s * k) by (apply Rmult_le_pos; lra). destruct (sq_le_abs _ _ P0 P). lra.
Qed.
Theorem bands_agree p factor k xs : (1 <= p)%nat -> @Series.num ER factor = Fin k -> 0 <= k -> countable xs ->
  exists sma msd lower middle upper sf s0,
    outputs (SimpleMovingAverage (Z.of_nat p)) xs sma /\ outputs (MovingStandardDeviation (Z.of_nat p)) xs msd /\
    call (BollingerBands (Z.of_nat p) factor) (reals xs) None true = Ok (Tup [reals lower; reals middle; reals upper], sf, s0) /\
    length lower = length xs /\ length middle = length xs /\ length upper = length xs /\
    forall n, (n < length xs)%nat ->
      at_pos middle n = at_pos sma n /\ at_pos lower n = at_pos sma n - k * at_pos msd n /\ at_pos upper n = at_pos sma n + k * at_pos msd n /\
      ((p <= n + 1)%nat ->
        INR (outside (at_pos lower n) (at_pos upper n) (last_numbers p n xs)) * (k * k) <= INR p /\
        (INR p - 1 <= k * k -> outside (at_pos lower n) (at_pos upper n) (last_numbers p n xs) = 0%nat)).
Proof.
  intros Hp Ek Hk C. destruct (@bollinger_streams ER [] p factor Hp) as (st & H & _). specialize (H (map (@sing ER) (map Fin xs))).
  assert (E : tensors [] (map (@sing ER) (map Fin xs)) = reals xs) by apply MarketFacts.tensors_single. rewrite E in H.
  exists (run (rsma p) xs), (run (rmsd p) xs), (run (fun h => rsma p h - rmsd p h * k) xs), (run (rsma p) xs), (run (fun h => rsma p h + rmsd p h * k) xs). do 2 eexists.
  split; [exact (sma_outputs xs C p Hp)|]. split; [exact (msd_outputs xs C p Hp)|]. split.
  { rewrite H; [|apply map_some, map_some, C|rewrite <- map_rev; apply ok_rows_sing; now apply countable_short].
    assert (E2 : hists [] (map (@sing ER) (map Fin xs)) = map (map (@sing ER)) (map (map Fin) (hists [] xs))).
    { rewrite <- (hists_map Fin xs []). exact (hists_map (@sing ER) (map Fin xs) []). }
    rewrite E2.
    assert (Q : forall (f : list ext -> ext) g, (forall h, f (map Fin h) = Fin (g h)) -> tensors [] (map (each [] f) (map (map (@sing ER)) (map (map Fin) (hists [] xs)))) = reals (run g xs)).
    { intros f g Hf. unfold reals. rewrite <- MarketFacts.tensors_single. f_equal. unfold run. rewrite !map_map. apply map_ext. intros h. rewrite <- Hf. apply (each_sing (N := ER)). }
    rewrite (Q _ (fun h => rsma p h - rmsd p h * k)), (Q _ (rsma p)), (Q _ (fun h => rsma p h + rmsd p h * k)); [reflexivity|..].
    - intros h. rewrite sma_eq, msd_eq, Ek by exact Hp. reflexivity.
    - intros h. now apply sma_eq.
    - intros h. rewrite sma_eq, msd_eq, Ek by exact Hp. reflexivity. }
  rewrite !run_length. do 3 (split; [reflexivity|]). intros n Hn. rewrite !run_at by exact Hn. split; [reflexivity|]. split; [ring|]. split; [ring|]. intros L.
  rewrite !rsma_window, !rmsd_window by assumption. assert (W := last_window p n xs Hn L). assert (Lw := window_length p n xs Hn L). assert (NE := window_some p _ Hp (upto_some n xs Hn)).
  rewrite <- (outside_rev _ _ (last_numbers p n xs)), <- W. set (w := firstn p (upto n xs)) in *. split; [rewrite <- Lw; now apply chebyshev|].
  intros K. apply samuelson_bands; [exact NE|exact Hk|now rewrite Lw].
Qed.

(** The factor above which nothing leaves the bands cannot be smaller. *)
Lemma rsum_repeat x n : rsum (repeat x n) = INR n * x.
Proof. induction n as [|n IH]; [cbn; lra|]. cbn [repeat]. rewrite rsum_cons, IH, S_INR. lra. Qed.
Lemma map_repeat' {X Y} (f : X -> Y) x n : map f (repeat x n) = repeat (f x) n.
Proof. induction n as [|n IH]; [reflexivity|]. cbn. now rewrite IH. Qed.
Theorem bands_sharp p factor k : (1 <= p)%nat -> (Z.of_nat p < 2147483648)%Z -> @Series.num ER factor = Fin k -> 0 <= k -> k * k < INR p - 1 ->
  exists xs lower middle upper sf s0, length xs = p /\
    call (BollingerBands (Z.of_nat p) factor) (reals xs) None true = Ok (Tup [reals lower; reals middle; reals upper], sf, s0) /\
    at_pos upper (p - 1) < at_pos xs (p - 1).
Proof.
  intros Hp Hb Ek Hk K. set (xs := repeat 0 (p - 1) ++ [1]). assert (Lx : length xs = p) by (unfold xs; rewrite app_length, repeat_length; cbn; lia).
  assert (C : countable xs) by (split; [intros E; rewrite E in Lx; cbn in Lx; lia|rewrite Lx; exact Hb]).
  destruct (bands_agree p factor k xs Hp Ek Hk C) as (s & d & lo & mi & hi & sf & s0 & (_ & S1) & (_ & D1) & E & _ & _ & _ & H). exists xs, lo, mi, hi, sf, s0. split; [exact Lx|]. split; [exact E|].
  assert (U := H (p - 1)%nat ltac:(lia)). destruct U as (_ & _ & U & _). rewrite U. clear U E H.
  assert (Q : forall a b, reals a = reals b -> a = b).
  { intros a b Q. unfold reals, scalars in Q. injection Q as _ Q. assert (Q' : forall u v : list R, map Fin u = map Fin v -> u = v).
    { clear. induction u as [|x u IH]; intros [|y v] Q; try discriminate Q; [reflexivity|]. injection Q as -> Q. f_equal. now apply IH. } now apply Q'. }
  assert (OUT : forall v v' a b a' b' : @val ER, @Ok (@val ER * @val ER * @val ER) (v, a, b) = Ok (v', a', b') -> v = v') by (clear; intros; congruence).
  destruct S1 as (s1 & s2 & S1). destruct (sma_outputs xs C p Hp) as (_ & s3 & s4 & S2). rewrite S2 in S1. apply OUT in S1. apply Q in S1. rewrite <- S1.
  destruct D1 as (d1 & d2 & D1). destruct (msd_outputs xs C p Hp) as (_ & d3 & d4 & D2). rewrite D2 in D1. apply OUT in D1. apply Q in D1. rewrite <- D1.
  rewrite !run_at by lia. rewrite rsma_window, rmsd_window by lia.
  assert (W : firstn p (upto (p - 1) xs) = 1 :: repeat 0 (p - 1)).
  { unfold upto. rewrite (firstn_all2 xs) by lia. rewrite firstn_all2 by (rewrite rev_length; lia). unfold xs. rewrite rev_app_distr. cbn. f_equal. clear.
    assert (A : forall n, repeat 0 n ++ [0] = 0 :: repeat 0 n) by (intros m; induction m as [|m IH]; [reflexivity|]; cbn; now rewrite IH). induction (p - 1)%nat as [|n IH]; [reflexivity|]. cbn. now rewrite IH, A. }
  rewrite W. assert (X1 : at_pos xs (p - 1) = 1) by (unfold at_pos, xs; rewrite app_nth2; rewrite repeat_length; [now rewrite Nat.sub_diag|lia]). rewrite X1.
  assert (P := INR_pos p Hp). assert (Ip : INR (p - 1) = INR p - 1) by (rewrite minus_INR by lia; reflexivity).
  rewrite rvar_moments by discriminate. unfold rmean. cbn [map]. rewrite !map_repeat', !rsum_cons, !rsum_repeat. cbn [length]. rewrite !repeat_length. replace (S (p - 1)) with p by lia. rewrite Ip. set (q := INR p) in *.
  replace (((1 * 1 + (q - 1) * (0 * 0)) / q - (1 + (q - 1) * 0) / q * ((1 + (q - 1) * 0) / q))) with ((q - 1) / (q * q)) by (field; lra).
  rewrite sqrt_div_alt by nra. rewrite sqrt_square by lra. assert (R0 : 0 <= q - 1) by nra. assert (SS := sqrt_sqrt _ R0). set (r := sqrt (q - 1)) in *. assert (R1 : 0 <= r) by apply sqrt_pos.
  assert (R2 : k < r) by nra. apply (Rmult_lt_reg_r q); [exact P|]. replace (((1 + (q - 1) * 0) / q + k * (r / q)) * q) with (1 + k * r) by (field; lra). nra.
Qed.

(** ** The relative strength index *)
Lemma rchanges_length h : length (rchanges h) = (length h - 1)%nat.
Proof. induction h as [|x [|y h] IH]; [reflexivity..|]. change (rchanges (x :: y :: h)) with ((x - y) :: rchanges (y :: h)). cbn [length] in *. lia. Qed.
Lemma momentum_steps xs n : (S n < length xs)%nat -> upto n (tl (run (rmomentum 1) xs)) = rchanges (upto (S n) xs).
Proof.
  assert (Q : forall m, (S m < length xs)%nat -> nth m (tl (run (rmomentum 1) xs)) 0 = nth (S m) xs 0 - nth m xs 0).
  { intros m Hm. replace (nth m (tl (run (rmomentum 1) xs)) 0) with (at_pos (run (rmomentum 1) xs) (S m)).
    - rewrite run_at by exact Hm. unfold rmomentum. rewrite upto_length by exact Hm. cbn [Nat.leb]. rewrite (upto_next m xs Hm). cbn [nth].
      destruct (upto_head m xs ltac:(lia)) as (r & Er). rewrite Er. reflexivity.
    - unfold at_pos. destruct (run (rmomentum 1) xs) as [|a l]; [now destruct m|reflexivity]. }
  assert (L : length (tl (run (rmomentum 1) xs)) = (length xs - 1)%nat) by (rewrite <- (run_length (rmomentum 1) xs); destruct (run (rmomentum 1) xs); cbn; lia).
  induction n as [|n IH]; intros H.
  - rewrite (SignalFacts.upto_0 _ 0) by lia. rewrite (upto_next 0 xs H), (SignalFacts.upto_0 xs 0) by lia. cbn [rchanges]. now rewrite Q.
  - rewrite (SignalFacts.upto_S n _ 0) by lia. rewrite IH by lia. rewrite (upto_next (S n) xs H), Q by exact H. rewrite (upto_next n xs) by lia. reflexivity.
Qed.
Theorem strength_agrees p xs : (1 <= p)%nat -> (p < length xs)%nat -> countable xs ->
  exists steps up_down moves (index : list ext) sf s0,
    outputs (Momentum 1) xs steps /\ outputs (RollingMovingAverage (Z.of_nat p)) (tl steps) up_down /\
    outputs (RollingMovingAverage (Z.of_nat p)) (map Rabs (tl steps)) moves /\
    call (RelativeStrengthIndex (Z.of_nat p)) (reals xs) None true = Ok (@scalars ER index, sf, s0) /\ length index = length xs /\
    forall n, (p <= n < length xs)%nat -> 0 < at_pos moves (n - 1) ->
      nth n index (Fin 0) = Fin (50 + 50 * (at_pos up_down (n - 1) / at_pos moves (n - 1))).
Proof.
  intros Hp Hl C. set (steps := run (rmomentum 1) xs). assert (Ls : length (tl steps) = (length xs - 1)%nat) by (unfold steps; rewrite <- (run_length (rmomentum 1) xs); destruct (run (rmomentum 1) xs); cbn; lia).
  assert (C1 : countable (tl steps)) by (destruct C as [_ C]; split; [intros E; rewrite E in Ls; cbn in Ls; lia|rewrite Ls; lia]).
  assert (C2 : countable (map Rabs (tl steps))) by (destruct C1; split; [now apply map_some|now rewrite map_length]).
  destruct (@rsi_streams ER p Hp) as (st & H & _). exists steps. do 2 eexists. exists (map (@rsi ER p) (hists [] (map Fin xs))). do 2 eexists.
  split; [exact (momentum_outputs xs C 1 ltac:(lia))|]. split; [exact (rma_outputs _ C1 p Hp)|]. split; [exact (rma_outputs _ C2 p Hp)|].
  split; [unfold reals; apply H; [apply map_some, C|now apply countable_short]|]. split; [now rewrite map_length, hists_length, map_length|].
  intros [|n] [H1 H2] P; [lia|]. rewrite Nat.sub_succ, Nat.sub_0_r in *. rewrite (run_at _ (tl steps)) by lia. rewrite (run_at _ (map Rabs (tl steps))) in P |- * by (rewrite map_length; lia).
  rewrite (upto_map Rabs) in P |- *. assert (MS := momentum_steps xs n H2). fold steps in MS. rewrite MS in P |- *.
  change (nth (S n) (map (@rsi ER p) (hists [] (map Fin xs))) (Fin 0) = Fin (50 + 50 * (rrma p (rchanges (upto (S n) xs)) / rrma p (map Rabs (rchanges (upto (S n) xs)))))).
  assert (E : nth (S n) (map (@rsi ER p) (hists [] (map Fin xs))) (Fin 0) = @rsi ER p (upto (S n) (map Fin xs))) by (apply nth_map_hists; now rewrite map_length).
  rewrite E, upto_map. assert (Lh := upto_length (S n) xs H2). rewrite rsi_exact; [|exact Hp|lia|exact P]. f_equal.
  rewrite average_split in P |- *. set (c := rchanges (upto (S n) xs)) in *.
  assert (D : rrma p c = 1 * rrma p (map up c) + (-1) * rrma p (map dn c)).
  { rewrite <- rrma_linear by now rewrite !map_length. f_equal. clear. unfold blend. induction c as [|x c IH]; [reflexivity|]. cbn [map combine fst snd]. rewrite <- IH. f_equal. unfold up, dn, Rmax. destruct (Rle_dec 0 x), (Rle_dec 0 (- x)); lra. }
  rewrite D. field. lra.
Qed.

(** ** Drawdown *)
Theorem drawdown_agrees x0 r : let xs := x0 :: r in (Z.of_nat (length xs) < 2147483648)%Z -> 1 / 10000 <= x0 ->
  exists peaks depths sf s0,
    outputs GlobalMaximum xs peaks /\ call Drawdown (reals xs) None true = Ok (drawdown_reals depths, sf, s0) /\ length depths = length xs /\
    forall n, (n < length xs)%nat -> x0 <= at_pos peaks n /\ fst (nth n depths (0, 0%Z)) = at_pos xs n / at_pos peaks n - 1.
Proof.
  intros xs Hl H0. assert (C : countable xs) by (split; [discriminate|exact Hl]). destruct (gmax_outputs xs C) as (gM & M1 & M2).
  destruct (@drawdown_streams ER) as (st & H & _). exists (run gM xs), (map (fun h => (rdrawdown h, @under_water ER (map Fin h))) (hists [] xs)). do 2 eexists. split; [exact M2|].
  split. { unfold reals. rewrite H; [|apply map_some, C|unfold below31; rewrite rev_length, map_length; exact Hl]. unfold drawdown_reals. do 4 f_equal.
    change (@nil (@F ER)) with (map Fin []). change (@F ER) with ext. rewrite hists_map, !map_map. apply map_ext. intros h. cbn [fst snd]. f_equal. apply rdrawdown_fin. }
  split; [now rewrite map_length, hists_length|]. intros n Hn. rewrite run_at by exact Hn.
  assert (I0 : In x0 (upto n xs)) by (unfold upto; rewrite <- in_rev; now left). assert (NE := upto_some n xs Hn). destruct (M1 _ NE) as [M3 M4]. assert (G := M4 _ I0). split; [exact G|].
  rewrite (nth_map_hists (fun h => (rdrawdown h, @under_water ER (map Fin h))) xs n) by exact Hn. cbn [fst].
  destruct n as [|n].
  - rewrite (SignalFacts.upto_0 xs 0) in * by exact Hn. cbn [rdrawdown rpeak]. destruct (Rlt_dec 0 (1 / 10000)); [|lra]. destruct M3 as [E|[]]. rewrite <- E. unfold at_pos. cbn [nth xs]. field. lra.
  - rewrite (upto_next n xs Hn) in *. set (x := nth (S n) xs 0) in *. change (at_pos xs (S n)) with x. set (h := upto n xs) in *. cbn [rdrawdown].
    assert (I1 : In x0 h) by (unfold h, upto; rewrite <- in_rev; now left). assert (P1 := rpeak_upper h). rewrite Forall_forall in P1. assert (P2 := P1 _ I1).
    destruct (Rlt_dec (rpeak h) (1 / 10000)); [lra|].
    assert (P3 : In (rpeak h) h) by (destruct (rpeak_in h); [lra|assumption]).
    assert (E : gM (x :: h) = Rmax x (rpeak h)).
    { apply Rle_antisym; [|apply Rmax_lub; apply M4; [now left|now right]]. destruct M3 as [E|E]; [rewrite <- E; apply Rmax_l|]. eapply Rle_trans; [now apply P1|apply Rmax_r]. }
    rewrite E. unfold Rmax, Rmin. assert (Pp : 0 < rpeak h) by lra. destruct (Rle_dec x (rpeak h)) as [A|A]; destruct (Rle_dec 0 (x / rpeak h - 1)) as [B|B].
    + assert (x / rpeak h <= 1) by (apply (Rmult_le_reg_r (rpeak h)); [exact Pp|]; unfold Rdiv; rewrite Rmult_assoc, Rinv_l; lra). lra.
    + reflexivity.
    + field. lra.
    + exfalso. apply B. assert (1 <= x / rpeak h) by (apply (Rmult_le_reg_r (rpeak h)); [exact Pp|]; unfold Rdiv; rewrite Rmult_assoc, Rinv_l; lra). lra.
Qed.

(** ** The two averages with memory *)
Theorem memories_agree p xs : (1 <= p)%nat -> countable xs ->
  exists ema rma, outputs (ExponentialMovingAverage (Z.of_nat (2 * p - 1))) xs ema /\ outputs (RollingMovingAverage (Z.of_nat p)) xs rma /\
    forall n m, (2 * p - 1 <= n + 1)%nat -> (n + m < length xs)%nat ->
      at_pos ema (n + m) - at_pos rma (n + m) = ((INR p - 1) / INR p) ^ m * (at_pos ema n - at_pos rma n).
Proof.
  intros Hp C. do 2 eexists. split; [exact (ema_outputs xs C (2 * p - 1) ltac:(lia))|]. split; [exact (rma_outputs xs C p Hp)|].
  intros n m L. assert (P := INR_pos p Hp). assert (EP : INR (2 * p - 1) = 2 * INR p - 1) by (rewrite minus_INR, mult_INR by lia; reflexivity).
  induction m as [|m IH]; intros H; [rewrite Nat.add_0_r; cbn [pow]; lra|]. rewrite <- tech_pow_Rmult, Rmult_assoc, <- IH by lia. rewrite Nat.add_succ_r in *.
  rewrite !(run_at _ xs (S (n + m))), !(run_at _ xs (n + m)) by lia. rewrite (upto_next (n + m) xs H). assert (Lh := upto_length (n + m) xs ltac:(lia)). set (h := upto (n + m) xs) in *.
  cbn [rema rrma]. cbn [length]. rewrite Lh. destruct (Nat.leb_spec (S (S (n + m))) (2 * p - 1)); [lia|]. destruct (Nat.leb_spec (S (S (n + m))) p); [lia|]. rewrite EP. field. lra.
Qed.

(** ** Candles *)
Lemma rrma_mono p u v : (1 <= p)%nat -> Forall2 Rle u v -> rrma p u <= rrma p v.
Proof.
  intros Hp H. assert (L := Forall2_length' _ _ _ H). assert (D : rrma p (blend 1 (-1) v u) = 1 * rrma p v + (-1) * rrma p u) by (apply rrma_linear; now symmetry).
  assert (N0 : 0 <= rrma p (blend 1 (-1) v u)); [|lra]. replace (blend 1 (-1) v u) with (map Rabs (blend 1 (-1) v u)); [apply rrma_up_nonneg; [exact Hp|apply Rabs_pos]|].
  clear D L. unfold blend. induction H as [|x y u v H _ IH]; [reflexivity|]. cbn [combine map fst snd]. rewrite IH. f_equal. apply Rabs_right. lra.
Qed.
Theorem ranges_agree p cs : (1 <= p)%nat -> cs <> [] -> (Z.of_nat (length cs) < 2147483648)%Z ->
  exists atr spread sf s0, call (AverageTrueRange (Z.of_nat p)) (bars_of cs) None true = Ok (reals atr, sf, s0) /\ length atr = length cs /\
    outputs (RollingMovingAverage (Z.of_nat p)) (map (fun c => r_high c - r_low c) cs) spread /\
    forall n, (n < length cs)%nat -> at_pos spread n <= at_pos atr n.
Proof.
  intros Hp NE Hl. assert (C : countable (map (fun c => r_high c - r_low c) cs)) by (split; [now apply map_some|now rewrite map_length]).
  destruct (@atr_streams ER p Hp) as (st & H & _). exists (map (fun h => rrma p (rranges h)) (hists [] cs)). do 3 eexists. split.
  { unfold bars_of, reals. rewrite H; [|now apply map_some|unfold short; rewrite rev_length, map_length; lia]. do 4 f_equal. change (@nil (@candle ER)) with (map cfin []). rewrite hists_map, !map_map.
    apply map_ext. intros h. unfold atr. rewrite ranges_fin. now apply rma_eq. }
  split; [now rewrite map_length, hists_length|]. split; [exact (rma_outputs _ C p Hp)|]. intros n Hn. rewrite run_at by now rewrite map_length. unfold at_pos. rewrite nth_map_hists by exact Hn.
  rewrite upto_map. apply rrma_mono; [exact Hp|]. generalize (upto n cs). intros h. induction h as [|c h IH]; cbn [map rranges]; constructor; [|exact IH]. unfold rrange. eapply Rle_trans; [apply Rmax_l|]. eapply Rle_trans; [|apply Rmax_l]. apply Rle_refl.
Qed.
