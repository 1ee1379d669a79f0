(** * MemoryFacts: operators with a finite window forget what is older (C51). *)
From Coq Require Import List ZArith Bool Lia.
From Verif Require Import Num Py PyFacts Tensor TensorFacts EvalFacts Streamable Spec Series Formulas Positions Memory
  Meta Common Finance ImplComp ImplBasic ImplScalar ImplWindow ImplCorr ImplMarket ImplSignal MovingFacts ReturnFacts SignalFacts StatFacts MarketFacts.
Import ListNotations.

(** ** Histories *)
(** What is visible of the history at element [n] of [zs]. *)
Lemma upto_app {X} (xs zs : list X) n : n < length zs -> upto (length xs + n) (xs ++ zs) = upto n zs ++ rev xs.
Proof.
  intros H. unfold upto. rewrite firstn_app. rewrite firstn_all2 by lia.
  replace (S (length xs + n) - length xs) with (S n) by lia. now rewrite rev_app_distr.
Qed.
(** [f] only looks at the first [k] elements of histories that have them. *)
Definition recent {X Y} (k : nat) (f : list X -> Y) : Prop :=
  forall c h h', k <= length c -> f (c ++ h) = f (c ++ h').

Section MemoryFacts.
Context {N : FOps}.
Lemma forgets_from {X} op ok (inp : list X -> val) out k (r : list X -> val) :
  streams op ok inp out -> recent k r ->
  (forall xs n, xs <> [] -> ok (rev xs) -> n < length xs -> row n (out (hists [] xs)) = r (upto n xs)) ->
  forgets op ok inp k.
Proof.
  intros (st & H & _) R Q xs ys zs NE O1 O2.
  assert (forall l : list X, l ++ zs <> []) as NE' by (intros l E; apply app_eq_nil in E; tauto).
  exists (out (hists [] (xs ++ zs))), (st (rev (xs ++ zs))), (st []), (out (hists [] (ys ++ zs))), (st (rev (ys ++ zs))), (st []).
  split; [now apply H|]. split; [now apply H|]. intros n Hk Hn.
  rewrite !Q; auto; try (rewrite app_length; lia). rewrite !upto_app by exact Hn.
  apply R. rewrite upto_length; lia.
Qed.
(** ** Rows of the outputs *)
Lemma lslice_one {A} (l : list A) d : forall n, n < length l -> lslice n 1 l = [nth n l d].
Proof.
  unfold lslice. induction l as [|a l IH]; intros n L; [cbn in L; lia|].
  destruct n as [|n]; [reflexivity|]. cbn. apply IH. cbn in L. lia.
Qed.
Lemma row_scalars {X} (f : list X -> F) xs n : n < length xs -> row n (scalars (map f (hists [] xs))) = Leaf (fsc (f (upto n xs))).
Proof.
  intros H. unfold scalars, row. cbn [vmap]. f_equal. unfold trow. cbn [sh dat tl dslice]. change (prod []) with 1.
  rewrite Nat.mul_1_r, (lslice_one _ f0) by (rewrite map_length, hists_length; exact H).
  rewrite nth_map_hists by exact H. reflexivity.
Qed.
Lemma row_series {X} d s (f : list X -> list (elt d)) xs n : n < length xs ->
  Forall (fun r => length r = prod s) (map f (hists [] xs)) ->
  row n (series_of d s (map f (hists [] xs))) = Leaf (mkT s (mkD d (f (upto n xs)))).
Proof.
  intros H L. unfold series_of, row. cbn [vmap]. f_equal. unfold trow. cbn [sh dat tl].
  assert (E : lslice (n * prod s) (prod s) (concat (map f (hists [] xs))) = f (upto n xs)).
  { rewrite lslice_concat; [|exact L|rewrite map_length, hists_length; exact H]. now apply nth_map_hists. }
  f_equal. destruct d; cbn [mkD dslice]; f_equal; exact E.
Qed.
Lemma each_length {B} s (f : list F -> B) h : length (each s f h) = prod s.
Proof. unfold each. now rewrite map_length, seq_length. Qed.
Lemma each2_length {B} s (f : list (F * F) -> B) h : length (each2 s f h) = prod s.
Proof. unfold each2. now rewrite map_length, seq_length. Qed.
Lemma row_tensors {X} s (f : list X -> list F) xs n : n < length xs -> (forall h, length (f h) = prod s) ->
  row n (tensors s (map f (hists [] xs))) = Leaf (mkT s (DF (f (upto n xs)))).
Proof. intros H L. apply (row_series F32 s f xs n H). apply Forall_map, Forall_forall. auto. Qed.

(** ** What the formulas look at *)
Lemma recent_firstn {X Y} k (f : list X -> Y) : recent k (fun h => f (firstn k h)).
Proof. intros c h h' H. now rewrite !firstn_app, (proj2 (Nat.sub_0_le k (length c)) H), !firstn_O, !app_nil_r. Qed.
Lemma recent_le {X Y} j k (f : list X -> Y) : j <= k -> recent j f -> recent k f.
Proof. intros L R c h h' H. apply R. lia. Qed.
Lemma recent_ext {X Y} k (f g : list X -> Y) : (forall h, k <= length h -> f h = g h) -> recent k g -> recent k f.
Proof. intros E R c h h' H. rewrite !E by (rewrite app_length; lia). now apply R. Qed.
Lemma recent_map {X Y Z} k (f : list X -> Y) (g : Y -> Z) : recent k f -> recent k (fun h => g (f h)).
Proof. intros R c h h' H. f_equal. now apply R. Qed.
Lemma recent_map2 {X Y Z W} k (f : list X -> Y) (g : list X -> Z) (q : Y -> Z -> W) :
  recent k f -> recent k g -> recent k (fun h => q (f h) (g h)).
Proof. intros R S c h h' H. now rewrite (R c h h'), (S c h h'). Qed.
Lemma recent_pre {X Y Z} k (f : list Y -> Z) (g : X -> Y) : recent k f -> recent k (fun h => f (map g h)).
Proof. intros R c h h' H. rewrite !map_app. apply R. now rewrite map_length. Qed.
Lemma recent_each {B} s k (f : list F -> B) : recent k f -> recent k (each s f).
Proof.
  intros R c h h' H. unfold each. apply map_ext. intros j. unfold column. rewrite !map_app. apply R. now rewrite map_length.
Qed.
Lemma recent_each2 {B} s k (f : list (F * F) -> B) : recent k f -> recent k (each2 s f).
Proof.
  intros R c h h' H. unfold each2. apply map_ext. intros j. unfold column2. rewrite !map_app. apply R. now rewrite map_length.
Qed.
Lemma recent_nth {X} p (d : X) : recent (S p) (fun h => nth p h d).
Proof. intros c h h' H. now rewrite !app_nth1 by lia. Qed.
Lemma recent_sma p : recent p (sma p).
Proof.
  apply (recent_ext p _ (fun h => fdiv (fsum (firstn p h)) (f_of_Z (Z.of_nat p)))); [|apply (recent_firstn p (fun w => fdiv (fsum w) (f_of_Z (Z.of_nat p))))].
  intros h H. unfold sma. destruct (Nat.ltb_spec (length h) p); [lia|reflexivity].
Qed.
Lemma recent_msd p : recent p (msd p).
Proof.
  apply (recent_ext p _ (fun h => fsqrt (fvar (firstn p h)))); [|apply (recent_firstn p (fun w => fsqrt (fvar w)))].
  intros h H. unfold msd. destruct (Nat.ltb_spec (length h) p); [lia|reflexivity].
Qed.
Lemma recent_change g p : recent (S p) (change g p).
Proof.
  apply (recent_ext (S p) _ (fun h => if feq (ago p h) f0 then f0 else g (fdiv (now h) (ago p h)))).
  - intros h H. unfold change. destruct (Nat.leb_spec (length h) p); [lia|reflexivity].
  - apply (recent_map2 _ (ago p) now (fun a n => if feq a f0 then f0 else g (fdiv n a))); [apply recent_nth|].
    apply (recent_le 1); [lia|apply recent_nth].
Qed.
Lemma recent_momentum p : recent (S p) (momentum p).
Proof.
  apply (recent_ext (S p) _ (fun h => fsub (now h) (ago p h))).
  - intros h H. unfold momentum. destruct (Nat.leb_spec (length h) p); [lia|reflexivity].
  - apply recent_map2; [apply (recent_le 1); [lia|]|]; apply recent_nth.
Qed.
Lemma recent_crossover slow fast : recent (Nat.max slow fast) (fun h => fsub (if length h <? slow then f0 else sma fast h) (sma slow h)).
Proof.
  apply (recent_ext _ _ (fun h => fsub (sma fast h) (sma slow h))).
  - intros h H. destruct (Nat.ltb_spec (length h) slow); [lia|reflexivity].
  - apply recent_map2; [apply (recent_le fast)|apply (recent_le slow)]; try lia; apply recent_sma.
Qed.
Lemma trail_length {X Y} (f : list X -> Y) h : length (trail f h) = length h.
Proof. induction h as [|x h IH]; cbn; auto. Qed.
Lemma recent_trail {X Y} k m (f : list X -> Y) : 1 <= k -> recent k f -> recent (m + k) (fun h => firstn (S m) (trail f h)).
Proof.
  intros K R. induction m as [|m IH]; intros c h h' H; (destruct c as [|x c]; [cbn in H; lia|]).
  - cbn [app trail firstn]. f_equal. apply (R (x :: c)). lia.
  - cbn [app trail]. rewrite 2(firstn_cons (S m)). f_equal; [apply (R (x :: c)); lia|]. apply IH. cbn in H. lia.
Qed.
Lemma recent_volatility m r : 1 <= m -> 1 <= r -> recent (m + r) (volatility m r).
Proof.
  intros Hm Hr.
  apply (recent_ext _ _ (fun h => fsqrt (fvar (firstn m (trail (log_ret r) h))))).
  - intros h H. unfold volatility, msd. rewrite trail_length.
    destruct (Nat.leb_spec (length h) (Nat.max m r)); [lia|]. destruct (Nat.ltb_spec (length h) m); [lia|reflexivity].
  - apply (recent_map _ (fun h => firstn m (trail (log_ret r) h)) (fun w => fsqrt (fvar w))).
    destruct m as [|m]; [lia|]. replace (S m + r) with (m + S r) by lia. apply recent_trail; [lia|apply recent_change].
Qed.
Lemma recent_correlation p : recent (S p) (correlation p).
Proof.
  apply (recent_ext _ _ (fun h => corr_of (firstn p (map fst h)) (firstn p (map snd h)))).
  - intros h H. unfold correlation. destruct (Nat.leb_spec (length h) p); [lia|reflexivity].
  - apply (recent_le p); [lia|].
    apply (recent_map2 p (fun h => firstn p (map fst h)) (fun h => firstn p (map snd h))); intros c h h' H;
      rewrite !map_app; apply (recent_firstn p (fun x => x)); now rewrite map_length.
Qed.
Lemma firstn_combine {A B} k : forall (u : list A) (v : list B), firstn k (combine u v) = combine (firstn k u) (firstn k v).
Proof. induction k as [|k IH]; intros [|a u] [|b v]; cbn; try reflexivity. now rewrite IH. Qed.
Lemma map_fst_comb {A B} : forall (u : list A) (v : list B), length v <= length u -> map snd (combine u v) = v.
Proof. induction u as [|a u IH]; intros [|b v] H; cbn in *; try lia; [reflexivity|reflexivity|]. rewrite IH; [reflexivity|lia]. Qed.
Lemma recent_cross p l : recent (S (l + p)) (cross_correlation p l).
Proof.
  apply (recent_ext _ _ (fun h => corr_of (firstn p (map fst h)) (firstn p (skipn l (map snd h))))).
  - intros h H. unfold cross_correlation, correlation, delayed.
    destruct (Nat.leb_spec (length h) (l + p)); [lia|].
    rewrite combine_length, map_length, skipn_length, map_length.
    destruct (Nat.leb_spec (Nat.min (length h) (length h - l)) p); [lia|]. f_equal.
    + assert (E : forall (u : list F) (v : list F), p <= length v -> firstn p (map fst (combine u v)) = firstn p u).
      { clear. induction p as [|p IH]; intros u v H; [reflexivity|]. destruct v as [|b v]; [cbn in H; lia|].
        destruct u as [|a u]; [reflexivity|]. cbn. rewrite IH; [reflexivity|cbn in H; lia]. }
      apply E. rewrite skipn_length, map_length. lia.
    + f_equal. apply map_fst_comb. rewrite skipn_length, !map_length. lia.
  - intros c h h' H. rewrite !map_app, !skipn_app, !firstn_app, !skipn_length, !map_length.
    replace (p - length c) with 0 by lia. replace (p - (length c - l)) with 0 by lia. now rewrite !firstn_O.
Qed.
Lemma recent_heikin : recent 2 heikin_ashi.
Proof. intros [|c [|d r]] h h' H; cbn in H; try lia. reflexivity. Qed.

(** ** The operators *)
Lemma tensors_forget {X} op ok (inp : list X -> val) s (f : list X -> list F) k :
  streams op ok inp (fun hs => tensors s (map f hs)) -> (forall h, length (f h) = prod s) -> recent k f -> forgets op ok inp k.
Proof.
  intros H L R. apply (forgets_from _ _ _ _ k (fun h => Leaf (mkT s (DF (f h)))) H).
  - now apply recent_map with (g := fun l => Leaf (mkT s (DF l))).
  - intros xs n _ _ Hn. now apply row_tensors.
Qed.
Lemma scalars_forget {X} op ok (inp : list X -> val) (f : list X -> F) k :
  streams op ok inp (fun hs => scalars (map f hs)) -> recent k f -> forgets op ok inp k.
Proof.
  intros H R. apply (forgets_from _ _ _ _ k (fun h => Leaf (fsc (f h))) H).
  - now apply recent_map with (g := fun l => Leaf (fsc l)).
  - intros xs n _ _ Hn. now apply row_scalars.
Qed.
Theorem lag_forgets d s p : p >= 1 -> forgets (Lag (Z.of_nat p)) (shaped s) (series_of d s) (p + 1).
Proof.
  intros Hp. apply (forgets_from _ _ _ _ _ (fun h => Leaf (mkT s (mkD d (nth p h (repeat (zero_of d) (prod s)))))) (lag_streams d s p Hp)).
  - rewrite Nat.add_1_r. apply recent_map with (g := fun l => Leaf (mkT s (mkD d l))). apply recent_nth.
  - intros xs n NE OK Hn. apply (row_series d s (fun h => nth p h (repeat (zero_of d) (prod s)))); [exact Hn|].
    apply Forall_forall. intros r Hr. apply in_map_iff in Hr as (h & <- & Hh).
    apply (In_nth _ _ []) in Hh as (m & Hm & <-). rewrite hists_length in Hm. rewrite nth_hists0 by exact Hm.
    destruct (nth_in_or_default p (upto m xs) (repeat (zero_of d) (prod s))) as [I|E].
    + apply in_upto, in_rev in I. unfold shaped in OK. rewrite Forall_forall in OK. now apply OK.
    + rewrite E. apply repeat_length.
Qed.
Theorem sma_forgets s p : p >= 1 -> forgets (SimpleMovingAverage (Z.of_nat p)) (ok_rows s) (tensors s) p.
Proof. intros H. eapply tensors_forget; [now apply sma_streams|intros; apply each_length|apply recent_each, recent_sma]. Qed.
Theorem msd_forgets s p : p >= 1 -> forgets (MovingStandardDeviation (Z.of_nat p)) (ok_rows s) (tensors s) p.
Proof. intros H. eapply tensors_forget; [now apply msd_streams|intros; apply each_length|apply recent_each, recent_msd]. Qed.
Theorem momentum_forgets s p : p >= 1 -> forgets (Momentum (Z.of_nat p)) (ok_rows s) (tensors s) (p + 1).
Proof.
  intros H. rewrite Nat.add_1_r. eapply tensors_forget; [now apply momentum_streams|intros; apply each_length|apply recent_each, recent_momentum].
Qed.
Theorem bollinger_forgets s p k : p >= 1 -> forgets (BollingerBands (Z.of_nat p) k) (ok_rows s) (tensors s) p.
Proof.
  intros H. pose (lo := fun c => fsub (sma p c) (fmul (msd p c) (num k))). pose (hi := fun c => fadd (sma p c) (fmul (msd p c) (num k))).
  assert (R : recent p lo /\ recent p hi).
  { split; (eapply recent_map2; [apply recent_sma|]); eapply recent_map with (g := fun x => fmul x (num k)); apply recent_msd. }
  eapply (forgets_from _ _ _ _ p (fun h => Tup [Leaf (mkT s (DF (each s lo h))); Leaf (mkT s (DF (each s (sma p) h))); Leaf (mkT s (DF (each s hi h)))])
           (bollinger_streams s p k H)).
  - intros c h h' L. rewrite (recent_each s p lo (proj1 R) c h h' L), (recent_each s p hi (proj2 R) c h h' L),
      (recent_each s p (sma p) (recent_sma p) c h h' L). reflexivity.
  - intros xs n _ _ Hn. unfold row at 1. cbn [vmap map]. fold (lo) (hi). unfold lo, hi.
    pose proof (fun f => row_tensors s (each s f) xs n Hn (each_length s f)) as Q. unfold row in Q. cbn [vmap] in Q.
    f_equal. f_equal; [apply Q|]. f_equal; [apply Q|]. f_equal. apply Q.
Qed.
Theorem ret_forgets p : p >= 1 -> feq f0 f0 = true -> forgets (Return (Z.of_nat p)) short scalars (p + 1).
Proof. intros H Z. rewrite Nat.add_1_r. eapply scalars_forget; [now apply ret_streams|apply recent_change]. Qed.
Theorem log_ret_forgets p : p >= 1 -> feq f0 f0 = true -> forgets (LogarithmicReturn (Z.of_nat p)) short scalars (p + 1).
Proof. intros H Z. rewrite Nat.add_1_r. eapply scalars_forget; [now apply log_ret_streams|apply recent_change]. Qed.
Theorem crossover_forgets s slow fast : slow >= 1 -> fast >= 1 ->
  forgets (SimpleMovingAverageCrossover (Z.of_nat slow) (Z.of_nat fast)) (ok_rows s) (tensors s) (Nat.max slow fast).
Proof. intros H H'. eapply tensors_forget; [now apply crossover_streams|intros; apply each_length|apply recent_each, recent_crossover]. Qed.
Theorem volatility_forgets m r : m >= 1 -> r >= 1 -> feq f0 f0 = true ->
  forgets (Volatility (Z.of_nat m) (Z.of_nat r)) short scalars (m + r).
Proof. intros H H' Z. eapply scalars_forget; [now apply volatility_streams|now apply recent_volatility]. Qed.
Theorem local_forgets p : p >= 1 -> (Z.of_nat p < 2147483648)%Z ->
  forgets (LocalMinimum (Z.of_nat p)) short scalars p /\ forgets (LocalMaximum (Z.of_nat p)) short scalars p.
Proof.
  intros H H'. split.
  - exact (scalars_forget _ _ _ _ p (local_min_streams p H H') (recent_firstn p frmin)).
  - exact (scalars_forget _ _ _ _ p (local_max_streams p H H') (recent_firstn p frmax)).
Qed.
Theorem sharpe_forgets p : p >= 1 -> (Z.of_nat p < 2147483648)%Z -> forgets (SharpeRatio (Z.of_nat p)) short pairs p.
Proof.
  intros H H'. eapply scalars_forget; [now apply sharpe_streams|]. unfold sharpe. apply (recent_pre p (fun h => ratio (firstn p h))).
  apply (recent_firstn p ratio).
Qed.
Theorem skewness_forgets p : p >= 1 -> (Z.of_nat p < 2147483648)%Z -> forgets (Skewness (Z.of_nat p)) short scalars p.
Proof. intros H H'. eapply scalars_forget; [now apply skewness_streams|apply (recent_firstn p skew_of)]. Qed.
Theorem corr_forgets s p : p >= 1 -> forgets (Correlation (Z.of_nat p)) (two_rows s) (tensor_pairs s) (p + 1).
Proof.
  intros H. rewrite Nat.add_1_r. eapply tensors_forget; [now apply corr_streams|intros; apply each2_length|apply recent_each2, recent_correlation].
Qed.
Theorem cross_forgets s p l : p >= 1 -> l >= 1 ->
  forgets (CrossCorrelation (Z.of_nat p) (Z.of_nat l)) (two_rows s) (tensor_pairs s) (l + p + 1).
Proof.
  intros H H'. rewrite Nat.add_1_r. eapply tensors_forget; [now apply cross_streams|intros; apply each2_length|apply recent_each2, recent_cross].
Qed.
Theorem auto_forgets s p l : p >= 1 -> l >= 1 ->
  forgets (AutoCorrelation (Z.of_nat p) (Z.of_nat l)) (ok_rows s) (tensors s) (l + p + 1).
Proof.
  intros H H'. rewrite Nat.add_1_r. eapply tensors_forget; [now apply auto_streams|intros; apply each_length|].
  apply recent_each. apply (recent_pre _ (cross_correlation p l)), recent_cross.
Qed.
Theorem heikin_forgets : forgets HeikinAshi (fun _ => True) candles 2.
Proof.
  eapply (forgets_from _ _ _ _ 2 (fun h => let c := heikin_ashi h in Tup [Leaf (fsc (c_open c)); Leaf (fsc (c_high c)); Leaf (fsc (c_low c)); Leaf (fsc (c_close c))])
           ha_streams).
  - intros c h h' L. cbv zeta. now rewrite (recent_heikin c h h' L).
  - intros xs n _ _ Hn. unfold candles. rewrite !map_map. unfold row at 1. cbn [vmap map].
    pose proof (fun f => row_scalars (fun h => f (heikin_ashi h)) xs n Hn) as Q. unfold row in Q. cbn [vmap] in Q.
    cbv zeta. f_equal. f_equal; [apply Q|]. f_equal; [apply Q|]. f_equal; [apply Q|]. f_equal. apply Q.
Qed.
End MemoryFacts.
