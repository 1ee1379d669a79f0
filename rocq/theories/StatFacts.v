(** * StatFacts: extrema, Sharpe ratio, skewness, correlations, position by position. *)
From Coq Require Import Lia List ZArith Bool.
From Verif Require Import Num Py Tensor Streamable Common Finance Series Formulas Positions EvalFacts
  ImplBasic ImplComp ImplWindow ImplCorr Order OrderFacts MovingFacts ReturnFacts.
Import ListNotations.

Lemma firstn_min {X} p (l : list X) : firstn p l = firstn (Nat.min (length l) p) l.
Proof.
  destruct (Nat.le_ge_cases (length l) p) as [H|H]; [rewrite Nat.min_l by exact H|now rewrite Nat.min_r].
  rewrite firstn_all. now apply firstn_all2.
Qed.
(** The last (at most) [p] elements up to position [n], the newest first. *)
Lemma firstn_upto' {X} p n (xs : list X) d : n < length xs ->
  firstn p (upto n xs) = map (fun i => nth (n - i) xs d) (seq 0 (Nat.min (n + 1) p)).
Proof.
  intros H. rewrite firstn_min, upto_length by exact H. replace (n + 1) with (S n) by lia. apply firstn_upto; [lia|exact H].
Qed.
Lemma in_firstn_upto {X} p n (xs : list X) d x : p >= 1 -> n < length xs ->
  (In x (firstn p (upto n xs)) <-> exists i, i <= n /\ n < i + p /\ nth i xs d = x).
Proof.
  intros Hp H. rewrite (firstn_upto' p n xs d H), in_map_iff. split.
  - intros (i & <- & Hi). apply in_seq in Hi. exists (n - i). repeat split; lia.
  - intros (i & H1 & H2 & <-). exists (n - i). split; [f_equal; lia|]. apply in_seq. lia.
Qed.
Lemma upto_ne {X} n (xs : list X) : n < length xs -> upto n xs <> [].
Proof. intros H Q. apply (f_equal (@length _)) in Q. rewrite upto_length in Q by exact H. discriminate. Qed.
Lemma upto_map {X Y} (f : X -> Y) n xs : map f (upto n xs) = upto n (map f xs).
Proof. unfold upto. now rewrite firstn_map, map_rev. Qed.

Section Extrema.
Context {N : FOps} {usable : F -> Prop} (O : orderly N usable).
Lemma global_min_positions xs : xs <> [] ->
  exists out sf s0, call GlobalMinimum (scalars xs) None true = Ok (scalars out, sf, s0) /\
    length out = length xs /\
    forall n, n < length xs -> (exists i, i <= n /\ nth n out f0 = nth i xs f0) /\
                               (forall i, i <= n -> flt (nth i xs f0) (nth n out f0) = false).
Proof.
  intros NE. destruct (scalar_positions _ _ _ _ global_min_streams xs NE I) as (out & sf & s0 & E & L & H).
  exists out, sf, s0. split; [exact E|]. split; [exact L|]. intros n Hn. rewrite H by exact Hn.
  destruct (running_min O (upto n xs) (upto_ne n xs Hn)) as [H1 H2]. split.
  - apply (upto_in n xs f0) in H1 as (i & Hi & Ei); [|exact Hn]. exists i. now rewrite Ei.
  - intros i Hi. apply H2. apply (upto_in n xs f0); [exact Hn|]. now exists i.
Qed.
Lemma global_max_positions xs : xs <> [] ->
  exists out sf s0, call GlobalMaximum (scalars xs) None true = Ok (scalars out, sf, s0) /\
    length out = length xs /\
    forall n, n < length xs -> (exists i, i <= n /\ nth n out f0 = nth i xs f0) /\
                               (forall i, i <= n -> flt (nth n out f0) (nth i xs f0) = false).
Proof.
  intros NE. destruct (scalar_positions _ _ _ _ global_max_streams xs NE I) as (out & sf & s0 & E & L & H).
  exists out, sf, s0. split; [exact E|]. split; [exact L|]. intros n Hn. rewrite H by exact Hn.
  destruct (running_max O (upto n xs) (upto_ne n xs Hn)) as [H1 H2]. split.
  - apply (upto_in n xs f0) in H1 as (i & Hi & Ei); [|exact Hn]. exists i. now rewrite Ei.
  - intros i Hi. apply H2. apply (upto_in n xs f0); [exact Hn|]. now exists i.
Qed.
Lemma window_usable p n xs : n < length xs -> Forall usable xs -> Forall usable (firstn p (upto n xs)).
Proof.
  intros Hn U. apply Forall_forall. intros x Hx. assert (I : In x (upto n xs)) by (rewrite <- (firstn_skipn p); apply in_or_app; now left).
  apply in_upto in I. rewrite Forall_forall in U. auto.
Qed.
Lemma window_ne {X} p n (xs : list X) : p >= 1 -> n < length xs -> firstn p (upto n xs) <> [].
Proof. intros Hp Hn Q. apply (f_equal (@length _)) in Q. rewrite firstn_length, upto_length in Q by exact Hn. cbn in Q. lia. Qed.
Lemma local_min_positions p xs : p >= 1 -> (Z.of_nat p < 2147483648)%Z -> xs <> [] -> short (rev xs) -> Forall usable xs ->
  exists out sf s0, call (LocalMinimum (Z.of_nat p)) (scalars xs) None true = Ok (scalars out, sf, s0) /\
    length out = length xs /\
    forall n, n < length xs -> (exists i, i <= n /\ n < i + p /\ nth n out f0 = nth i xs f0) /\
                               (forall i, i <= n -> n < i + p -> flt (nth i xs f0) (nth n out f0) = false).
Proof.
  intros Hp Hp' NE Sh U. destruct (scalar_positions _ _ _ _ (local_min_streams p Hp Hp') xs NE Sh) as (out & sf & s0 & E & L & H).
  exists out, sf, s0. split; [exact E|]. split; [exact L|]. intros n Hn. rewrite H by exact Hn.
  destruct (o_rmin _ _ O (firstn p (upto n xs)) (window_ne p n xs Hp Hn) (window_usable p n xs Hn U)) as [H1 H2]. split.
  - apply (in_firstn_upto p n xs f0) in H1 as (i & Hi & Hi' & Ei); [|assumption..]. exists i. now rewrite Ei.
  - intros i Hi Hi'. apply H2. apply (in_firstn_upto p n xs f0); [assumption..|]. now exists i.
Qed.
Lemma local_max_positions p xs : p >= 1 -> (Z.of_nat p < 2147483648)%Z -> xs <> [] -> short (rev xs) -> Forall usable xs ->
  exists out sf s0, call (LocalMaximum (Z.of_nat p)) (scalars xs) None true = Ok (scalars out, sf, s0) /\
    length out = length xs /\
    forall n, n < length xs -> (exists i, i <= n /\ n < i + p /\ nth n out f0 = nth i xs f0) /\
                               (forall i, i <= n -> n < i + p -> flt (nth n out f0) (nth i xs f0) = false).
Proof.
  intros Hp Hp' NE Sh U. destruct (scalar_positions _ _ _ _ (local_max_streams p Hp Hp') xs NE Sh) as (out & sf & s0 & E & L & H).
  exists out, sf, s0. split; [exact E|]. split; [exact L|]. intros n Hn. rewrite H by exact Hn.
  destruct (o_rmax _ _ O (firstn p (upto n xs)) (window_ne p n xs Hp Hn) (window_usable p n xs Hn U)) as [H1 H2]. split.
  - apply (in_firstn_upto p n xs f0) in H1 as (i & Hi & Hi' & Ei); [|assumption..]. exists i. now rewrite Ei.
  - intros i Hi Hi'. apply H2. apply (in_firstn_upto p n xs f0); [assumption..|]. now exists i.
Qed.
End Extrema.
Lemma extrema_streams {N : FOps} p : p >= 1 -> (Z.of_nat p < 2147483648)%Z ->
  streams GlobalMinimum (fun _ => True) scalars (fun hs => scalars (map (running flt) hs)) /\
  streams GlobalMaximum (fun _ => True) scalars (fun hs => scalars (map (running fgt) hs)) /\
  streams (LocalMinimum (Z.of_nat p)) short scalars (fun hs => scalars (map (fun h => frmin (firstn p h)) hs)) /\
  streams (LocalMaximum (Z.of_nat p)) short scalars (fun hs => scalars (map (fun h => frmax (firstn p h)) hs)).
Proof.
  intros Hp Hb. split; [exact global_min_streams|]. split; [exact global_max_streams|].
  split; [now apply local_min_streams|now apply local_max_streams].
Qed.

Section Stats.
Context {N : FOps}.
Lemma sharpe_positions p xs : p >= 1 -> (Z.of_nat p < 2147483648)%Z -> xs <> [] -> short (rev xs) ->
  exists out sf s0, call (SharpeRatio (Z.of_nat p)) (pairs xs) None true = Ok (scalars out, sf, s0) /\
    length out = length xs /\
    forall n, n < length xs ->
      let w := map (fun i => fsub (fst (nth (n - i) xs (f0, f0))) (snd (nth (n - i) xs (f0, f0)))) (seq 0 (Nat.min (n + 1) p)) in
      nth n out f0 = if feq (fsqrt (fvar w)) f0 then f0 else fdiv (fmean w) (fsqrt (fvar w)).
Proof.
  intros Hp Hp' NE Sh. destruct (scalar_positions _ _ _ _ (sharpe_streams p Hp Hp') xs NE Sh) as (out & sf & s0 & E & L & H).
  exists out, sf, s0. split; [exact E|]. split; [exact L|]. intros n Hn w. rewrite H by exact Hn. unfold sharpe, ratio.
  replace (firstn p (map excess (upto n xs))) with w; [reflexivity|].
  rewrite firstn_map, (firstn_upto' p n xs (f0, f0) Hn), map_map. reflexivity.
Qed.
Lemma skewness_positions p xs : p >= 1 -> (Z.of_nat p < 2147483648)%Z -> xs <> [] -> short (rev xs) ->
  exists out sf s0, call (Skewness (Z.of_nat p)) (scalars xs) None true = Ok (scalars out, sf, s0) /\
    length out = length xs /\
    forall n, n < length xs -> nth n out f0 = skew_of (map (fun i => nth (n - i) xs f0) (seq 0 (Nat.min (n + 1) p))).
Proof.
  intros Hp Hp' NE Sh. destruct (scalar_positions _ _ _ _ (skewness_streams p Hp Hp') xs NE Sh) as (out & sf & s0 & E & L & H).
  exists out, sf, s0. split; [exact E|]. split; [exact L|]. intros n Hn. rewrite H by exact Hn. unfold skewness.
  now rewrite (firstn_upto' p n xs f0 Hn).
Qed.
(** ** Correlations *)
Lemma each2_nth {B} s (f : list (F * F) -> B) h j d : j < prod s -> nth j (each2 s f h) d = f (column2 f0 j h).
Proof.
  intros H. unfold each2. rewrite (nth_indep _ d ((fun j => f (column2 f0 j h)) 0)) by (rewrite map_length, seq_length; exact H).
  rewrite (map_nth (fun j => f (column2 f0 j h))), seq_nth by exact H. reflexivity.
Qed.
Lemma pair_positions op ok s (f : list (F * F) -> F) :
  streams op ok (tensor_pairs s) (fun hs => tensors s (map (each2 s f) hs)) ->
  forall xs, xs <> [] -> ok (rev xs) ->
  exists out sf s0, call op (tensor_pairs s xs) None true = Ok (tensors s out, sf, s0) /\ length out = length xs /\
    forall n j, n < length xs -> j < prod s -> number out j n = f (column2 f0 j (upto n xs)).
Proof.
  intros (st & H & _) xs NE OK. exists (map (each2 s f) (hists [] xs)), (st (rev xs)), (st []).
  split; [now apply H|]. split; [now rewrite map_length, hists_length|]. intros n j Hn Hj.
  unfold number. rewrite nth_map_hists by exact Hn. now rewrite each2_nth by exact Hj.
Qed.
Lemma column2_1 n j xs : map fst (column2 f0 j (upto n xs)) = upto n (numbers (map fst xs) j).
Proof. now rewrite column2_fst, upto_map, column_upto. Qed.
Lemma column2_2 n j xs : map snd (column2 f0 j (upto n xs)) = upto n (numbers (map snd xs) j).
Proof. now rewrite column2_snd, upto_map, column_upto. Qed.
Lemma window_numbers p n j xs : p <= S n -> n < length xs ->
  firstn p (upto n (numbers xs j)) = map (fun i => number xs j (n - i)) (seq 0 p).
Proof.
  intros H1 H2. rewrite (firstn_upto p n (numbers xs j) f0) by (rewrite ?numbers_length; assumption).
  apply map_ext_in. intros i Hi. apply in_seq in Hi. apply nth_numbers. lia.
Qed.
Lemma corr_positions s p xs : p >= 1 -> xs <> [] -> two_rows s (rev xs) ->
  exists out sf s0, call (Correlation (Z.of_nat p)) (tensor_pairs s xs) None true = Ok (tensors s out, sf, s0) /\
    length out = length xs /\
    forall n j, n < length xs -> j < prod s ->
      number out j n = if n <? p then f0
        else corr_of (map (fun i => number (map fst xs) j (n - i)) (seq 0 p)) (map (fun i => number (map snd xs) j (n - i)) (seq 0 p)).
Proof.
  intros Hp NE OK. destruct (pair_positions _ _ _ _ (corr_streams s p Hp) xs NE OK) as (out & sf & s0 & E & L & H).
  exists out, sf, s0. split; [exact E|]. split; [exact L|]. intros n j Hn Hj. rewrite H by assumption.
  unfold correlation. rewrite column2_1, column2_2. unfold column2. rewrite map_length, upto_length by exact Hn.
  unfold Nat.ltb. destruct (Nat.leb_spec (S n) p); [reflexivity|].
  now rewrite !window_numbers by (rewrite ?map_length; lia).
Qed.
Lemma delayed_window {p l n : nat} xs ys : l + p <= n -> n < length xs -> length ys = length xs ->
  let h := combine xs ys in
  length (delayed l (upto n h)) = S n - l /\
  firstn p (map fst (delayed l (upto n h))) = map (fun i => nth (n - i) xs f0) (seq 0 p) /\
  firstn p (map snd (delayed l (upto n h))) = map (fun i => nth (n - l - i) ys f0) (seq 0 p).
Proof.
  intros H1 H2 E h. assert (Lh : length h = length xs) by (unfold h; rewrite combine_length; lia).
  assert (M1 : map fst h = xs) by (unfold h; clear -E; revert ys E; induction xs as [|x xs IH]; intros [|y ys] E; cbn in *; try lia; [reflexivity|]; now rewrite IH by lia).
  assert (M2 : map snd h = ys) by (unfold h; clear -E; revert ys E; induction xs as [|x xs IH]; intros [|y ys] E; cbn in *; try lia; [reflexivity|]; now rewrite IH by lia).
  unfold delayed. rewrite !upto_map, M1, M2. rewrite skipn_upto by lia.
  assert (L1 : length (upto n xs) = S n) by (apply upto_length; lia).
  assert (L2 : length (upto (n - l) ys) = S n - l) by (rewrite upto_length; lia).
  assert (F1 : forall (a b : list F), length b <= length a -> map fst (combine a b) = firstn (length b) a).
  { induction a as [|x a IH]; intros [|y b] Q; cbn in *; try lia; try reflexivity. now rewrite IH by lia. }
  assert (F2 : forall (a b : list F), length b <= length a -> map snd (combine a b) = b).
  { induction a as [|x a IH]; intros [|y b] Q; cbn in *; try lia; try reflexivity. now rewrite IH by lia. }
  split; [rewrite combine_length; lia|]. rewrite F1, F2 by lia. split.
  - rewrite firstn_firstn, Nat.min_l by lia. apply firstn_upto; lia.
  - apply firstn_upto; lia.
Qed.
Lemma combine_fst_snd {X Y} (l : list (X * Y)) : combine (map fst l) (map snd l) = l.
Proof. induction l as [|[x y] l IH]; [reflexivity|]. cbn. now rewrite IH. Qed.
Lemma cross_window p l n (h : list (F * F)) : n < length h -> p >= 1 ->
  cross_correlation p l (upto n h) = if n <? l + p then f0
    else corr_of (map (fun i => nth (n - i) (map fst h) f0) (seq 0 p)) (map (fun i => nth (n - l - i) (map snd h) f0) (seq 0 p)).
Proof.
  intros Hn Hp. unfold cross_correlation. rewrite upto_length by exact Hn. unfold Nat.ltb.
  destruct (Nat.leb_spec (S n) (l + p)) as [|K]; [reflexivity|].
  destruct (@delayed_window p l n (map fst h) (map snd h)) as (D1 & D2 & D3); [lia|rewrite map_length; lia|now rewrite !map_length|].
  rewrite combine_fst_snd in D1, D2, D3. unfold correlation. rewrite D1, D2, D3.
  destruct (Nat.leb_spec (S n - l) p); [lia|]. reflexivity.
Qed.
Lemma column2_upto j n xs : column2 f0 j (upto n xs) = upto n (column2 f0 j xs).
Proof. unfold column2. apply upto_map. Qed.
Lemma cross_positions s p l xs : p >= 1 -> l >= 1 -> xs <> [] -> two_rows s (rev xs) ->
  exists out sf s0, call (CrossCorrelation (Z.of_nat p) (Z.of_nat l)) (tensor_pairs s xs) None true = Ok (tensors s out, sf, s0) /\
    length out = length xs /\
    forall n j, n < length xs -> j < prod s ->
      number out j n = if n <? l + p then f0
        else corr_of (map (fun i => number (map fst xs) j (n - i)) (seq 0 p)) (map (fun i => number (map snd xs) j (n - l - i)) (seq 0 p)).
Proof.
  intros Hp Hl NE OK. destruct (pair_positions _ _ _ _ (cross_streams s p l Hp Hl) xs NE OK) as (out & sf & s0 & E & L & H).
  exists out, sf, s0. split; [exact E|]. split; [exact L|]. intros n j Hn Hj. rewrite H by assumption.
  rewrite column2_upto, cross_window by (try (unfold column2; rewrite map_length); assumption).
  destruct (Nat.ltb_spec n (l + p)); [reflexivity|]. rewrite column2_fst, column2_snd. f_equal; apply map_ext_in; intros i Hi; apply in_seq in Hi.
  - apply (nth_numbers (map fst xs) j (n - i)). rewrite map_length. lia.
  - apply (nth_numbers (map snd xs) j (n - l - i)). rewrite map_length. lia.
Qed.
Lemma auto_positions s p l xs : p >= 1 -> l >= 1 -> xs <> [] -> ok_rows s (rev xs) ->
  exists out sf s0 sf' s0', call (AutoCorrelation (Z.of_nat p) (Z.of_nat l)) (tensors s xs) None true = Ok (tensors s out, sf, s0) /\
    call (CrossCorrelation (Z.of_nat p) (Z.of_nat l)) (Tup [tensors s xs; tensors s xs]) None true = Ok (tensors s out, sf', s0') /\
    length out = length xs /\
    forall n j, n < length xs -> j < prod s ->
      number out j n = if n <? l + p then f0
        else corr_of (map (fun i => number xs j (n - i)) (seq 0 p)) (map (fun i => number xs j (n - l - i)) (seq 0 p)).
Proof.
  intros Hp Hl NE OK. destruct (auto_streams s p l Hp Hl) as (st & H & _). specialize (H xs NE OK).
  assert (OK' := two_rows_twice s (rev xs) OK). rewrite map_rev in OK'.
  assert (NE' : map twice xs <> []) by (now destruct xs).
  destruct (cross_streams s p l Hp Hl) as (st' & H' & _). specialize (H' _ NE' OK').
  assert (EQ : map (each2 s (cross_correlation p l)) (hists [] (map twice xs)) =
               map (each s (fun c => cross_correlation p l (map twice c))) (hists [] xs)).
  { assert (G : forall h, map (each2 s (cross_correlation p l)) (hists (map twice h) (map twice xs)) =
               map (each s (fun c => cross_correlation p l (map twice c))) (hists h xs)).
    { clear. induction xs as [|x xs IH]; intros h; [reflexivity|]. cbn [hists map]. f_equal; [|exact (IH (x :: h))].
      unfold each2, each. apply map_ext. intros j. change (twice x :: map twice h) with (map twice (x :: h)). now rewrite column2_twice. }
    exact (G []). }
  rewrite EQ in H'. unfold tensor_pairs in H'. rewrite !map_map in H'. cbn [twice fst snd] in H'. rewrite !map_id in H'.
  eexists _, _, _, _, _. split; [exact H|]. split; [exact H'|]. split; [now rewrite map_length, hists_length|].
  intros n j Hn Hj. unfold number at 1. rewrite nth_map_hists by exact Hn. rewrite each_nth by exact Hj. rewrite column_upto, upto_map.
  rewrite cross_window by (try (rewrite map_length, numbers_length); assumption).
  destruct (Nat.ltb_spec n (l + p)); [reflexivity|]. rewrite !map_map. cbn [twice fst snd]. rewrite map_id.
  f_equal; apply map_ext_in; intros i Hi; apply in_seq in Hi; apply nth_numbers; lia.
Qed.
End Stats.
