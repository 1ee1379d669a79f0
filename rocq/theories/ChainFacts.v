(** * ChainFacts: pipelines of averages, changes and delays in any order (C77), in exact arithmetic. *)
From Coq Require Import Reals Lra List ZArith Bool Lia Permutation.
From Verif Require Import Num Py Tensor Streamable Common Finance Meta Series Formulas Positions ER MovingFacts Linear RealFacts RealMarket RealLinear RealScale
  ImplBasic ImplComp Shapes ShapeFacts ShapeLib Algebra AlgebraFacts VectorFacts SignalFacts SteadyFacts SteadyMarket SteadyTurn AgreeFacts Chain.
Import ListNotations.
Local Open Scope R_scope.
#[local] Existing Instance ER.

(** ** Weighted sums over a sequence without beginning *)
Fixpoint sums (w : list R) (X : Z -> R) (n : Z) : R := match w with [] => 0 | a :: w => a * X n + sums w X (n - 1)%Z end.
Lemma sums_ext w X Y : (forall n, X n = Y n) -> forall n, sums w X n = sums w Y n.
Proof. intros E. induction w as [|a w IH]; intros n; cbn; [reflexivity|]. now rewrite E, IH. Qed.
Lemma sums_plus w X Y : forall n, sums w (fun m => X m + Y m) n = sums w X n + sums w Y n.
Proof. induction w as [|a w IH]; intros n; cbn; [ring|]. rewrite IH. ring. Qed.
Lemma sums_times w c X : forall n, sums w (fun m => c * X m) n = c * sums w X n.
Proof. induction w as [|a w IH]; intros n; cbn; [ring|]. rewrite IH. ring. Qed.
Lemma sums_shift w X : forall n, sums w (fun m => X (m - 1)%Z) n = sums w X (n - 1)%Z.
Proof. induction w as [|a w IH]; intros n; cbn; [reflexivity|]. now rewrite IH. Qed.
Lemma sums_none w n : sums w (fun _ => 0) n = 0.
Proof. revert n. induction w as [|a w IH]; intros n; cbn; [reflexivity|]. rewrite IH. ring. Qed.
Lemma sums_swap w v X : forall n, sums w (sums v X) n = sums v (sums w X) n.
Proof.
  induction w as [|a w IH]; intros n; cbn; [now rewrite sums_none|]. rewrite IH.
  rewrite (sums_plus v (fun m => a * X m) (fun m => sums w X (m - 1)%Z)), sums_times, (sums_shift v (sums w X)). reflexivity.
Qed.
Definition all_sums (ws : list (list R)) (X : Z -> R) : Z -> R := fold_left (fun X w => sums w X) ws X.
Lemma all_sums_ext ws : forall X Y, (forall n, X n = Y n) -> forall n, all_sums ws X n = all_sums ws Y n.
Proof. induction ws as [|w ws IH]; intros X Y E n; [apply E|]. apply IH. intros m. now apply sums_ext. Qed.
Lemma all_sums_perm ws vs : Permutation ws vs -> forall X n, all_sums ws X n = all_sums vs X n.
Proof.
  induction 1 as [|w ws vs _ IH|w v ws|ws vs us _ IH1 _ IH2]; intros X n; [reflexivity|apply IH| |now rewrite IH1].
  unfold all_sums. cbn [fold_left]. apply all_sums_ext. intros m. apply sums_swap.
Qed.

(** ** Weighted sums over a history *)
Fixpoint dot (w h : list R) : R := match w with [] => 0 | a :: w => a * nth 0 h 0 + dot w (tl h) end.
Definition beginning (xs : list R) (z : Z) : R := nth (Z.to_nat z) xs 0.
Lemma tl_upto n (xs : list R) : (S n < length xs)%nat -> tl (upto (S n) xs) = upto n xs.
Proof. intros H. now rewrite upto_next. Qed.
Lemma hd_upto n (xs : list R) : (n < length xs)%nat -> nth 0 (upto n xs) 0 = nth n xs 0.
Proof.
  intros H. destruct n as [|n]; [|now rewrite upto_next]. destruct xs as [|x xs]; [cbn in H; lia|reflexivity].
Qed.
Lemma dot_sums w : forall n (xs : list R), (length w <= S n)%nat -> (n < length xs)%nat -> dot w (upto n xs) = sums w (beginning xs) (Z.of_nat n).
Proof.
  induction w as [|a w IH]; intros n xs Hw Hn; cbn [dot sums]; [reflexivity|]. rewrite hd_upto by exact Hn. unfold beginning at 1. rewrite Nat2Z.id. f_equal.
  destruct n as [|n].
  - destruct w as [|b w]; [reflexivity|cbn in Hw; lia].
  - rewrite tl_upto by exact Hn. rewrite IH by (cbn in Hw; lia). f_equal. lia.
Qed.
Lemma sums_from w (X Y : Z -> R) n : (forall m, (n - Z.of_nat (length w) < m <= n)%Z -> X m = Y m) -> sums w X n = sums w Y n.
Proof.
  revert n. induction w as [|a w IH]; intros n E; cbn; [reflexivity|]. rewrite (E n) by (cbn; lia). f_equal. apply IH. intros m Hm. apply E. cbn [length]. lia.
Qed.

(** ** The weights of the stages *)
Fixpoint weighted (c : R) (p : nat) : list R := match p with O => [] | S p => c :: weighted c p end.
Lemma weighted_length c p : length (weighted c p) = p.
Proof. induction p; cbn; auto. Qed.
Lemma dot_weighted c p : forall h, (p <= length h)%nat -> dot (weighted c p) h = c * rsum (firstn p h).
Proof.
  induction p as [|p IH]; intros h H; cbn [weighted dot]; [cbn; ring|]. destruct h as [|x h]; [cbn in H; lia|]. cbn [nth tl firstn]. rewrite IH by (cbn in H; lia). unfold rsum. cbn [fold_right]. ring.
Qed.
Lemma dot_app w v : forall h, dot (w ++ v) h = dot w h + dot v (skipn (length w) h).
Proof.
  induction w as [|a w IH]; intros h; cbn; [ring|]. rewrite IH. destruct h as [|x h]; cbn; [rewrite !skipn_nil; ring|ring].
Qed.
Lemma dot_zeros p h : dot (weighted 0 p) h = 0.
Proof. revert h. induction p as [|p IH]; intros h; cbn; [reflexivity|]. rewrite IH. ring. Qed.
Lemma dot_pick p h : dot (weighted 0 p ++ [1]) h = nth p h 0.
Proof.
  rewrite dot_app, dot_zeros, weighted_length. cbn. rewrite Rplus_0_l, Rmult_1_l, Rplus_0_r. revert h. induction p as [|p IH]; intros [|x h]; cbn; auto.
Qed.
Fixpoint minus (w v : list R) : list R :=
  match w, v with
  | a :: w, b :: v => (a - b) :: minus w v
  | w, [] => w
  | [], v => map Ropp v
  end.
Lemma minus_length w : forall v, length (minus w v) = max (length w) (length v).
Proof. induction w as [|a w IH]; intros [|b v]; cbn; auto. now rewrite map_length. Qed.
Lemma dot_minus w : forall v h, dot (minus w v) h = dot w h - dot v h.
Proof.
  induction w as [|a w IH]; intros [|b v] h; cbn; try ring.
  - assert (E : forall u k, dot (map Ropp u) k = - dot u k) by (induction u as [|c u IHu]; intros k; cbn; [ring|rewrite IHu; ring]). rewrite E. ring.
  - rewrite IH. ring.
Qed.
Definition formula_of (f : stage) : list R -> R :=
  match f with
  | Average p => rsma p
  | Change p => rmomentum p
  | Delay p => fun h => nth p h 0
  | Spread slow fast => fun h => (if (length h <? slow)%nat then 0 else rsma fast h) - rsma slow h
  end.
Definition weights_of (f : stage) : list R :=
  match f with
  | Average p => weighted (/ INR p) p
  | Change p => minus [1] (weighted 0 p ++ [1])
  | Delay p => weighted 0 p ++ [1]
  | Spread slow fast => minus (weighted (/ INR fast) fast) (weighted (/ INR slow) slow)
  end.
Lemma weights_length f : periods_ok f -> length (weights_of f) = S (looks_back f).
Proof. destruct f; cbn [weights_of looks_back periods_ok]; intros H; rewrite ?minus_length, ?app_length, ?weighted_length; cbn [length]; lia. Qed.
Lemma rsma_dot p h : (1 <= p)%nat -> (p <= length h)%nat -> rsma p h = dot (weighted (/ INR p) p) h.
Proof.
  intros Hp H. rewrite dot_weighted by exact H. unfold rsma. destruct (Nat.ltb_spec (length h) p); [lia|]. unfold rmean. rewrite firstn_length. replace (Nat.min p (length h)) with p by lia.
  unfold Rdiv. ring.
Qed.
Lemma formula_dot f h : periods_ok f -> (looks_back f < length h)%nat -> formula_of f h = dot (weights_of f) h.
Proof.
  destruct f as [p|p|p|slow fast]; cbn [formula_of weights_of looks_back periods_ok]; intros Hp H.
  - apply rsma_dot; lia.
  - rewrite dot_minus, dot_pick. unfold rmomentum. destruct (Nat.leb_spec (length h) p); [lia|]. cbn. ring.
  - now rewrite dot_pick.
  - destruct (Nat.ltb_spec (length h) slow); [lia|]. rewrite dot_minus, !rsma_dot by lia. reflexivity.
Qed.

(** ** One stage *)
Lemma lag_on s p xs : (1 <= p)%nat -> xs <> [] -> rshaped s xs ->
  exists sf s0, call (Lag (Z.of_nat p)) (tensors s (fins xs)) None true = Ok (tensors s (fins (map (reach s (fun h => nth p h 0)) (hists [] xs))), sf, s0).
Proof.
  intros Hp NE [OK Sh]. destruct (@lag_streams ER F32 s p Hp) as (st & H & _). exists (st (rev (fins xs))), (st []).
  assert (S1 : @shaped ext s (rev (fins xs))) by (apply Forall_rev; unfold fins; apply Forall_map; eapply Forall_impl; [|exact OK]; intros r Hr; now rewrite map_length).
  specialize (H (fins xs) (fins_ne xs NE) S1).
  assert (Q : map (fun h => nth p h (repeat (Fin 0) (prod s))) (hists [] (fins xs)) = fins (map (reach s (fun h => nth p h 0)) (hists [] xs))).
  { rewrite (hists_fins xs [] : hists [] (fins xs) = _). unfold fins at 2. rewrite !map_map. apply map_ext_in. intros h Hh.
    assert (Fh : Forall (fun r => length r = prod s) h).
    { pose proof (hists_forall (fun r => length r = prod s) xs [] (Forall_nil _) OK) as A. rewrite Forall_forall in A. now apply A. }
    unfold fins, reach. destruct (Nat.lt_ge_cases p (length h)) as [L|L].
    - rewrite (nth_indep _ _ (map Fin [])) by (now rewrite map_length). rewrite (map_nth (map Fin)). f_equal.
      assert (Lr : length (nth p h []) = prod s) by (rewrite Forall_forall in Fh; apply Fh; now apply nth_In).
      apply (nth_ext _ _ 0 0); [now rewrite map_length, seq_length|]. intros j Hj. rewrite Lr in Hj.
      assert (T : forall g : nat -> R, nth j (map g (seq 0 (prod s))) 0 = g j).
      { intros g. rewrite (nth_indep _ 0 (g O)) by (rewrite map_length, seq_length; exact Hj). now rewrite map_nth, seq_nth. }
      rewrite T. rewrite (nth_indep (map (fun r => nth j r 0) h) 0 ((fun r => nth j r 0) [])) by (now rewrite map_length). now rewrite (map_nth (fun r => nth j r 0)).
    - rewrite (nth_overflow (map (map Fin) h)) by (now rewrite map_length). apply (nth_ext _ _ (Fin 0) (Fin 0)); [now rewrite repeat_length, !map_length, seq_length|].
      intros j Hj. rewrite repeat_length in Hj. rewrite nth_repeat, (map_nth Fin). f_equal.
      assert (T : forall g : nat -> R, nth j (map g (seq 0 (prod s))) 0 = g j).
      { intros g. rewrite (nth_indep _ 0 (g O)) by (rewrite map_length, seq_length; exact Hj). now rewrite map_nth, seq_nth. }
      rewrite T. rewrite nth_overflow; [reflexivity|now rewrite map_length]. }
  exact (eq_trans H (f_equal (fun z => Ok (tensors s z, _, _)) Q)).
Qed.
Lemma stage_on f s xs : periods_ok f -> xs <> [] -> rshaped s xs ->
  exists sf s0, call (operator_of f) (tensors s (fins xs)) None true = Ok (tensors s (fins (map (reach s (formula_of f)) (hists [] xs))), sf, s0).
Proof.
  intros Hp NE OK. destruct f as [p|p|p|slow fast]; cbn [operator_of formula_of periods_ok] in *.
  - apply (stream_fins _ s (@sma ER p)); [now apply sma_streams|intros; now apply sma_eq|assumption..].
  - apply (stream_fins _ s (@momentum ER p)); [now apply momentum_streams| |assumption..].
    intros l. unfold momentum, rmomentum. rewrite map_length. destruct (length l <=? p)%nat; [reflexivity|]. unfold now, ago. change (@f0 ER) with (Fin 0). rewrite !(map_nth Fin). reflexivity.
  - now apply lag_on.
  - destruct Hp as [Hs Hf]. apply (stream_fins _ s (@crossover_code ER slow fast)); [now apply crossover_streams| |assumption..].
    intros l. change (e_sub (if (length (map Fin l) <? slow)%nat then Fin 0 else sma fast (map Fin l)) (sma slow (map Fin l)) = Fin ((if (length l <? slow)%nat then 0 else rsma fast l) - rsma slow l)).
    rewrite map_length, (sma_eq slow), (sma_eq fast) by assumption. destruct (length l <? slow)%nat; reflexivity.
Qed.
Lemma stage_fits f s : periods_ok f -> fits (operator_of f) (tf s) (tf s).
Proof.
  intros Hp. destruct f as [p|p|p|slow fast]; cbn [operator_of periods_ok] in *.
  - eapply fits_takes; [apply tk_sma; lia|discriminate|reflexivity].
  - split; [discriminate|]. eexists. apply ws_momentum. lia.
  - eapply fits_takes; [apply tk_lag; lia|discriminate|reflexivity].
  - split; [discriminate|]. eexists. apply ws_crossover; lia.
Qed.
Lemma stages_fit l s : l <> [] -> Forall periods_ok l -> fit_in_turn (map operator_of l) (tf s) (tf s).
Proof.
  intros NE H. induction H as [|f l Hf H IH]; [easy|]. destruct l as [|g l]; [constructor; now apply stage_fits|].
  apply (fit_next _ _ _ (tf s)); [now apply stage_fits|]. apply IH. discriminate.
Qed.
Lemma reach_ok s g xs : rshaped s xs -> rshaped s (map (reach s g) (hists [] xs)).
Proof.
  intros [_ Sh]. split; [|unfold short in *; now rewrite map_length, hists_length]. apply Forall_map, Forall_forall. intros h _. unfold reach. now rewrite map_length, seq_length.
Qed.
Definition after (s : list nat) (l : list stage) (xs : list (list R)) : list (list R) := fold_left (fun xs f => map (reach s (formula_of f)) (hists [] xs)) l xs.
Lemma after_length s l : forall xs, length (after s l xs) = length xs.
Proof. induction l as [|f l IH]; intros xs; [reflexivity|]. unfold after in *. cbn [fold_left]. now rewrite IH, map_length, hists_length. Qed.
Lemma in_turn s l : l <> [] -> Forall periods_ok l -> forall xs, xs <> [] -> rshaped s xs -> give_in_turn (map operator_of l) (tensors s (fins xs)) (tensors s (fins (after s l xs))).
Proof.
  intros NE H. induction H as [|f l Hf H IH]; [easy|]. intros xs NX OX. destruct (stage_on f s xs Hf NX OX) as (sf & s0 & E). destruct l as [|g l].
  - constructor. exists sf, s0. exact E.
  - eapply give_next; [exists sf, s0; exact E|]. apply IH; [discriminate|destruct xs; easy|now apply reach_ok].
Qed.
Lemma chain_on s l xs : l <> [] -> Forall periods_ok l -> xs <> [] -> rshaped s xs ->
  exists sf s0, call (Compose (map operator_of l)) (tensors s (fins xs)) None true = Ok (tensors s (fins (after s (rev l) xs)), sf, s0).
Proof.
  intros NE H NX OX. assert (NE' : rev l <> []) by (intros E; apply NE; rewrite <- (rev_involutive l), E; reflexivity).
  assert (H' : Forall periods_ok (rev l)) by now apply Forall_rev.
  pose proof (in_turn s (rev l) NE' H' xs NX OX) as G. assert (Lp : (length xs > 0)%nat) by (destruct xs; [easy|cbn; lia]).
  apply (compose_turn _ (tf s) (tf s) (length xs) _ _ (stages_fit (rev l) s NE' H') Lp (fins_vhas s xs OX)) in G. destruct G as (sf & s0 & E).
  exists sf, s0. rewrite map_rev, rev_involutive in E. exact E.
Qed.

(** ** The whole pipeline *)
Lemma rnumber_nth xs j n : (n < length xs)%nat -> rnumber xs j n = nth n (rnumbers xs j) 0.
Proof.
  intros H. unfold rnumber, rnumbers. rewrite (nth_indep (map (fun r => nth j r 0) xs) 0 ((fun r => nth j r 0) [])) by (now rewrite map_length). now rewrite (map_nth (fun r => nth j r 0)).
Qed.
Lemma after_sums s l : Forall periods_ok l -> forall xs m X j, (j < prod s)%nat ->
  (forall n, (m <= n)%nat -> (n < length xs)%nat -> rnumber xs j n = X (Z.of_nat n)) ->
  forall n, (m + warm_up l <= n)%nat -> (n < length xs)%nat -> rnumber (after s l xs) j n = all_sums (map weights_of l) X (Z.of_nat n).
Proof.
  induction 1 as [|f l Hf H IH]; intros xs m X j Hj E n Hm Hn; [apply E; cbn in Hm; lia|]. cbn [warm_up fold_right] in Hm. fold (warm_up l) in Hm.
  change (rnumber (after s l (map (reach s (formula_of f)) (hists [] xs))) j n = all_sums (map weights_of l) (sums (weights_of f) X) (Z.of_nat n)).
  assert (Ln : length (map (reach s (formula_of f)) (hists [] xs)) = length xs) by (now rewrite map_length, hists_length). apply (IH (map (reach s (formula_of f)) (hists [] xs)) (m + looks_back f)%nat); [exact Hj| |lia|lia].
  intros k Hk Lk. rewrite Ln in Lk. rewrite reach_number by assumption.
  pose proof (weights_length f Hf) as W. rewrite formula_dot; [|exact Hf|rewrite upto_length by (now rewrite rnumbers_length); lia].
  rewrite dot_sums by (rewrite ?rnumbers_length; lia). apply sums_from. intros z Hz. rewrite W in Hz. unfold beginning. rewrite <- rnumber_nth by lia.
  rewrite E by lia. f_equal. lia.
Qed.
Lemma warm_up_app l r : warm_up (l ++ r) = (warm_up l + warm_up r)%nat.
Proof. induction l as [|f l IH]; [reflexivity|]. unfold warm_up in *. cbn [app fold_right]. rewrite IH. lia. Qed.
Lemma warm_up_rev l : warm_up (rev l) = warm_up l.
Proof. induction l as [|f l IH]; [reflexivity|]. cbn [rev]. rewrite warm_up_app, IH. unfold warm_up. cbn [fold_right]. lia. Qed.
Lemma warm_up_perm l r : Permutation l r -> warm_up l = warm_up r.
Proof. induction 1; unfold warm_up in *; cbn [fold_right]; lia. Qed.
Theorem any_order s l l' xs : Permutation l l' -> l <> [] -> Forall periods_ok l -> xs <> [] -> rshaped s xs ->
  exists o o' sx ix sy iy,
    call (Compose (map operator_of l)) (tensors s (fins xs)) None true = Ok (tensors s (fins o), sx, ix) /\
    call (Compose (map operator_of l')) (tensors s (fins xs)) None true = Ok (tensors s (fins o'), sy, iy) /\
    length o = length xs /\ length o' = length xs /\
    forall n j, (warm_up l <= n)%nat -> (n < length xs)%nat -> (j < prod s)%nat -> rnumber o j n = rnumber o' j n.
Proof.
  intros P NE H NX OX. assert (NE' : l' <> []) by (intros ->; apply Permutation_sym, Permutation_nil in P; contradiction).
  assert (H' : Forall periods_ok l') by (eapply Permutation_Forall; eassumption).
  destruct (chain_on s l xs NE H NX OX) as (sx & ix & Ex). destruct (chain_on s l' xs NE' H' NX OX) as (sy & iy & Ey).
  exists (after s (rev l) xs), (after s (rev l') xs), sx, ix, sy, iy. split; [exact Ex|]. split; [exact Ey|]. split; [apply after_length|]. split; [apply after_length|].
  intros n j Hw Hn Hj. set (X := fun z => rnumber xs j (Z.to_nat z)).
  assert (B : forall n, (0 <= n)%nat -> (n < length xs)%nat -> rnumber xs j n = X (Z.of_nat n)) by (intros k _ _; unfold X; now rewrite Nat2Z.id).
  rewrite (after_sums s (rev l) (Forall_rev H) xs 0 X j Hj B) by (rewrite ?warm_up_rev; lia).
  rewrite (after_sums s (rev l') (Forall_rev H') xs 0 X j Hj B) by (rewrite ?warm_up_rev, <- ?(warm_up_perm l l' P); lia).
  apply all_sums_perm. apply Permutation_map. rewrite <- !Permutation_rev. exact P.
Qed.
