(** * RealMirror: indicators of a mirrored series, in exact arithmetic (C63). *)
From Coq Require Import Reals Lra Lia List ZArith Bool.
From Verif Require Import Num Py Tensor Streamable Meta Common Finance Series Formulas Positions
  ImplBasic ImplScalar ImplComp ImplWindow ImplCorr ImplMarket ER RealFacts RealStats RealMarket MovingFacts ReturnFacts StatReal MarketReal
  Linear MemoryFacts RealLinear RealScale RealScale2 Mirror.
Import ListNotations.
Local Open Scope R_scope.

Lemma mirrors_scalars {X X'} (op op' : @operator ER) (ok : list X -> Prop) (ok' : list X' -> Prop) inp' (f f' : list X' -> ext) (fin : X -> X') T U :
  @streams ER _ op ok' inp' (fun hs => scalars (map f hs)) ->
  @streams ER _ op' ok' inp' (fun hs => scalars (map f' hs)) ->
  (forall xs, ok xs -> ok' (rev (map fin xs)) /\ ok' (rev (map fin (map T xs)))) ->
  (forall h, h <> [] -> f' (map fin (map T h)) = U (f (map fin h))) ->
  mirrors op op' ok (fun xs => inp' (map fin xs)) T U.
Proof.
  intros (st & H & _) (st' & H' & _) OK E xs NE O. destruct (OK xs O) as [O1 O2].
  exists (map f (hists [] (map fin xs))). eexists _, _, _, _. split; [apply H; [now destruct xs|exact O1]|].
  rewrite H'; [|now destruct xs|exact O2]. f_equal. f_equal. f_equal. f_equal.
  change (@nil X') with (map fin (@nil X)). rewrite !hists_map. change (@nil X) with (map T (@nil X)) at 1. rewrite hists_map.
  rewrite !map_map. apply map_ext_in. intros h Hh. apply E.
  apply (In_nth _ _ []) in Hh as (n & Hn & <-). rewrite hists_length in Hn. rewrite nth_hists0 by exact Hn.
  intros Q. apply (f_equal (@length _)) in Q. rewrite upto_length in Q by exact Hn. discriminate.
Qed.
Lemma mirror_affine c : forall l, map (mirror c) l = map (affine (-1) c) l.
Proof. intros l. apply map_ext. intros x. unfold mirror, affine. ring. Qed.
Lemma e_mirror_fin c x : e_mirror c (Fin x) = Fin (mirror c x).
Proof. reflexivity. Qed.

(** ** Extrema *)
Lemma lt_mirror c x y : Rltb (mirror c x) (mirror c y) = Rltb y x.
Proof. unfold Rltb, mirror. destruct (Rlt_dec (c - x) (c - y)), (Rlt_dec y x); try reflexivity; lra. Qed.
Lemma running_mirror (lt gt : ext -> ext -> bool) c (h : list R) :
  (forall x y, lt (Fin (mirror c x)) (Fin (mirror c y)) = gt (Fin x) (Fin y)) -> h <> [] ->
  @running ER lt (map Fin (map (mirror c) h)) = e_mirror c (@running ER gt (map Fin h)).
Proof.
  intros M. induction h as [|x h IH]; intros H; [easy|]. destruct h as [|y h]; [reflexivity|].
  change (@running ER gt (map Fin (x :: y :: h))) with
    (if gt (Fin x) (@running ER gt (map Fin (y :: h))) then Fin x else @running ER gt (map Fin (y :: h))).
  change (@running ER lt (map Fin (map (mirror c) (x :: y :: h)))) with
    (if lt (Fin (mirror c x)) (@running ER lt (map Fin (map (mirror c) (y :: h)))) then Fin (mirror c x)
     else @running ER lt (map Fin (map (mirror c) (y :: h)))).
  rewrite IH by discriminate. destruct (running_fin gt (y :: h)) as (z & ->); [discriminate|]. rewrite e_mirror_fin, M.
  destruct (gt (Fin x) (Fin z)); reflexivity.
Qed.
Lemma fold_mirror (op op' : ext -> ext -> ext) c :
  (forall x y, op' (Fin (mirror c x)) (Fin (mirror c y)) = e_mirror c (op (Fin x) (Fin y))) ->
  (forall x y, exists z, op (Fin x) (Fin y) = Fin z) ->
  forall l x, fold_left op' (map Fin (map (mirror c) l)) (Fin (mirror c x)) = e_mirror c (fold_left op (map Fin l) (Fin x)).
Proof.
  intros M Q. induction l as [|y l IH]; intros x; [reflexivity|]. cbn [map fold_left]. rewrite M. destruct (Q x y) as (z & ->). rewrite e_mirror_fin. apply IH.
Qed.
Theorem extrema_mirror p c : (1 <= p)%nat -> (Z.of_nat p < 2147483648)%Z ->
  mirrors GlobalMaximum GlobalMinimum (fun _ => True) reals (mirror c) (e_mirror c) /\
  mirrors GlobalMinimum GlobalMaximum (fun _ => True) reals (mirror c) (e_mirror c) /\
  mirrors (LocalMaximum (Z.of_nat p)) (LocalMinimum (Z.of_nat p)) short reals (mirror c) (e_mirror c) /\
  mirrors (LocalMinimum (Z.of_nat p)) (LocalMaximum (Z.of_nat p)) short reals (mirror c) (e_mirror c).
Proof.
  intros Hp Hb. split; [|split; [|split]].
  - apply (mirrors_scalars _ _ _ (fun _ => True) scalars (running fgt) (running flt) Fin); [exact (@global_max_streams ER)|exact (@global_min_streams ER)|auto|].
    intros h Hh. apply running_mirror; [|exact Hh]. intros x y. cbn. unfold fgt. cbn. apply lt_mirror.
  - apply (mirrors_scalars _ _ _ (fun _ => True) scalars (running flt) (running fgt) Fin); [exact (@global_min_streams ER)|exact (@global_max_streams ER)|auto|].
    intros h Hh. apply running_mirror; [|exact Hh]. intros x y. cbn. unfold fgt. cbn. apply lt_mirror.
  - apply (mirrors_scalars _ _ _ short scalars (fun h => frmax (firstn p h)) (fun h => frmin (firstn p h)) Fin);
      [exact (@local_max_streams ER p Hp Hb)|exact (@local_min_streams ER p Hp Hb)|intros xs; apply short_maps'|].
    intros h Hh. change (@F ER) with ext. rewrite (firstn_map Fin), (firstn_map (mirror c)), (firstn_map Fin).
    destruct p as [|p]; [lia|]. destruct h as [|x h]; [easy|]. cbn [firstn map frmin frmax ER]. unfold e_rmin, e_rmax. cbn [fold_left].
    change (e_min PInf (Fin (mirror c x))) with (Fin (mirror c x)). change (e_max NInf (Fin x)) with (Fin x).
    apply fold_mirror.
    + intros u v. unfold e_min, e_max. cbn [e_lt]. rewrite lt_mirror. destruct (Rltb u v); reflexivity.
    + intros u v. rewrite e_max_fin. eauto.
  - apply (mirrors_scalars _ _ _ short scalars (fun h => frmin (firstn p h)) (fun h => frmax (firstn p h)) Fin);
      [exact (@local_min_streams ER p Hp Hb)|exact (@local_max_streams ER p Hp Hb)|intros xs; apply short_maps'|].
    intros h Hh. change (@F ER) with ext. rewrite (firstn_map Fin), (firstn_map (mirror c)), (firstn_map Fin).
    destruct p as [|p]; [lia|]. destruct h as [|x h]; [easy|]. cbn [firstn map frmin frmax ER]. unfold e_rmin, e_rmax. cbn [fold_left].
    change (e_max NInf (Fin (mirror c x))) with (Fin (mirror c x)). change (e_min PInf (Fin x)) with (Fin x).
    apply fold_mirror.
    + intros u v. unfold e_min, e_max. cbn [e_lt]. rewrite lt_mirror. destruct (Rltb v u); reflexivity.
    + intros u v. rewrite e_min_fin. eauto.
Qed.

(** ** Skewness and Sharpe ratio *)
Lemma skew_mirror c w : w <> [] -> skew_of (map Fin (map (mirror c) w)) = e_neg (skew_of (map Fin w)).
Proof.
  intros H. rewrite mirror_affine. rewrite !skew_fin by (destruct w; easy). cbn [e_neg]. f_equal.
  rewrite sqrt_var_affine, third_affine by auto. replace (Rabs (-1)) with 1 by (rewrite Rabs_left; lra). rewrite Rmult_1_l.
  destruct (Req_EM_T (sqrt (rvar w)) 0) as [E|E]; [ring|]. field. exact E.
Qed.
Theorem skewness_mirror p c : (1 <= p)%nat -> (Z.of_nat p < 2147483648)%Z ->
  mirrors (Skewness (Z.of_nat p)) (Skewness (Z.of_nat p)) short reals (mirror c) e_neg.
Proof.
  intros Hp Hb. apply (mirrors_scalars _ _ _ short scalars (skewness p) (skewness p) Fin).
  - exact (@skewness_streams ER p Hp Hb).
  - exact (@skewness_streams ER p Hp Hb).
  - intros xs. apply short_maps'.
  - intros h Hh. unfold skewness. change (@F ER) with ext. rewrite (firstn_map Fin), (firstn_map (mirror c)), (firstn_map Fin).
    destruct p as [|p]; [lia|]. destruct h as [|x h]; [easy|]. apply skew_mirror. discriminate.
Qed.
Lemma ratio_mirror w : w <> [] -> ratio (map Fin (map (mirror 0) w)) = e_neg (ratio (map Fin w)).
Proof.
  intros H. assert (H' : map (affine (-1) 0) w <> []) by (destruct w; easy). rewrite mirror_affine. unfold ratio. change (@fmean ER) with e_mean.
  rewrite !sqrt_fvar, !e_mean_fin by assumption. rewrite sqrt_var_affine, rmean_affine by auto.
  replace (Rabs (-1)) with 1 by (rewrite Rabs_left; lra). rewrite Rmult_1_l.
  change (@f0 ER) with (Fin 0). cbn [feq ER e_eq fdiv e_div]. unfold Reqb, affine.
  destruct (Req_EM_T (sqrt (rvar w)) 0) as [E|E]; cbn [e_neg]; f_equal; [ring|]. field. exact E.
Qed.
Theorem sharpe_mirror p c : (1 <= p)%nat -> (Z.of_nat p < 2147483648)%Z ->
  mirrors (SharpeRatio (Z.of_nat p)) (SharpeRatio (Z.of_nat p)) short (fun xs => pairs (map fin_pair xs))
    (fun x => (mirror c (fst x), mirror c (snd x))) e_neg.
Proof.
  intros Hp Hb. apply (mirrors_scalars _ _ _ short pairs (sharpe p) (sharpe p) fin_pair).
  - exact (@sharpe_streams ER p Hp Hb).
  - exact (@sharpe_streams ER p Hp Hb).
  - intros xs. apply short_maps'.
  - intros h Hh. unfold sharpe. rewrite !map_map.
    rewrite (map_ext (fun x => @excess ER (fin_pair (mirror c (fst x), mirror c (snd x)))) (fun x => Fin (mirror 0 (fst x - snd x))))
      by (intros [x y]; cbn; f_equal; unfold mirror; ring).
    rewrite (map_ext (fun x => @excess ER (fin_pair x)) (fun x => Fin (fst x - snd x))) by (intros [x y]; reflexivity).
    rewrite <- (map_map (fun x => mirror 0 (fst x - snd x)) Fin), <- (map_map (fun x => fst x - snd x) Fin).
    rewrite <- (map_map (fun x => fst x - snd x) (mirror 0)). assert (W : map (fun x => fst x - snd x) h <> []) by (destruct h; easy).
    set (w := map (fun x => fst x - snd x) h) in *.
    change (@F ER) with ext. rewrite (firstn_map Fin), (firstn_map (mirror 0)), (firstn_map Fin).
    destruct p as [|p]; [lia|]. destruct w as [|x w]; [easy|]. apply ratio_mirror. discriminate.
Qed.

(** ** RSI *)
Lemma rchanges_mirror c h : rchanges (map (mirror c) h) = map Ropp (rchanges h).
Proof. rewrite mirror_affine, rchanges_affine. apply map_ext. intros; ring. Qed.
Lemma rwilder_swap p w w' c : (forall x, w (- x) = w' x) -> rwilder p w (map Ropp c) = rwilder p w' c.
Proof.
  intros E. induction c as [|x c IH]; [reflexivity|]. cbn [map rwilder]. cbn [length]. rewrite map_length, IH, E.
  destruct (S (length c) <? p)%nat; [reflexivity|]. destruct (S (length c) =? p)%nat; [|reflexivity].
  f_equal. rewrite map_map. f_equal. now apply map_ext.
Qed.
Lemma rsi_swap g l : 0 <= g -> 0 <= l ->
  e_sub (Fin 100) (e_div (Fin 100) (e_add (Fin 1) (e_div (Fin l) (Fin g)))) =
  e_sub (Fin 100) (e_sub (Fin 100) (e_div (Fin 100) (e_add (Fin 1) (e_div (Fin g) (Fin l))))).
Proof.
  intros G L. unfold e_div at 2 4. unfold inf_of.
  destruct (Req_EM_T g 0) as [Zg|Zg], (Req_EM_T l 0) as [Zl|Zl].
  - subst. destruct (Rlt_dec 0 0); [lra|]. reflexivity.
  - subst g. destruct (Rlt_dec 0 l); [|lra]. cbn [e_add]. rewrite e_div_fin by (unfold Rdiv; lra).
    cbn. f_equal. field. lra.
  - subst l. destruct (Rlt_dec 0 g); [|lra]. cbn [e_add]. rewrite e_div_fin by (unfold Rdiv; lra).
    cbn. f_equal. field. lra.
  - assert (P : 0 < l / g) by (apply Rdiv_lt_0_compat; lra). assert (Q : 0 < g / l) by (apply Rdiv_lt_0_compat; lra).
    cbn [e_add]. rewrite !e_div_fin by lra. cbn. f_equal. field. repeat split; lra.
Qed.
Theorem rsi_mirror p c xs : (1 <= p)%nat -> xs <> [] -> short xs ->
  exists o o' s i s' i',
    call (RelativeStrengthIndex (Z.of_nat p)) (reals xs) None true = Ok (@scalars ER o, s, i) /\
    call (RelativeStrengthIndex (Z.of_nat p)) (reals (map (mirror c) xs)) None true = Ok (@scalars ER o', s', i') /\
    length o = length xs /\ length o' = length xs /\
    (forall n, (n < p)%nat -> (n < length xs)%nat -> nth n o NaN = Fin 0 /\ nth n o' NaN = Fin 0) /\
    (forall n, (p <= n)%nat -> (n < length xs)%nat -> nth n o' NaN = e_sub (Fin 100) (nth n o NaN)).
Proof.
  intros Hp NE OK. destruct (@rsi_streams ER p Hp) as (st & H & _).
  exists (map (@rsi ER p) (hists [] (map Fin xs))), (map (@rsi ER p) (hists [] (map Fin (map (mirror c) xs)))).
  eexists _, _, _, _. destruct (short_maps' Fin (mirror c) xs OK) as [O1 O2].
  split; [exact (H (map Fin xs) ltac:(now destruct xs) O1)|].
  split; [exact (H (map Fin (map (mirror c) xs)) ltac:(now destruct xs) O2)|].
  change (@F ER) with ext.
  assert (N1 : forall n (ys : list R), (n < length ys)%nat -> nth n (map (@rsi ER p) (hists [] (map Fin ys))) NaN = @rsi ER p (map Fin (upto n ys))).
  { intros n ys Hn. change (@nil ext) with (map Fin []). rewrite hists_map, map_map.
    rewrite (nth_indep _ NaN (@rsi ER p (map Fin []))) by (rewrite map_length, hists_length; exact Hn).
    rewrite (map_nth (fun h => @rsi ER p (map Fin h))), nth_hists0 by exact Hn. reflexivity. }
  split; [rewrite map_length, hists_length, map_length; reflexivity|].
  split; [rewrite map_length, hists_length, !map_length; reflexivity|]. split; intros n Hn Hl.
  - rewrite !N1 by (rewrite ?map_length; exact Hl). unfold rsi. change (@F ER) with ext. rewrite !map_length, !upto_length by (rewrite ?map_length; exact Hl).
    destruct (Nat.leb_spec (S n) p); [split; reflexivity|lia].
  - rewrite !N1 by (rewrite ?map_length; exact Hl). rewrite upto_map. unfold rsi. change (@F ER) with ext.
    rewrite !map_length, !upto_length by exact Hl. destruct (Nat.leb_spec (S n) p); [lia|].
    rewrite !gain_fin, !loss_fin by exact Hp. rewrite rchanges_mirror.
    rewrite (rwilder_swap p up dn), (rwilder_swap p dn up) by (intros; unfold up, dn; rewrite ?Ropp_involutive; reflexivity).
    apply rsi_swap; apply rwilder_nonneg; auto using up_ge, dn_ge.
Qed.

(** ** Correlations *)
Lemma e_div_neg x y : e_div (Fin (- x)) (Fin y) = e_neg (e_div (Fin x) (Fin y)).
Proof.
  unfold e_div. destruct (Req_EM_T y 0) as [E|E]; [|cbn; f_equal; field; exact E].
  unfold inf_of. destruct (Rlt_dec 0 x), (Rlt_dec 0 (- x)), (Rlt_dec x 0), (Rlt_dec (- x) 0); try reflexivity; lra.
Qed.
Lemma corr_mirror c u v : u <> [] -> length u = length v ->
  corr_of (map Fin (map (mirror c) u)) (map Fin v) = e_neg (corr_of (map Fin u) (map Fin v)).
Proof.
  intros H L. assert (V : v <> []) by (intros ->; destruct u; [easy|discriminate]).
  assert (V' : v = map (affine 1 0) v) by (rewrite <- (map_id v) at 1; apply map_ext; intros; unfold affine; ring).
  assert (H' : map (affine (-1) c) u <> []) by (destruct u; easy).
  rewrite mirror_affine. unfold corr_of. rewrite !covariance_fin by (rewrite ?map_length; assumption). rewrite !sqrt_fvar by assumption.
  rewrite V' at 1. rewrite rcov_affine, !sqrt_var_affine by assumption. cbn [fdiv fmul ER e_mul].
  replace (-1 * 1 * rcov u v) with (- rcov u v) by ring. rewrite e_div_neg.
  replace (Rabs (-1)) with 1 by (rewrite Rabs_left; lra). now rewrite Rmult_1_l.
Qed.
Lemma covariance_comm u v : length u = length v -> rcov v u = rcov u v.
Proof.
  intros L. unfold rcov. generalize (rmean u) (rmean v). intros m n. f_equal.
  revert v L. induction u as [|x u IH]; intros [|y v] L; try discriminate; [reflexivity|]. cbn [combine map fst snd]. f_equal; [ring|]. apply IH. cbn in L. lia.
Qed.
Lemma corr_swap u v : u <> [] -> length u = length v -> corr_of (map Fin v) (map Fin u) = corr_of (map Fin u) (map Fin v).
Proof.
  intros H L. assert (V : v <> []) by (intros ->; destruct u; [easy|discriminate]).
  unfold corr_of. rewrite !covariance_fin by auto. rewrite !sqrt_fvar by assumption. cbn [fdiv fmul ER e_mul].
  now rewrite covariance_comm, (Rmult_comm (sqrt (rvar v))).
Qed.
Definition pair_mirror (c : R) (x : R * R) : R * R := (mirror c (fst x), snd x).
Lemma windows_fin p (h : list (R * R)) : (1 <= p)%nat -> (p < length h)%nat ->
  correlation p (map fin_pair h) = corr_of (map Fin (firstn p (map fst h))) (map Fin (firstn p (map snd h))).
Proof.
  intros Hp L. unfold correlation. change (@F ER) with ext. rewrite !map_length. destruct (Nat.leb_spec (length h) p); [lia|].
  rewrite !map_map. cbn [fin_pair fst snd]. rewrite <- (map_map fst Fin), <- (map_map snd Fin). now rewrite !(firstn_map Fin).
Qed.
Lemma correlation_mirror p c (h : list (R * R)) : (1 <= p)%nat ->
  correlation p (map fin_pair (map (pair_mirror c) h)) = e_neg (correlation p (map fin_pair h)).
Proof.
  intros Hp. destruct (Nat.leb_spec (length h) p) as [L|L].
  - unfold correlation. change (@F ER) with ext. rewrite !map_length. destruct (Nat.leb_spec (length h) p); [|lia].
    cbn. f_equal. ring.
  - rewrite !windows_fin by (rewrite ?map_length; assumption). rewrite !map_map. cbn [pair_mirror fst snd].
    rewrite <- (map_map fst (mirror c)), !(firstn_map (mirror c)). apply corr_mirror.
    + apply firstn_ne'; [exact Hp|rewrite map_length; lia].
    + now rewrite !firstn_length, !map_length.
Qed.
Lemma correlation_swap p (h : list (R * R)) : (1 <= p)%nat ->
  correlation p (map fin_pair (map pair_swap h)) = correlation p (map fin_pair h).
Proof.
  intros Hp. destruct (Nat.leb_spec (length h) p) as [L|L].
  - unfold correlation. change (@F ER) with ext. rewrite !map_length. destruct (Nat.leb_spec (length h) p); [reflexivity|lia].
  - rewrite !windows_fin by (rewrite ?map_length; assumption). rewrite !map_map. cbn [pair_swap fst snd]. apply corr_swap.
    + apply firstn_ne'; [exact Hp|rewrite map_length; lia].
    + now rewrite !firstn_length, !map_length.
Qed.
Lemma cross_mirror p l c (h : list (R * R)) : (1 <= p)%nat ->
  cross_correlation p l (map fin_pair (map (pair_mirror c) h)) = e_neg (cross_correlation p l (map fin_pair h)).
Proof.
  intros Hp. unfold cross_correlation. change (@F ER) with ext. rewrite !map_length. destruct (length h <=? l + p)%nat; [cbn; f_equal; ring|].
  rewrite !delayed_fin. rewrite <- (correlation_mirror p c) by exact Hp. f_equal. f_equal.
  pose proof (delayed_map (mirror c) (fun x => x) l h) as Q. exact Q.
Qed.
Lemma pairs_mirror (op : @operator ER) s (f : list (ext * ext) -> ext) (T : list R * list R -> list R * list R) (t : R * R -> R * R) U :
  @streams ER _ op (two_rows s) (tensor_pairs s) (fun hs => tensors s (map (each2 s f) hs)) ->
  (forall r, length (fst r) = prod s /\ length (snd r) = prod s -> length (fst (T r)) = prod s /\ length (snd (T r)) = prod s) ->
  (forall r j, (j < prod s)%nat -> length (fst r) = prod s /\ length (snd r) = prod s ->
     (nth j (fst (T r)) 0, nth j (snd (T r)) 0) = t (nth j (fst r) 0, nth j (snd r) 0)) ->
  (forall h, f (map fin_pair (map t h)) = U (f (map fin_pair h))) ->
  mirrors_pairs op s T U.
Proof.
  intros (st & H & _) HT Ht E xs NE [O1 O2].
  assert (OK : forall ys, Forall (fun r => length (fst r) = prod s /\ length (snd r) = prod s) ys -> short ys -> @two_rows ER s (rev (map fin_rows ys))).
  { intros ys Q1 Q2. unfold two_rows, shaped. rewrite Forall_forall in Q1. split; [|split; [|unfold short in *; now rewrite rev_length, map_length]].
    - rewrite map_rev. apply Forall_rev, Forall_map, Forall_map, Forall_forall. intros r I. cbn. rewrite map_length. now apply Q1.
    - rewrite map_rev. apply Forall_rev, Forall_map, Forall_map, Forall_forall. intros r I. cbn. rewrite map_length. now apply Q1. }
  eexists _, _, _, _, _. split; [apply H; [now destruct xs|now apply OK]|].
  rewrite H; [|now destruct xs|apply OK; [|unfold short in *; now rewrite map_length]].
  - f_equal. f_equal. f_equal. f_equal.
    refine (eq_trans (f_equal (map (@each2 ER _ s f)) (hists_map fin_rows (map T xs) []))
             (eq_trans _ (eq_sym (f_equal (fun z => map (map U) (map (@each2 ER _ s f) z)) (hists_map fin_rows xs []))))).
    rewrite (hists_map T xs [] : hists [] (map T xs) = _).
    rewrite !map_map. apply map_ext_in. intros h I. unfold each2. rewrite (map_map _ U). apply map_ext_in. intros j J. apply in_seq in J.
    assert (Q : Forall (fun r => length (fst r) = prod s /\ length (snd r) = prod s) h).
    { apply Forall_forall. intros r K. destruct (hists_in xs [] h r I K) as [M|[]]. rewrite Forall_forall in O1. auto. }
    change (@F ER) with ext. change (@f0 ER) with (Fin 0). rewrite !column2_fin. rewrite <- E. f_equal. f_equal. rewrite !map_map.
    apply map_ext_in. intros r K. rewrite Forall_forall in Q. apply Ht; [lia|auto].
  - apply Forall_map. revert O1. apply Forall_impl. exact HT.
Qed.
Lemma nth_mirror c j (l : list R) n : (j < n)%nat -> length l = n -> nth j (map (mirror c) l) 0 = mirror c (nth j l 0).
Proof. intros H L. rewrite (nth_indep _ 0 (mirror c 0)) by (rewrite map_length; lia). apply map_nth. Qed.
Lemma correlation_mirror2 p c (h : list (R * R)) : (1 <= p)%nat ->
  correlation p (map fin_pair (map (fun x => (fst x, mirror c (snd x))) h)) = e_neg (correlation p (map fin_pair h)).
Proof.
  intros Hp. rewrite <- (correlation_swap p h Hp), <- (correlation_swap p (map _ h) Hp). rewrite <- (correlation_mirror p c) by exact Hp.
  f_equal. rewrite !map_map. reflexivity.
Qed.
Lemma cross_mirror2 p l c (h : list (R * R)) : (1 <= p)%nat ->
  cross_correlation p l (map fin_pair (map (fun x => (fst x, mirror c (snd x))) h)) = e_neg (cross_correlation p l (map fin_pair h)).
Proof.
  intros Hp. unfold cross_correlation. change (@F ER) with ext. rewrite !map_length. destruct (length h <=? l + p)%nat; [cbn; f_equal; ring|].
  rewrite !delayed_fin. rewrite <- (correlation_mirror2 p c) by exact Hp. f_equal. f_equal.
  pose proof (delayed_map (fun x => x) (mirror c) l h) as Q. exact Q.
Qed.
Theorem correlations_mirror s p l c : (1 <= p)%nat -> (1 <= l)%nat ->
  mirrors_pairs (Correlation (Z.of_nat p)) s (mirror_first c) e_neg /\
  mirrors_pairs (Correlation (Z.of_nat p)) s (mirror_second c) e_neg /\
  mirrors_pairs (CrossCorrelation (Z.of_nat p) (Z.of_nat l)) s (mirror_first c) e_neg /\
  mirrors_pairs (CrossCorrelation (Z.of_nat p) (Z.of_nat l)) s (mirror_second c) e_neg /\
  mirrors_pairs (Correlation (Z.of_nat p)) s pair_swap (fun x => x).
Proof.
  intros Hp Hl.
  assert (D1 : forall r, length (fst r) = prod s /\ length (snd r) = prod s -> length (fst (mirror_first c r)) = prod s /\ length (snd (mirror_first c r)) = prod s)
    by (intros r [A B]; cbn; now rewrite map_length).
  assert (D2 : forall r, length (fst r) = prod s /\ length (snd r) = prod s -> length (fst (mirror_second c r)) = prod s /\ length (snd (mirror_second c r)) = prod s)
    by (intros r [A B]; cbn; now rewrite map_length).
  assert (E1 : forall r j, (j < prod s)%nat -> length (fst r) = prod s /\ length (snd r) = prod s ->
     (nth j (fst (mirror_first c r)) 0, nth j (snd (mirror_first c r)) 0) = pair_mirror c (nth j (fst r) 0, nth j (snd r) 0)).
  { intros r j J [A B]. unfold mirror_first, pair_mirror. cbn [fst snd]. now rewrite (nth_mirror c j _ (prod s)). }
  assert (E2 : forall r j, (j < prod s)%nat -> length (fst r) = prod s /\ length (snd r) = prod s ->
     (nth j (fst (mirror_second c r)) 0, nth j (snd (mirror_second c r)) 0) = (fun x => (fst x, mirror c (snd x))) (nth j (fst r) 0, nth j (snd r) 0)).
  { intros r j J [A B]. unfold mirror_second. cbn [fst snd]. now rewrite (nth_mirror c j _ (prod s)). }
  split; [|split; [|split; [|split]]].
  - apply (pairs_mirror _ s (@correlation ER p) _ (pair_mirror c) _ (@corr_streams ER s p Hp) D1 E1). intros h. now apply correlation_mirror.
  - apply (pairs_mirror _ s (@correlation ER p) _ _ _ (@corr_streams ER s p Hp) D2 E2). intros h. now apply correlation_mirror2.
  - apply (pairs_mirror _ s (@cross_correlation ER p l) _ (pair_mirror c) _ (@cross_streams ER s p l Hp Hl) D1 E1). intros h. now apply cross_mirror.
  - apply (pairs_mirror _ s (@cross_correlation ER p l) _ _ _ (@cross_streams ER s p l Hp Hl) D2 E2). intros h. now apply cross_mirror2.
  - apply (pairs_mirror _ s (@correlation ER p) _ pair_swap _ (@corr_streams ER s p Hp)).
    + intros r [A B]. now split.
    + reflexivity.
    + intros h. now apply correlation_swap.
Qed.

(** ** Bands *)
Theorem bollinger_mirror s p k xs : (1 <= p)%nat -> xs <> [] -> rshaped s xs ->
  exists lower middle upper sx ix sy iy,
    call (BollingerBands (Z.of_nat p) k) (tensors s (fins xs)) None true = Ok (series_list s [lower; middle; upper], sx, ix) /\
    call (BollingerBands (Z.of_nat p) k) (tensors s (fins (times (-1) xs))) None true =
      Ok (series_list s [times (-1) upper; times (-1) middle; times (-1) lower], sy, iy).
Proof.
  intros Hp NE OK. destruct (num_fin k) as (w & W). destruct (@bollinger_streams ER s p k Hp) as (st & H & _).
  pose (lo := fun c => rsma p c - rmsd p c * w). pose (up := fun c => rsma p c + rmsd p c * w).
  pose (gs := [lo; rsma p; up]).
  pose (fs := [fun c => @fsub ER (sma p c) (fmul (msd p c) (num k)); sma p; fun c => @fadd ER (sma p c) (fmul (msd p c) (num k))]).
  assert (K : Forall2 known fs gs).
  { constructor; [|constructor; [|constructor; [|constructor]]]; intros l; cbv beta; rewrite ?W, ?msd_eq, ?sma_eq by exact Hp; reflexivity. }
  exists (map (reach s lo) (hists [] xs)), (map (reach s (rsma p)) (hists [] xs)), (map (reach s up) (hists [] xs)). do 4 eexists. split.
  - rewrite (H (fins xs) (fins_ne xs NE) (fins_ok s xs OK)). exact (f_equal (fun z => Ok (Tup z, _, _)) (each_streams s fs gs xs K)).
  - assert (NB : times (-1) xs <> []) by (destruct xs; easy).
    rewrite (H (fins (times (-1) xs)) (fins_ne _ NB) (fins_ok s _ (rshaped_map s _ xs OK))).
    assert (G : forall l, map (fun x => -1 * x) l = map (affine (-1) 0) l) by (intros l; apply map_ext; intros; unfold affine; ring).
    assert (S1 : forall l, rsma p (map (fun x => -1 * x) l) = -1 * rsma p l).
    { intros l. pose proof (rsma_linear p (-1) 0 l l eq_refl) as Q. unfold blend in Q. rewrite combine_same, map_map in Q. cbn [fst snd] in Q.
      rewrite (map_ext _ (fun x => -1 * x)) in Q by (intros; ring). rewrite Q. ring. }
    assert (S2 : forall l, rmsd p (map (fun x => -1 * x) l) = rmsd p l).
    { intros l. rewrite G, rmsd_affine by exact Hp. replace (Rabs (-1)) with 1 by (rewrite Rabs_left; lra). ring. }
    transitivity (Ok (@Tup (@tensor ER) (map (fun o => @tensors ER s (fins o)) (map (fun g => map (reach s g) (hists [] (times (-1) xs))) gs)), st (rev (fins (times (-1) xs))), st [])).
    { exact (f_equal (fun z => Ok (Tup z, _, _)) (each_streams s fs gs _ K)). }
    unfold series_list, gs. cbn [map]. unfold times.
    rewrite (reach_hists s lo up (fun x => -1 * x) (fun x => -1 * x)) by (exact OK || (intros l; unfold lo, up; rewrite S1, S2; ring)).
    rewrite (reach_hists s up lo (fun x => -1 * x) (fun x => -1 * x)) by (exact OK || (intros l; unfold lo, up; rewrite S1, S2; ring)).
    rewrite (reach_hists s (rsma p) (rsma p) (fun x => -1 * x) (fun x => -1 * x)) by (exact OK || exact S1).
    reflexivity.
Qed.

(** ** Candles *)
Lemma rranges_mirror h : rranges (map mirror_candle h) = rranges h.
Proof.
  induction h as [|k h IH]; [reflexivity|]. cbn [map rranges]. rewrite IH. f_equal.
  replace (rlast_close (map mirror_candle h)) with (- rlast_close h) by (destruct h; cbn; [ring|reflexivity]).
  unfold rrange. cbn [mirror_candle r_high r_low]. set (q := rlast_close h).
  replace (- r_low k - - r_high k) with (r_high k - r_low k) by ring.
  assert (B : forall x, Rabs (- x - - q) = Rabs (x - q)) by (intros x; rewrite <- Rabs_Ropp; f_equal; ring).
  rewrite !B. destruct (Req_EM_T (- q) 0), (Req_EM_T q 0); try lra.
  rewrite <- !Rmax_assoc. f_equal. apply Rmax_comm.
Qed.
Theorem atr_mirror p : (1 <= p)%nat ->
  unaffected (AverageTrueRange (Z.of_nat p)) short (fun xs => bars (map cfin xs)) mirror_candle.
Proof.
  intros Hp. apply (unaffected_scalars _ _ short bars (atr p) cfin); [exact (@atr_streams ER p Hp)|intros xs; apply short_maps'|].
  intros h. unfold atr. now rewrite !ranges_fin, rranges_mirror.
Qed.
Theorem ha_mirror xs : xs <> [] ->
  exists o sx ix sy iy,
    call HeikinAshi (candles (map cfin xs)) None true = Ok (candles (map cfin o), sx, ix) /\
    call HeikinAshi (candles (map cfin (map mirror_candle xs))) None true = Ok (candles (map cfin (map mirror_candle o)), sy, iy).
Proof.
  intros NE. destruct (@ha_streams ER) as (st & H & _).
  assert (G : forall h, h <> [] -> exists o, heikin_ashi (map cfin h) = cfin o /\ heikin_ashi (map cfin (map mirror_candle h)) = cfin (mirror_candle o)).
  { intros [|c h] Q; [easy|].
    assert (Lo : forall h, @last_open ER (map cfin h) = Fin (rlast_open h)) by (intros [|x y]; reflexivity).
    assert (So : rlast_open (map mirror_candle h) = - rlast_open h) by (destruct h; cbn; [ring|reflexivity]).
    assert (Sc : rlast_close (map mirror_candle h) = - rlast_close h) by (destruct h; cbn; [ring|reflexivity]).
    destruct (Req_EM_T (rlast_open h) 0) as [Z|Z].
    - exists c. split; cbn [map heikin_ashi]; rewrite Lo; change (@feq ER) with e_eq; change (@f0 ER) with (Fin 0); cbn [e_eq]; unfold Reqb.
      + destruct (Req_EM_T (rlast_open h) 0); [reflexivity|easy].
      + rewrite So, Z, Ropp_0. destruct (Req_EM_T 0 0); [reflexivity|lra].
    - destruct (ha_fin h c Z) as (o & hi & lo & cl & -> & E1 & E2 & E3 & E4 & _). exists (RC o hi lo cl). split; [reflexivity|].
      assert (Z' : rlast_open (map mirror_candle h) <> 0) by (rewrite So; lra).
      destruct (ha_fin (map mirror_candle h) (mirror_candle c) Z') as (o' & hi' & lo' & cl' & E & F1 & F2 & F3 & F4 & _).
      cbn [map] in E |- *. rewrite E. unfold mirror_candle in F2, F3, F4. unfold cfin, mirror_candle. cbn [r_open r_high r_low r_close] in *.
      assert (O : o' = - o) by (rewrite F1, E1, So, Sc; field).
      assert (C : cl' = - cl) by (rewrite F2, E2; field).
      assert (M1 : forall x y, Rmax (- x) (- y) = - Rmin x y) by (intros; unfold Rmax, Rmin; destruct (Rle_dec (- x) (- y)), (Rle_dec x y); lra).
      assert (M2 : forall x y, Rmin (- x) (- y) = - Rmax x y) by (intros; unfold Rmax, Rmin; destruct (Rle_dec (- x) (- y)), (Rle_dec x y); lra).
      rewrite O, C in F3, F4. rewrite !M1 in F3. rewrite !M2 in F4. rewrite <- E4 in F3. rewrite <- E3 in F4. now rewrite O, C, F3, F4. }
  assert (GG : forall hs, Forall (fun h => h <> []) hs -> exists o, map (@heikin_ashi ER) (map (map cfin) hs) = map cfin o /\
     map (@heikin_ashi ER) (map (map cfin) (map (map mirror_candle) hs)) = map cfin (map mirror_candle o)).
  { induction 1 as [|h hs Q _ (o & E & E')]; [now exists []|]. destruct (G h Q) as (k & K & K'). exists (k :: o). cbn [map]. now rewrite E, E', K, K'. }
  destruct (GG (hists [] xs)) as (o & E & E').
  { clear. assert (Q : forall h : list rcandle, Forall (fun h => h <> []) (hists h xs)); [|apply Q].
    induction xs as [|x xs IH]; intros h; constructor; [discriminate|apply IH]. }
  exists o. do 4 eexists. split; (rewrite H; [|now destruct xs|exact I]).
  - f_equal. f_equal. f_equal. f_equal. rewrite <- E. exact (f_equal (map (@heikin_ashi ER)) (hists_map cfin xs [])).
  - f_equal. f_equal. f_equal. f_equal. rewrite <- E'.
    refine (eq_trans (f_equal (map (@heikin_ashi ER)) (hists_map cfin (map mirror_candle xs) [])) _).
    now rewrite (hists_map mirror_candle xs [] : hists [] (map mirror_candle xs) = _).
Qed.
