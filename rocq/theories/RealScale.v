(** * RealScale: indicators under scaling and shifting of their inputs, in exact arithmetic (C53). *)
From Coq Require Import Reals Lra Lia List ZArith Bool.
From Verif Require Import Num Py Tensor Streamable Meta Common Finance Series Formulas Positions
  ImplBasic ImplScalar ImplComp ImplWindow ImplCorr ImplMarket ER RealFacts RealStats RealMarket MovingFacts ReturnFacts StatReal MarketReal
  Linear MemoryFacts RealLinear.
Import ListNotations.
Local Open Scope R_scope.

Lemma hists_map {X Y} (f : X -> Y) xs : forall h, hists (map f h) (map f xs) = map (map f) (hists h xs).
Proof. induction xs as [|x xs IH]; intros h; [reflexivity|]. cbn [map hists]. f_equal. apply (IH (x :: h)). Qed.
(** Operators given by a formula on histories of floats [X'], used on real data [X]. *)
Lemma unaffected_from {X X'} (op : @operator ER) (ok : list X -> Prop) (ok' : list X' -> Prop) (inp' : list X' -> @val ER) out (fin : X -> X') (T : X -> X) :
  streams op ok' inp' (fun hs => out hs) ->
  (forall xs, ok xs -> ok' (rev (map fin xs)) /\ ok' (rev (map fin (map T xs)))) ->
  (forall xs, out (map (map fin) (map (map T) (hists [] xs))) = out (map (map fin) (hists [] xs))) ->
  unaffected op ok (fun xs => inp' (map fin xs)) T.
Proof.
  intros (st & H & _) OK E xs NE O. destruct (OK xs O) as [O1 O2].
  eexists _, _, _, _, _. split; [apply H; [now destruct xs|exact O1]|].
  rewrite H; [|now destruct xs|exact O2]. f_equal. f_equal. f_equal.
  change (@nil X') with (map fin (@nil X)). rewrite !hists_map. change (@nil X) with (map T (@nil X)) at 1. rewrite hists_map. apply E.
Qed.
Lemma unaffected_scalars {X X'} (op : @operator ER) (ok : list X -> Prop) (ok' : list X' -> Prop) inp' (f : list X' -> ext) (fin : X -> X') T :
  @streams ER _ op ok' inp' (fun hs => scalars (map f hs)) ->
  (forall xs, ok xs -> ok' (rev (map fin xs)) /\ ok' (rev (map fin (map T xs)))) ->
  (forall h, f (map fin (map T h)) = f (map fin h)) ->
  unaffected op ok (fun xs => inp' (map fin xs)) T.
Proof.
  intros ST OK E. apply (unaffected_from op ok ok' inp' _ fin T ST OK). intros xs. cbv beta. f_equal.
  rewrite !map_map. apply map_ext. exact E.
Qed.
Lemma follows_scalars {X X'} (op : @operator ER) (ok : list X -> Prop) (ok' : list X' -> Prop) inp' (f : list X' -> ext) (fin : X -> X') T U :
  @streams ER _ op ok' inp' (fun hs => scalars (map f hs)) ->
  (forall xs, ok xs -> ok' (rev (map fin xs)) /\ ok' (rev (map fin (map T xs)))) ->
  (forall h, h <> [] -> f (map fin (map T h)) = U (f (map fin h))) ->
  follows op ok (fun xs => inp' (map fin xs)) T U.
Proof.
  intros (st & H & _) OK E xs NE O. destruct (OK xs O) as [O1 O2].
  exists (map f (hists [] (map fin xs))). eexists _, _, _, _. split; [apply H; [now destruct xs|exact O1]|].
  rewrite H; [|now destruct xs|exact O2]. f_equal. f_equal. f_equal. f_equal.
  change (@nil X') with (map fin (@nil X)). rewrite !hists_map. change (@nil X) with (map T (@nil X)) at 1. rewrite hists_map.
  rewrite !map_map. apply map_ext_in. intros h Hh. apply E.
  apply (In_nth _ _ []) in Hh as (n & Hn & <-). rewrite hists_length in Hn. rewrite nth_hists0 by exact Hn.
  intros Q. apply (f_equal (@length _)) in Q. rewrite upto_length in Q by exact Hn. discriminate.
Qed.
Lemma short_maps {X Y Z} (f : X -> Y) (g : X -> Z) (xs : list X) : short xs -> short (rev (map f xs)) /\ short (rev (map g xs)).
Proof. intros H. unfold short in *. now rewrite !rev_length, !map_length. Qed.
Lemma short_maps' {X X'} (fin : X -> X') T xs : short xs -> short (rev (map fin xs)) /\ short (rev (map fin (map T xs))).
Proof. intros H. unfold short in *. now rewrite !rev_length, !map_length. Qed.

(** ** Returns, volatility *)
Lemma change_scale g p a (h : list R) : a <> 0 -> change g p (map Fin (map (fun x => a * x) h)) = change g p (map Fin h).
Proof.
  intros A. unfold change. rewrite !map_length. destruct (length h <=? p)%nat; [reflexivity|]. cbn [orb].
  assert (E : forall k, @ago ER k (map Fin (map (fun x => a * x) h)) = Fin (a * nth k h 0)).
  { intros k. unfold ago. change (@f0 ER) with (Fin 0). rewrite (map_nth Fin). f_equal.
    replace 0 with (a * 0) at 1 by ring. apply (map_nth (fun x => a * x)). }
  assert (E' : forall k, @ago ER k (map Fin h) = Fin (nth k h 0)).
  { intros k. unfold ago. change (@f0 ER) with (Fin 0). now rewrite (map_nth Fin). }
  unfold now. rewrite !E, !E'. change (@f0 ER) with (Fin 0). cbn [feq ER e_eq fdiv e_div]. unfold Reqb.
  destruct (Req_EM_T (nth p h 0) 0) as [Z|Z].
  - rewrite Z. destruct (Req_EM_T (a * 0) 0); [reflexivity|lra].
  - destruct (Req_EM_T (a * nth p h 0) 0) as [Q|Q]; [apply Rmult_integral in Q; lra|].
    do 2 f_equal. field. auto.
Qed.
Lemma zero_er : @feq ER f0 f0 = true.
Proof. cbn. unfold Reqb. destruct (Req_EM_T 0 0); [reflexivity|lra]. Qed.
Theorem ret_scale p a : (1 <= p)%nat -> a <> 0 -> unaffected (Return (Z.of_nat p)) short reals (fun x => a * x).
Proof.
  intros Hp A. apply (unaffected_scalars _ _ short scalars (ret p) Fin).
  - exact (@ret_streams ER p Hp zero_er).
  - intros xs. apply short_maps'.
  - intros h. now apply change_scale.
Qed.
Theorem log_ret_scale p a : (1 <= p)%nat -> a <> 0 -> unaffected (LogarithmicReturn (Z.of_nat p)) short reals (fun x => a * x).
Proof.
  intros Hp A. apply (unaffected_scalars _ _ short scalars (log_ret p) Fin).
  - exact (@log_ret_streams ER p Hp zero_er).
  - intros xs. apply short_maps'.
  - intros h. now apply change_scale.
Qed.
Lemma trail_map {X Y Z} (f : list Y -> Z) (g : X -> Y) h : trail f (map g h) = trail (fun l => f (map g l)) h.
Proof. induction h as [|x h IH]; [reflexivity|]. cbn [map trail]. now rewrite IH. Qed.
Lemma trail_ext {X Y} (f g : list X -> Y) h : (forall l, f l = g l) -> trail f h = trail g h.
Proof. intros E. induction h as [|x h IH]; [reflexivity|]. cbn [trail]. now rewrite IH, E. Qed.
Lemma trail_scale {Y} (f : list ext -> Y) (T : R -> R) h : (forall l : list R, f (map Fin (map T l)) = f (map Fin l)) ->
  trail f (map Fin (map T h)) = trail f (map Fin h).
Proof. intros E. rewrite !trail_map. apply trail_ext. exact E. Qed.
Theorem volatility_scale m r a : (1 <= m)%nat -> (1 <= r)%nat -> a <> 0 -> unaffected (Volatility (Z.of_nat m) (Z.of_nat r)) short reals (fun x => a * x).
Proof.
  intros Hm Hr A. apply (unaffected_scalars _ _ short scalars (volatility m r) Fin).
  - exact (@volatility_streams ER m r Hm Hr zero_er).
  - intros xs. apply short_maps'.
  - intros h. unfold volatility. rewrite !map_length. destruct (length h <=? Nat.max m r)%nat; [reflexivity|].
    exact (f_equal (@msd ER m) (trail_scale (@log_ret ER r) (fun x => a * x) h (fun l => change_scale _ r a l A))).
Qed.

(** ** Deviation, skewness, Sharpe ratio *)
Definition affine (a c : R) (x : R) : R := a * x + c.
Lemma rmean_affine a c l : l <> [] -> rmean (map (affine a c) l) = affine a c (rmean l).
Proof. intros H. unfold affine. rewrite rmean_plus, rmean_const, rmean_scale, map_id by exact H. reflexivity. Qed.
Lemma rvar_affine a c l : l <> [] -> rvar (map (affine a c) l) = a * a * rvar l.
Proof.
  intros H. unfold rvar. rewrite rmean_affine by exact H. rewrite map_map. set (m := rmean l).
  rewrite (map_ext _ (fun x => a * a * ((x - m) * (x - m)))) by (intros; unfold affine; ring). apply rmean_scale.
Qed.
Lemma sqrt_var_affine a c l : l <> [] -> sqrt (rvar (map (affine a c) l)) = Rabs a * sqrt (rvar l).
Proof.
  intros H. rewrite rvar_affine by exact H. rewrite sqrt_mult; [|apply Rle_0_sqr|apply rvar_nonneg]. f_equal. apply sqrt_Rsqr_abs.
Qed.
Lemma third_affine a c l : l <> [] -> third_moment (map (affine a c) l) = a ^ 3 * third_moment l.
Proof.
  intros H. unfold third_moment. rewrite rmean_affine by exact H. rewrite map_map. set (m := rmean l).
  rewrite (map_ext _ (fun x => a ^ 3 * ((x - m) ^ 3))) by (intros; unfold affine; ring). apply rmean_scale.
Qed.
Lemma skew_affine a c w : 0 < a -> w <> [] -> skew_of (map Fin (map (affine a c) w)) = skew_of (map Fin w).
Proof.
  intros A H. rewrite !skew_fin by (destruct w; easy). f_equal. rewrite sqrt_var_affine, third_affine, Rabs_pos_eq by (auto; lra).
  destruct (Req_EM_T (sqrt (rvar w)) 0) as [E|E].
  - rewrite E. destruct (Req_EM_T (a * 0) 0); [reflexivity|lra].
  - destruct (Req_EM_T (a * sqrt (rvar w)) 0) as [Q|Q]; [apply Rmult_integral in Q; lra|]. field. split; [exact E|lra].
Qed.
Theorem skewness_affine p a c : (1 <= p)%nat -> (Z.of_nat p < 2147483648)%Z -> 0 < a -> unaffected (Skewness (Z.of_nat p)) short reals (affine a c).
Proof.
  intros Hp Hb A. apply (unaffected_scalars _ _ short scalars (skewness p) Fin).
  - exact (@skewness_streams ER p Hp Hb).
  - intros xs. apply short_maps'.
  - intros h. unfold skewness. change (@F ER) with ext. rewrite (firstn_map Fin), (firstn_map (affine a c)), (firstn_map Fin).
    destruct p as [|p]; [lia|]. destruct h as [|x h]; [reflexivity|]. apply skew_affine; [exact A|discriminate].
Qed.
Lemma ratio_scale a w : 0 < a -> w <> [] -> ratio (map Fin (map (affine a 0) w)) = ratio (map Fin w).
Proof.
  intros A H. assert (H' : map (affine a 0) w <> []) by (destruct w; easy). unfold ratio. change (@fmean ER) with e_mean.
  rewrite !sqrt_fvar, !e_mean_fin by assumption. rewrite sqrt_var_affine, rmean_affine, Rabs_pos_eq by (auto; lra).
  change (@f0 ER) with (Fin 0). cbn [feq ER e_eq fdiv e_div]. unfold Reqb, affine.
  destruct (Req_EM_T (sqrt (rvar w)) 0) as [E|E].
  - rewrite E. destruct (Req_EM_T (a * 0) 0); [reflexivity|lra].
  - destruct (Req_EM_T (a * sqrt (rvar w)) 0) as [Q|Q]; [apply Rmult_integral in Q; lra|]. f_equal. field. split; [exact E|lra].
Qed.
(** Returns and rate multiplied by [a > 0], and the same number added to both. *)
Theorem sharpe_affine p a c : (1 <= p)%nat -> (Z.of_nat p < 2147483648)%Z -> 0 < a ->
  unaffected (SharpeRatio (Z.of_nat p)) short (fun xs => pairs (map fin_pair xs)) (fun x => (affine a c (fst x), affine a c (snd x))).
Proof.
  intros Hp Hb A. apply (unaffected_scalars _ _ short pairs (sharpe p) fin_pair).
  - exact (@sharpe_streams ER p Hp Hb).
  - intros xs. apply short_maps'.
  - intros h. unfold sharpe. rewrite !map_map.
    rewrite (map_ext (fun x => @excess ER (fin_pair (affine a c (fst x), affine a c (snd x)))) (fun x => Fin (affine a 0 (fst x - snd x))))
      by (intros [x y]; cbn; f_equal; unfold affine; ring).
    rewrite (map_ext (fun x => @excess ER (fin_pair x)) (fun x => Fin (fst x - snd x))) by (intros [x y]; reflexivity).
    rewrite <- (map_map (fun x => affine a 0 (fst x - snd x)) Fin), <- (map_map (fun x => fst x - snd x) Fin).
    rewrite <- (map_map (fun x => fst x - snd x) (affine a 0)). set (w := map (fun x => fst x - snd x) h).
    change (@F ER) with ext. rewrite (firstn_map Fin), (firstn_map (affine a 0)), (firstn_map Fin).
    destruct p as [|p]; [lia|]. destruct w as [|x w]; [reflexivity|]. apply ratio_scale; [exact A|discriminate].
Qed.

(** ** RSI *)
Lemma rchanges_affine a c h : rchanges (map (affine a c) h) = map (fun x => a * x) (rchanges h).
Proof.
  induction h as [|x [|y h] IH]; [reflexivity..|].
  change (rchanges (map (affine a c) (x :: y :: h))) with ((affine a c x - affine a c y) :: rchanges (map (affine a c) (y :: h))).
  rewrite IH. change (rchanges (x :: y :: h)) with ((x - y) :: rchanges (y :: h)). cbn [map]. f_equal. unfold affine. ring.
Qed.
Lemma wilder_scale p a seed new (c : list R) : (1 <= p)%nat ->
  (forall l : list R, l <> [] -> exists e, seed (map Fin l) = Fin e /\ seed (map Fin (map (fun x => a * x) l)) = Fin (a * e)) ->
  (forall x : R, exists e, new (Fin x) = Fin e /\ new (Fin (a * x)) = Fin (a * e)) ->
  exists e, wilder p seed new (map Fin c) = Fin e /\ wilder p seed new (map Fin (map (fun x => a * x) c)) = Fin (a * e).
Proof.
  intros Hp Hs Hn. induction c as [|x c (e & IH & IH')]; [exists 0; split; [reflexivity|]; cbn; f_equal; lra|].
  destruct (Hs (x :: c)) as (d & S1 & S2); [discriminate|]. destruct (Hn x) as (y & N1 & N2).
  cbn [map] in S1, S2 |- *. cbn [wilder].
  cbn [length]. change (@F ER) with ext. rewrite !map_length.
  destruct (S (length c) <? p)%nat; [exists 0; split; [reflexivity|]; change (@f0 ER) with (Fin 0); f_equal; lra|].
  destruct (S (length c) =? p)%nat; [exists d; auto|].
  rewrite IH, IH', N1, N2. cbn [f_of_Z ER fmul fadd fdiv e_mul e_add].
  assert (P : 1 <= IZR (Z.of_nat p)) by (rewrite <- INR_IZR_INZ; apply (le_INR 1 p); lia).
  rewrite !e_div_fin by lra. eexists. split; [reflexivity|]. f_equal. field. lra.
Qed.
Lemma gain_scale p a h : (1 <= p)%nat -> 0 < a ->
  exists e, wilder p (fun c => fmean (map rise c)) (fun d => fmax f0 d) (map Fin h) = Fin e /\
            wilder p (fun c => fmean (map rise c)) (fun d => fmax f0 d) (map Fin (map (fun x => a * x) h)) = Fin (a * e).
Proof.
  intros Hp A. apply wilder_scale; [exact Hp|..].
  - intros l Hl. exists (rmean (map (fun x => if Rlt_dec 0 x then x else 0) l)).
    assert (E : forall l, l <> [] -> @fmean ER (map rise (map Fin l)) = Fin (rmean (map (fun x => if Rlt_dec 0 x then x else 0) l))).
    { clear. intros l Hl. rewrite map_map. rewrite (map_ext _ (fun x => Fin (if Rlt_dec 0 x then x else 0))).
      - rewrite <- (map_map (fun x => if Rlt_dec 0 x then x else 0) Fin). apply e_mean_fin. destruct l; easy.
      - intros x. cbn. unfold rise. cbn. unfold Rltb. destruct (Rlt_dec 0 x); reflexivity. }
    split; [now apply E|]. rewrite E by (destruct l; easy). f_equal. rewrite map_map, <- rmean_scale. f_equal. apply map_ext. intros x.
    destruct (Rlt_dec 0 x), (Rlt_dec 0 (a * x)); try lra; nra.
  - intros x. exists (if Rlt_dec 0 x then x else 0). cbn. unfold e_max. cbn. unfold Rltb.
    destruct (Rlt_dec 0 x), (Rlt_dec 0 (a * x)); split; try reflexivity; f_equal; try lra; nra.
Qed.
Lemma loss_scale p a h : (1 <= p)%nat -> 0 < a ->
  exists e, wilder p (fun c => fneg (fmean (map fall c))) (fun d => fneg (fmin f0 d)) (map Fin h) = Fin e /\
            wilder p (fun c => fneg (fmean (map fall c))) (fun d => fneg (fmin f0 d)) (map Fin (map (fun x => a * x) h)) = Fin (a * e).
Proof.
  intros Hp A. apply wilder_scale; [exact Hp|..].
  - intros l Hl. exists (- rmean (map (fun x => if Rlt_dec x 0 then x else 0) l)).
    assert (E : forall l, l <> [] -> @fneg ER (fmean (map fall (map Fin l))) = Fin (- rmean (map (fun x => if Rlt_dec x 0 then x else 0) l))).
    { clear. intros l Hl. rewrite map_map. rewrite (map_ext _ (fun x => Fin (if Rlt_dec x 0 then x else 0))).
      - rewrite <- (map_map (fun x => if Rlt_dec x 0 then x else 0) Fin). change (@fmean ER) with e_mean.
        rewrite e_mean_fin by (destruct l; easy). reflexivity.
      - intros x. cbn. unfold fall. cbn. unfold Rltb. destruct (Rlt_dec x 0); reflexivity. }
    split; [now apply E|]. rewrite E by (destruct l; easy). f_equal. rewrite map_map.
    replace (a * - rmean (map (fun x => if Rlt_dec x 0 then x else 0) l)) with (- (a * rmean (map (fun x => if Rlt_dec x 0 then x else 0) l))) by ring.
    f_equal. rewrite <- rmean_scale. f_equal. apply map_ext. intros x. destruct (Rlt_dec x 0), (Rlt_dec (a * x) 0); try lra; nra.
  - intros x. exists (if Rlt_dec x 0 then - x else 0). cbn. unfold e_min. cbn. unfold Rltb.
    destruct (Rlt_dec x 0), (Rlt_dec (a * x) 0); cbn; split; try reflexivity; f_equal; try lra; nra.
Qed.
Lemma e_div_scale a x y : 0 < a -> e_div (Fin (a * x)) (Fin (a * y)) = e_div (Fin x) (Fin y).
Proof.
  intros A. unfold e_div. destruct (Req_EM_T y 0) as [->|E].
  - destruct (Req_EM_T (a * 0) 0); [|lra]. unfold inf_of. destruct (Rlt_dec 0 x), (Rlt_dec 0 (a * x)); try reflexivity; try nra.
    destruct (Rlt_dec x 0), (Rlt_dec (a * x) 0); try reflexivity; nra.
  - destruct (Req_EM_T (a * y) 0) as [Q|Q]; [apply Rmult_integral in Q; lra|]. f_equal. field. split; [exact E|lra].
Qed.
Theorem rsi_affine p a c : (1 <= p)%nat -> 0 < a -> unaffected (RelativeStrengthIndex (Z.of_nat p)) short reals (affine a c).
Proof.
  intros Hp A. apply (unaffected_scalars _ _ short scalars (rsi p) Fin).
  - exact (@rsi_streams ER p Hp).
  - intros xs. apply short_maps'.
  - intros h. unfold rsi. rewrite !map_length. destruct (length h <=? p)%nat; [reflexivity|].
    unfold average_gain, average_loss. rewrite !changes_fin, rchanges_affine.
    destruct (gain_scale p a (rchanges h) Hp A) as (g & -> & ->), (loss_scale p a (rchanges h) Hp A) as (l & -> & ->).
    cbn [fdiv ER]. now rewrite e_div_scale.
Qed.

(** ** Extrema *)
Definition e_affine (a c : R) (x : ext) : ext := e_add (e_mul (Fin a) x) (Fin c).
Lemma affine_fin a c x : e_affine a c (Fin x) = Fin (affine a c x).
Proof. reflexivity. Qed.
Lemma running_fin lt (h : list R) : h <> [] -> exists x, @running ER lt (map Fin h) = Fin x.
Proof.
  induction h as [|x h IH]; intros H; [easy|]. destruct h as [|y h]; [now exists x|].
  change (@running ER lt (map Fin (x :: y :: h))) with
    (if lt (Fin x) (@running ER lt (map Fin (y :: h))) then Fin x else @running ER lt (map Fin (y :: h))).
  destruct IH as (z & E); [discriminate|]. destruct (lt (Fin x) _); eauto.
Qed.
Lemma running_affine (lt : ext -> ext -> bool) a c (h : list R) :
  (forall x y, lt (Fin (affine a c x)) (Fin (affine a c y)) = lt (Fin x) (Fin y)) -> h <> [] ->
  @running ER lt (map Fin (map (affine a c) h)) = e_affine a c (@running ER lt (map Fin h)).
Proof.
  intros M. induction h as [|x h IH]; intros H; [easy|]. destruct h as [|y h]; [reflexivity|].
  change (@running ER lt (map Fin (x :: y :: h))) with
    (if lt (Fin x) (@running ER lt (map Fin (y :: h))) then Fin x else @running ER lt (map Fin (y :: h))).
  change (@running ER lt (map Fin (map (affine a c) (x :: y :: h)))) with
    (if lt (Fin (affine a c x)) (@running ER lt (map Fin (map (affine a c) (y :: h)))) then Fin (affine a c x)
     else @running ER lt (map Fin (map (affine a c) (y :: h)))).
  rewrite IH by discriminate. destruct (running_fin lt (y :: h)) as (z & ->); [discriminate|]. rewrite affine_fin, M.
  destruct (lt (Fin x) (Fin z)); reflexivity.
Qed.
Lemma lt_affine a c x y : 0 < a -> Rltb (affine a c x) (affine a c y) = Rltb x y.
Proof. intros A. unfold Rltb, affine. destruct (Rlt_dec (a * x + c) (a * y + c)), (Rlt_dec x y); try reflexivity; nra. Qed.
Lemma fold_affine (op : ext -> ext -> ext) a c : (forall x y, op (Fin (affine a c x)) (Fin (affine a c y)) = e_affine a c (op (Fin x) (Fin y))) ->
  (forall x y, exists z, op (Fin x) (Fin y) = Fin z) ->
  forall l x, fold_left op (map Fin (map (affine a c) l)) (Fin (affine a c x)) = e_affine a c (fold_left op (map Fin l) (Fin x)).
Proof.
  intros M Q. induction l as [|y l IH]; intros x; [reflexivity|]. cbn [map fold_left]. rewrite M. destruct (Q x y) as (z & ->). rewrite affine_fin. apply IH.
Qed.
Theorem extrema_affine p a c : (1 <= p)%nat -> (Z.of_nat p < 2147483648)%Z -> 0 < a ->
  follows GlobalMinimum (fun _ => True) reals (affine a c) (e_affine a c) /\
  follows GlobalMaximum (fun _ => True) reals (affine a c) (e_affine a c) /\
  follows (LocalMinimum (Z.of_nat p)) short reals (affine a c) (e_affine a c) /\
  follows (LocalMaximum (Z.of_nat p)) short reals (affine a c) (e_affine a c).
Proof.
  intros Hp Hb A. split; [|split; [|split]].
  - apply (follows_scalars _ _ (fun _ => True) scalars (running flt) Fin); [exact (@global_min_streams ER)|auto|].
    intros h Hh. apply running_affine; [|exact Hh]. intros x y. cbn. now apply lt_affine.
  - apply (follows_scalars _ _ (fun _ => True) scalars (running fgt) Fin); [exact (@global_max_streams ER)|auto|].
    intros h Hh. apply running_affine; [|exact Hh]. intros x y. cbn. unfold fgt. cbn. now apply lt_affine.
  - apply (follows_scalars _ _ short scalars (fun h => frmin (firstn p h)) Fin); [exact (@local_min_streams ER p Hp Hb)|intros xs; apply short_maps'|].
    intros h Hh. change (@F ER) with ext. rewrite (firstn_map Fin), (firstn_map (affine a c)), (firstn_map Fin).
    destruct p as [|p]; [lia|]. destruct h as [|x h]; [easy|]. cbn [firstn map frmin ER]. unfold e_rmin. cbn [fold_left].
    change (e_min PInf (Fin (affine a c x))) with (Fin (affine a c x)). change (e_min PInf (Fin x)) with (Fin x).
    apply fold_affine.
    + intros u v. unfold e_min. cbn [e_lt]. rewrite lt_affine by exact A. destruct (Rltb v u); reflexivity.
    + intros u v. rewrite e_min_fin. eauto.
  - apply (follows_scalars _ _ short scalars (fun h => frmax (firstn p h)) Fin); [exact (@local_max_streams ER p Hp Hb)|intros xs; apply short_maps'|].
    intros h Hh. change (@F ER) with ext. rewrite (firstn_map Fin), (firstn_map (affine a c)), (firstn_map Fin).
    destruct p as [|p]; [lia|]. destruct h as [|x h]; [easy|]. cbn [firstn map frmax ER]. unfold e_rmax. cbn [fold_left].
    change (e_max NInf (Fin (affine a c x))) with (Fin (affine a c x)). change (e_max NInf (Fin x)) with (Fin x).
    apply fold_affine.
    + intros u v. unfold e_max. cbn [e_lt]. rewrite lt_affine by exact A. destruct (Rltb u v); reflexivity.
    + intros u v. rewrite e_max_fin. eauto.
Qed.

(** ** Average true range *)
Definition rscale (a : R) (k : rcandle) : rcandle := RC (a * r_open k) (a * r_high k) (a * r_low k) (a * r_close k).
Lemma rranges_scale a h : 0 < a -> rranges (map (rscale a) h) = map (fun x => a * x) (rranges h).
Proof.
  intros A. induction h as [|k h IH]; [reflexivity|]. cbn [map rranges]. rewrite IH. f_equal.
  replace (rlast_close (map (rscale a) h)) with (a * rlast_close h) by (destruct h; cbn; [ring|reflexivity]).
  unfold rrange. cbn [rscale r_high r_low]. set (q := rlast_close h).
  assert (M : forall x y, Rmax (a * x) (a * y) = a * Rmax x y) by (intros; apply RmaxRmult; lra).
  assert (B : forall x y, Rabs (a * x - a * y) = a * Rabs (x - y)).
  { intros x y. replace (a * x - a * y) with (a * (x - y)) by ring. rewrite Rabs_mult, Rabs_pos_eq; [reflexivity|lra]. }
  rewrite !B. replace (a * r_high k - a * r_low k) with (a * (r_high k - r_low k)) by ring.
  destruct (Req_EM_T (a * q) 0) as [Q|Q]; destruct (Req_EM_T q 0) as [P|P]; try (apply Rmult_integral in Q; lra); try (rewrite P in Q; lra).
  - rewrite <- !M. now rewrite Rmult_0_r.
  - now rewrite !M.
Qed.
Lemma rrma_scale p a h : rrma p (map (fun x => a * x) h) = a * rrma p h.
Proof.
  pose proof (rrma_linear p a 0 h h eq_refl) as L. unfold blend in L. rewrite combine_same, map_map in L. cbn [fst snd] in L.
  rewrite (map_ext _ (fun x => a * x)) in L by (intros; ring). rewrite L. ring.
Qed.
Theorem atr_scale p a : (1 <= p)%nat -> 0 < a ->
  follows (AverageTrueRange (Z.of_nat p)) short (fun xs => bars (map cfin xs)) (rscale a) (e_mul (Fin a)).
Proof.
  intros Hp A. apply (follows_scalars _ _ short bars (atr p) cfin); [exact (@atr_streams ER p Hp)|intros xs; apply short_maps'|].
  intros h Hh. unfold atr. rewrite !ranges_fin, rranges_scale by exact A. rewrite !rma_eq by exact Hp. now rewrite rrma_scale.
Qed.
