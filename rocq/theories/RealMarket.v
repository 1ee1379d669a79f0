(** * RealMarket: RSI, true range, Heikin-Ashi and drawdown in exact arithmetic. *)
From Coq Require Import Reals Lra Lia List ZArith Bool Psatz.
From Verif Require Import Num Series Formulas ER RealFacts RealStats.
Import ListNotations.
Local Open Scope R_scope.

Lemma Rltb_true x y : Rltb x y = true <-> x < y.
Proof. unfold Rltb. destruct (Rlt_dec x y); split; auto; discriminate. Qed.
Lemma Rltb_false x y : Rltb x y = false <-> y <= x.
Proof. unfold Rltb. destruct (Rlt_dec x y); split; auto; try discriminate; lra. Qed.
Lemma rmean_nonneg l : Forall (fun x => 0 <= x) l -> 0 <= rmean l.
Proof.
  intros H. destruct l as [|x l]; [unfold rmean; cbn; unfold Rdiv; lra|].
  assert (S : 0 <= rsum (x :: l)).
  { clear -H. induction H as [|y l' Hy _ IH]; cbn; [lra|]. unfold rsum in IH. lra. }
  unfold rmean. apply Rmult_le_pos; [exact S|]. left. apply Rinv_0_lt_compat, INR_pos. cbn [length]. lia.
Qed.

(** ** Relative strength index *)
Fixpoint rchanges (h : list R) : list R :=
  match h with x :: r => match r with [] => [] | y :: _ => (x - y) :: rchanges r end | [] => [] end.
Lemma changes_fin h : changes (map Fin h) = map Fin (rchanges h).
Proof.
  induction h as [|x [|y h] IH]; [reflexivity..|].
  change (@changes ER (map Fin (x :: y :: h))) with (Fin (x + - y) :: @changes ER (map Fin (y :: h))). rewrite IH. reflexivity.
Qed.
Lemma rchanges_length h : length (rchanges h) = (length h - 1)%nat.
Proof.
  induction h as [|x [|y h] IH]; [reflexivity..|]. change (rchanges (x :: y :: h)) with ((x - y) :: rchanges (y :: h)).
  cbn [length] in *. rewrite IH. lia.
Qed.
(** Wilder's average of nonnegative contributions is nonnegative. *)
Lemma wilder_nonneg p seed new (c : list R) : (1 <= p)%nat ->
  (forall l : list R, l <> [] -> exists e, seed (map Fin l) = Fin e /\ 0 <= e) ->
  (forall x : R, exists e, new (Fin x) = Fin e /\ 0 <= e) ->
  exists e, wilder p seed new (map Fin c) = Fin e /\ 0 <= e.
Proof.
  intros Hp Hs Hn. induction c as [|x c (e & IH & He)]; [exists 0; split; [reflexivity|lra]|].
  change (map Fin (x :: c)) with (Fin x :: map Fin c). cbn [wilder].
  match goal with |- context [Nat.ltb ?n p] => destruct (Nat.ltb n p); [exists 0; split; [reflexivity|lra]|] end.
  match goal with |- context [Nat.eqb ?n p] => destruct (Nat.eqb n p); [apply (Hs (x :: c)); discriminate|] end.
  rewrite IH. destruct (Hn x) as (d & -> & Hd). cbn [f_of_Z ER fmul fadd fdiv e_mul e_add].
  assert (P : 1 <= IZR (Z.of_nat p)) by (rewrite <- INR_IZR_INZ; apply (le_INR 1 p); lia).
  rewrite e_div_fin by lra. eexists. split; [reflexivity|]. apply Rmult_le_pos; [|left; apply Rinv_0_lt_compat; lra].
  rewrite minus_IZR. nra.
Qed.
Lemma gain_nonneg p (h : list R) : (1 <= p)%nat -> exists e, average_gain p (map Fin h) = Fin e /\ 0 <= e.
Proof.
  intros Hp. unfold average_gain. rewrite changes_fin. apply wilder_nonneg; [exact Hp|..].
  - intros l Hl. rewrite map_map. exists (rmean (map (fun x => if Rlt_dec 0 x then x else 0) l)). split.
    + rewrite (map_ext _ (fun x => Fin (if Rlt_dec 0 x then x else 0))).
      * rewrite <- (map_map (fun x => if Rlt_dec 0 x then x else 0) Fin). apply e_mean_fin. destruct l; easy.
      * intros x. cbn. unfold rise. cbn. unfold Rltb. destruct (Rlt_dec 0 x); reflexivity.
    + apply rmean_nonneg, Forall_map, Forall_forall. intros x _. destruct (Rlt_dec 0 x); lra.
  - intros x. exists (if Rlt_dec 0 x then x else 0). cbn. unfold e_max. cbn. unfold Rltb.
    destruct (Rlt_dec 0 x); split; try reflexivity; lra.
Qed.
Lemma rsum_opp l : rsum (map Ropp l) = - rsum l.
Proof. induction l as [|x l IH]; cbn; [lra|]. unfold rsum in IH. rewrite IH. lra. Qed.
Lemma loss_nonneg p (h : list R) : (1 <= p)%nat -> exists e, average_loss p (map Fin h) = Fin e /\ 0 <= e.
Proof.
  intros Hp. unfold average_loss. rewrite changes_fin. apply wilder_nonneg; [exact Hp|..].
  - intros l Hl. rewrite map_map. exists (- rmean (map (fun x => if Rlt_dec x 0 then x else 0) l)). split.
    + rewrite (map_ext _ (fun x => Fin (if Rlt_dec x 0 then x else 0))).
      * rewrite <- (map_map (fun x => if Rlt_dec x 0 then x else 0) Fin). change (@fmean ER) with e_mean.
        rewrite e_mean_fin by (destruct l; easy). reflexivity.
      * intros x. cbn. unfold fall. cbn. unfold Rltb. destruct (Rlt_dec x 0); reflexivity.
    + replace (- rmean _) with (rmean (map Ropp (map (fun x => if Rlt_dec x 0 then x else 0) l))).
      * apply rmean_nonneg. rewrite map_map. apply Forall_map, Forall_forall. intros x _. destruct (Rlt_dec x 0); lra.
      * unfold rmean. rewrite rsum_opp, !map_length. unfold Rdiv. ring.
  - intros x. exists (if Rlt_dec x 0 then - x else 0). cbn. unfold e_min. cbn. unfold Rltb.
    destruct (Rlt_dec x 0); cbn; split; try reflexivity; try lra. f_equal. lra.
Qed.
Lemma rsi_range p (h : list R) : (1 <= p)%nat ->
  (exists r, rsi p (map Fin h) = Fin r /\ 0 <= r <= 100) \/
  (rsi p (map Fin h) = NaN /\ (p < length h)%nat /\
   average_gain p (map Fin h) = Fin 0 /\ average_loss p (map Fin h) = Fin 0).
Proof.
  intros Hp. unfold rsi. rewrite map_length.
  destruct (Nat.leb_spec (length h) p) as [L|L]; [left; exists 0; split; [reflexivity|lra]|].
  destruct (gain_nonneg p h Hp) as (g & -> & G), (loss_nonneg p h Hp) as (l & -> & Ll).
  cbn [fsub fdiv fadd ER f_of_Z e_sub]. 
  destruct (Req_EM_T l 0) as [->|E].
  - cbn [e_div]. destruct (Req_EM_T 0 0) as [_|?]; [|lra]. unfold inf_of.
    destruct (Rlt_dec 0 g).
    + left. cbn. exists 100. split; [f_equal; lra|lra].
    + destruct (Rlt_dec g 0); [lra|]. right. cbn. repeat split; auto. f_equal. lra.
  - left. rewrite e_div_fin by exact E. cbn [e_add].
    assert (Q : 0 <= g / l) by (apply Rmult_le_pos; [exact G|left; apply Rinv_0_lt_compat; lra]).
    rewrite e_div_fin by lra. cbn [e_neg e_sub e_add]. eexists. split; [reflexivity|].
    set (q := g / l) in *. clearbody q.
    assert (0 <= 100 / (1 + q) <= 100); [|lra]. split.
    + apply Rmult_le_pos; [lra|]. left. apply Rinv_0_lt_compat. lra.
    + apply Rmult_le_reg_r with (1 + q); [lra|]. unfold Rdiv. rewrite Rmult_assoc, Rinv_l by lra. lra.
Qed.
(** The converse: NaN whenever both averages vanish. *)
Lemma rsi_nan p (h : list R) : (p < length h)%nat ->
  average_gain p (map Fin h) = Fin 0 -> average_loss p (map Fin h) = Fin 0 -> rsi p (map Fin h) = NaN.
Proof.
  intros L G Lo. unfold rsi. rewrite map_length. destruct (Nat.leb_spec (length h) p); [lia|]. rewrite G, Lo.
  cbn. destruct (Req_EM_T 0 0); [|lra]. unfold inf_of. destruct (Rlt_dec 0 0); [lra|]. reflexivity.
Qed.
Lemma rchanges_const c h : (forall x, In x h -> x = c) -> Forall (fun x => x = 0) (rchanges h).
Proof.
  induction h as [|x [|y h] IH]; intros H; [constructor..|].
  change (rchanges (x :: y :: h)) with ((x - y) :: rchanges (y :: h)). constructor.
  - rewrite (H x), (H y); [lra|right; now left|now left].
  - apply IH. intros z Hz. apply H. now right.
Qed.
Lemma wilder_zero p seed new (c : list R) : (1 <= p)%nat -> Forall (fun x => x = 0) c ->
  (forall l : list R, l <> [] -> Forall (fun x => x = 0) l -> seed (map Fin l) = Fin 0) ->
  new (Fin 0) = Fin 0 -> wilder p seed new (map Fin c) = Fin 0.
Proof.
  intros Hp H Hs Hn. induction H as [|x c -> Hc IH]; [reflexivity|].
  change (map Fin (0 :: c)) with (Fin 0 :: map Fin c). cbn [wilder].
  match goal with |- context [Nat.ltb ?n p] => destruct (Nat.ltb n p); [reflexivity|] end.
  match goal with |- context [Nat.eqb ?n p] => destruct (Nat.eqb n p); [apply (Hs (0 :: c)); [discriminate|constructor; auto]|] end.
  rewrite IH, Hn. cbn [f_of_Z ER fmul fadd fdiv e_mul e_add].
  assert (P : 1 <= IZR (Z.of_nat p)) by (rewrite <- INR_IZR_INZ; apply (le_INR 1 p); lia).
  rewrite e_div_fin by lra. f_equal. unfold Rdiv. ring.
Qed.
Lemma rsi_constant p c (h : list R) : (1 <= p < length h)%nat -> (forall x, In x h -> x = c) ->
  rsi p (map Fin h) = NaN.
Proof.
  intros [Hp L] H. apply rchanges_const in H. apply rsi_nan; [exact L|..].
  - unfold average_gain. rewrite changes_fin. apply wilder_zero; [exact Hp|exact H|..].
    + intros l Hl Z. rewrite map_map. rewrite (map_ext_in _ (fun _ => Fin 0)).
      * rewrite <- (map_map (fun _ => 0) Fin). change (@fmean ER) with e_mean. rewrite e_mean_fin by (destruct l; easy).
        now rewrite rmean_const.
      * intros x Hx. rewrite Forall_forall in Z. rewrite (Z x Hx). unfold rise. cbn. unfold Rltb. destruct (Rlt_dec 0 0); reflexivity.
    + cbn. unfold e_max. cbn. unfold Rltb. destruct (Rlt_dec 0 0); reflexivity.
  - unfold average_loss. rewrite changes_fin. apply wilder_zero; [exact Hp|exact H|..].
    + intros l Hl Z. rewrite map_map. rewrite (map_ext_in _ (fun _ => Fin 0)).
      * rewrite <- (map_map (fun _ => 0) Fin). change (@fmean ER) with e_mean. rewrite e_mean_fin by (destruct l; easy).
        rewrite rmean_const by exact Hl. cbn. f_equal. lra.
      * intros x Hx. rewrite Forall_forall in Z. rewrite (Z x Hx). unfold fall. cbn. unfold Rltb. destruct (Rlt_dec 0 0); reflexivity.
    + cbn. unfold e_min. cbn. unfold Rltb. destruct (Rlt_dec 0 0); cbn; f_equal; lra.
Qed.

(** ** Candles of finite prices *)
Record rcandle := RC { r_open : R; r_high : R; r_low : R; r_close : R }.
Definition cfin (c : rcandle) : candle := Candle (Fin (r_open c)) (Fin (r_high c)) (Fin (r_low c)) (Fin (r_close c)).
Definition rlast_close (h : list rcandle) : R := match h with [] => 0 | c :: _ => r_close c end.
Definition rlast_open (h : list rcandle) : R := match h with [] => 0 | c :: _ => r_open c end.
Lemma last_close_fin h : last_close (map cfin h) = Fin (rlast_close h).
Proof. destruct h; reflexivity. Qed.
Lemma last_open_fin h : last_open (map cfin h) = Fin (rlast_open h).
Proof. destruct h; reflexivity. Qed.
Lemma e_max_fin x y : e_max (Fin x) (Fin y) = Fin (Rmax x y).
Proof.
  unfold e_max. cbn. unfold Rltb. destruct (Rlt_dec x y); [rewrite Rmax_right by lra|rewrite Rmax_left by lra]; reflexivity.
Qed.
Lemma e_min_fin x y : e_min (Fin x) (Fin y) = Fin (Rmin x y).
Proof.
  unfold e_min. cbn. unfold Rltb. destruct (Rlt_dec y x); [rewrite Rmin_right by lra|rewrite Rmin_left by lra]; reflexivity.
Qed.
(** True range of a candle after a previous close (0: unknown). *)
Definition rrange (prev : R) (c : rcandle) : R :=
  Rmax (Rmax (r_high c - r_low c) (if Req_EM_T prev 0 then 0 else Rabs (r_high c - prev)))
       (if Req_EM_T prev 0 then 0 else Rabs (r_low c - prev)).
Lemma range_fin prev c : range (Fin prev) (cfin c) = Fin (rrange prev c).
Proof.
  unfold range. cbn [c_high c_low cfin feq fsub fabs ER f0 f_of_Z]. unfold f0. cbn [ER f_of_Z e_eq]. unfold Reqb.
  change (@frmax ER) with e_rmax. unfold e_rmax, rrange.
  destruct (Req_EM_T prev 0); cbn [fold_left e_max e_lt e_sub e_add e_neg e_abs];
  change (e_max NInf (Fin (r_high c + - r_low c))) with (Fin (r_high c + - r_low c)); rewrite !e_max_fin; reflexivity.
Qed.
Lemma rrange_nonneg prev c : 0 <= rrange prev c.
Proof.
  unfold rrange. eapply Rle_trans; [|apply Rmax_r]. destruct (Req_EM_T prev 0); [lra|apply Rabs_pos].
Qed.
Lemma rrange_known prev c : prev <> 0 ->
  rrange prev c = Rmax (Rmax (r_high c - r_low c) (Rabs (r_high c - prev))) (Rabs (r_low c - prev)).
Proof. intros H. unfold rrange. destruct (Req_EM_T prev 0); [easy|reflexivity]. Qed.
Fixpoint rranges (h : list rcandle) : list R :=
  match h with [] => [] | c :: r => rrange (rlast_close r) c :: rranges r end.
Lemma ranges_fin h : ranges (map cfin h) = map Fin (rranges h).
Proof.
  induction h as [|c h IH]; [reflexivity|]. cbn [map ranges rranges]. rewrite IH, last_close_fin, range_fin. reflexivity.
Qed.
Lemma rranges_nonneg h : Forall (fun x => 0 <= x) (rranges h).
Proof. induction h; constructor; [apply rrange_nonneg|assumption]. Qed.
Lemma atr_nonneg p (h : list rcandle) : (1 <= p)%nat -> exists a, atr p (map cfin h) = Fin a /\ 0 <= a.
Proof. intros Hp. unfold atr. rewrite ranges_fin. apply rma_nonneg; [exact Hp|apply rranges_nonneg]. Qed.

(** ** Heikin-Ashi *)
Lemma ha_fin h c : rlast_open h <> 0 ->
  exists o hi lo cl, heikin_ashi (map cfin (c :: h)) = Candle (Fin o) (Fin hi) (Fin lo) (Fin cl) /\
    o = (rlast_open h + rlast_close h) / 2 /\ cl = (r_open c + r_high c + r_low c + r_close c) / 4 /\
    hi = Rmax (r_high c) (Rmax o cl) /\ lo = Rmin (r_low c) (Rmin o cl) /\
    lo <= o <= hi /\ lo <= cl <= hi.
Proof.
  intros H. cbn [map heikin_ashi]. rewrite last_open_fin, last_close_fin.
  unfold f0. cbn [feq ER f_of_Z e_eq]. unfold Reqb. destruct (Req_EM_T (rlast_open h) 0); [easy|].
  cbn [fsum ER cfin c_open c_high c_low c_close fadd e_add fdiv]. unfold e_sum. cbn [fold_left e_add].
  rewrite !e_div_fin by lra. change (@frmax ER) with e_rmax. change (@frmin ER) with e_rmin.
  unfold e_rmax, e_rmin. cbn [fold_left].
  set (cl := (0 + r_close c + r_low c + r_high c + r_open c) / 4). set (o := (rlast_open h + rlast_close h) / 2).
  change (e_max NInf (Fin (r_high c))) with (Fin (r_high c)). change (e_min PInf (Fin (r_low c))) with (Fin (r_low c)).
  rewrite !e_max_fin, !e_min_fin.
  exists o, (Rmax (r_high c) (Rmax o cl)), (Rmin (r_low c) (Rmin o cl)), cl.
  split; [f_equal; f_equal|].
  { unfold Rmax. repeat destruct (Rle_dec _ _); lra. }
  { unfold Rmin. repeat destruct (Rle_dec _ _); lra. }
  split; [reflexivity|]. split; [unfold cl; f_equal; ring|]. split; [reflexivity|]. split; [reflexivity|].
  clearbody o cl. unfold Rmax, Rmin. repeat destruct (Rle_dec _ _); lra.
Qed.

(** ** Drawdown *)
Fixpoint rpeak (h : list R) : R := match h with [] => 0 | x :: r => Rmax x (rpeak r) end.
Lemma peak_fin h : peak (map Fin h) = Fin (rpeak h).
Proof.
  induction h as [|x h IH]; [reflexivity|]. cbn [map peak rpeak]. rewrite IH. cbn [fmax ER]. apply e_max_fin.
Qed.
Lemma rpeak_nonneg h : 0 <= rpeak h.
Proof. induction h as [|x h IH]; [cbn; lra|]. cbn [rpeak]. eapply Rle_trans; [exact IH|apply Rmax_r]. Qed.
Lemma rpeak_upper h : Forall (fun x => x <= rpeak h) h.
Proof.
  induction h as [|x h IH]; [constructor|]. cbn [rpeak]. constructor; [apply Rmax_l|].
  eapply Forall_impl; [|exact IH]. intros y Hy. eapply Rle_trans; [exact Hy|apply Rmax_r].
Qed.
Lemma rpeak_in h : rpeak h = 0 \/ In (rpeak h) h.
Proof.
  induction h as [|x h IH]; [now left|]. cbn [rpeak]. unfold Rmax. destruct (Rle_dec x (rpeak h)).
  - destruct IH; [now left|right; now right].
  - right. now left.
Qed.
Lemma tolerance_fin : @tolerance ER = Fin (1 / 10000).
Proof. reflexivity. Qed.
Lemma drawdown_fin x h : drawdown (map Fin (x :: h)) =
  Fin (if Rlt_dec (rpeak h) (1 / 10000) then 0 else Rmin 0 (x / rpeak h - 1)).
Proof.
  cbn [map drawdown]. rewrite peak_fin, tolerance_fin. cbn [fabs flt ER e_abs e_lt].
  rewrite Rabs_right by (apply Rle_ge, rpeak_nonneg). unfold Rltb. destruct (Rlt_dec (rpeak h) (1 / 10000)); [reflexivity|].
  cbn [fdiv ER]. rewrite e_div_fin by lra. unfold f1, f0. cbn [fsub fmin ER f_of_Z e_sub e_add e_neg].
  rewrite e_min_fin. reflexivity.
Qed.
Lemma drawdown_range (h : list R) : Forall (fun x => 0 <= x) h ->
  exists d, drawdown (map Fin h) = Fin d /\ -1 <= d <= 0.
Proof.
  intros H. destruct h as [|x h]; [exists 0; split; [reflexivity|lra]|].
  rewrite drawdown_fin. eexists. split; [reflexivity|].
  destruct (Rlt_dec (rpeak h) (1 / 10000)); [lra|]. inversion H; subst.
  assert (0 <= x / rpeak h) by (apply Rmult_le_pos; [assumption|left; apply Rinv_0_lt_compat; lra]).
  split; [apply Rmin_glb; lra|apply Rmin_l].
Qed.
