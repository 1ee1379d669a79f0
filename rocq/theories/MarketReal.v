(** * MarketReal: RSI, ATR, Heikin-Ashi and drawdown in exact arithmetic, position by position. *)
From Coq Require Import Reals Lra Lia List ZArith Bool.
From Verif Require Import Num Py Tensor Streamable Common Finance Series Formulas Positions EvalFacts
  ImplBasic ImplComp ImplMarket ER RealFacts RealStats RealMarket MovingFacts ReturnFacts SignalFacts StatFacts MarketFacts.
Import ListNotations.
Local Open Scope R_scope.

(** Wilder's average of the contributions [w]. *)
Fixpoint rwilder (p : nat) (w : R -> R) (c : list R) : R :=
  match c with
  | [] => 0
  | x :: r => if (length c <? p)%nat then 0 else if (length c =? p)%nat then rmean (map w c)
              else (rwilder p w r * (INR p - 1) + w x) / INR p
  end.
Lemma wilder_fin p seed new w c : (1 <= p)%nat ->
  (forall l : list R, l <> [] -> seed (map Fin l) = Fin (rmean (map w l))) ->
  (forall x : R, new (Fin x) = Fin (w x)) ->
  @wilder ER p seed new (map Fin c) = Fin (rwilder p w c).
Proof.
  intros Hp Hs Hn. induction c as [|x c IH]; [reflexivity|].
  change (map Fin (x :: c)) with (Fin x :: map Fin c). cbn [wilder rwilder].
  replace (length (Fin x :: map Fin c : list (@F ER))) with (length (x :: c)) by (cbn [length]; now rewrite map_length).
  destruct (length (x :: c) <? p)%nat; [reflexivity|].
  destruct (length (x :: c) =? p)%nat; [apply (Hs (x :: c)); discriminate|].
  rewrite IH, Hn. cbn [f_of_Z ER fmul fadd fdiv e_mul e_add].
  assert (P : 1 <= IZR (Z.of_nat p)) by (rewrite <- INR_IZR_INZ; apply (le_INR 1 p); lia).
  rewrite e_div_fin by lra. rewrite minus_IZR, <- INR_IZR_INZ. reflexivity.
Qed.
Definition up (x : R) : R := Rmax 0 x.
Definition dn (x : R) : R := Rmax 0 (- x).
Lemma up_ge x : 0 <= up x. Proof. apply Rmax_l. Qed.
Lemma dn_ge x : 0 <= dn x. Proof. apply Rmax_l. Qed.
Lemma gain_fin p h : (1 <= p)%nat -> @average_gain ER p (map Fin h) = Fin (rwilder p up (rchanges h)).
Proof.
  intros Hp. unfold average_gain. rewrite changes_fin. apply wilder_fin; [exact Hp|..].
  - intros l Hl. rewrite map_map. rewrite (map_ext _ (fun x => Fin (up x))).
    + rewrite <- (map_map up Fin). apply e_mean_fin. destruct l; easy.
    + intros x. cbn. unfold rise, up, Rmax. cbn. unfold Rltb. destruct (Rlt_dec 0 x), (Rle_dec 0 x); try reflexivity; try lra.
      f_equal. lra.
  - intros x. cbn. unfold e_max, up, Rmax. cbn. unfold Rltb. destruct (Rlt_dec 0 x), (Rle_dec 0 x); try reflexivity; try lra. f_equal. lra.
Qed.
Lemma loss_fin p h : (1 <= p)%nat -> @average_loss ER p (map Fin h) = Fin (rwilder p dn (rchanges h)).
Proof.
  intros Hp. unfold average_loss. rewrite changes_fin. apply wilder_fin; [exact Hp|..].
  - intros l Hl. rewrite map_map. rewrite (map_ext _ (fun x => Fin (- dn x))).
    + rewrite <- (map_map (fun x => - dn x) Fin). change (@fmean ER) with e_mean. rewrite e_mean_fin by (destruct l; easy).
      cbn. f_equal. rewrite <- (map_map dn Ropp). unfold rmean. rewrite rsum_opp, !map_length. unfold Rdiv. ring.
    + intros x. cbn. unfold fall, dn, Rmax. cbn. unfold Rltb. destruct (Rlt_dec x 0), (Rle_dec 0 (- x)); try (f_equal; lra); try lra.
  - intros x. cbn. unfold e_min, dn, Rmax. cbn. unfold Rltb. destruct (Rlt_dec x 0), (Rle_dec 0 (- x)); cbn; f_equal; lra.
Qed.
Lemma rsum_zero l : Forall (fun x => 0 <= x) l -> (rsum l = 0 <-> Forall (fun x => x = 0) l).
Proof.
  intros H. assert (P : forall l, Forall (fun x => 0 <= x) l -> 0 <= rsum l).
  { clear. intros l H. induction H as [|x l Hx _ IH]; cbn; [lra|]. unfold rsum in IH. lra. }
  induction H as [|x l Hx Hl IH]; [split; [constructor|reflexivity]|]. specialize (P l Hl).
  change (rsum (x :: l)) with (x + rsum l). split.
  - intros E. constructor; [lra|]. apply IH. lra.
  - intros Q. inversion Q as [|? ? Q1 Q2]; subst. apply IH in Q2. lra.
Qed.
Lemma rmean_zero l : l <> [] -> Forall (fun x => 0 <= x) l -> (rmean l = 0 <-> Forall (fun x => x = 0) l).
Proof.
  intros NE H. rewrite <- rsum_zero by exact H. unfold rmean.
  assert (P : 0 < INR (length l)) by (apply INR_pos; destruct l; [easy|cbn [length]; lia]). split.
  - intros E. apply Rmult_eq_reg_r with (/ INR (length l)); [unfold Rdiv in E; lra|]. apply Rinv_neq_0_compat. lra.
  - intros ->. unfold Rdiv. ring.
Qed.
Lemma rwilder_nonneg p w c : (1 <= p)%nat -> (forall x, 0 <= w x) -> 0 <= rwilder p w c.
Proof.
  intros Hp W. induction c as [|x c IH]; [cbn; lra|]. cbn [rwilder].
  destruct (length (x :: c) <? p)%nat; [lra|]. destruct (length (x :: c) =? p)%nat.
  - apply rmean_nonneg, Forall_map, Forall_forall. intros; apply W.
  - assert (1 <= INR p) by (apply (le_INR 1 p); lia). apply Rmult_le_pos; [specialize (W x); nra|]. left. apply Rinv_0_lt_compat. lra.
Qed.
(** It vanishes when all contributions vanish (the last one, for period 1). *)
Lemma rwilder_zero p w c : (1 <= p)%nat -> (p <= length c)%nat -> (forall x, 0 <= w x) ->
  (rwilder p w c = 0 <-> forall i, (i < length c)%nat -> (2 <= p)%nat \/ i = O -> w (nth i c 0) = 0).
Proof.
  intros Hp L W. induction c as [|x c IH]; [cbn in L; lia|]. cbn [rwilder].
  destruct (Nat.ltb_spec (length (x :: c)) p); [lia|]. destruct (Nat.eqb_spec (length (x :: c)) p) as [E|E].
  - rewrite rmean_zero; [|discriminate|apply Forall_map, Forall_forall; intros; apply W]. rewrite Forall_map, Forall_forall. split.
    + intros Q i Hi _. apply Q, nth_In, Hi.
    + intros Q y Hy. apply (In_nth _ _ 0) in Hy as (i & Hi & <-). apply Q; [exact Hi|].
      destruct (Nat.eq_dec p 1) as [->|]; [|lia]. right. cbn [length] in *. lia.
  - assert (Lc : (p <= length c)%nat) by (cbn [length] in *; lia). specialize (IH Lc). pose proof (rwilder_nonneg p w c Hp W) as G.
    assert (P : 1 <= INR p) by (apply (le_INR 1 p); lia). pose proof (W x) as Wx.
    assert (K : (rwilder p w c * (INR p - 1) + w x) / INR p = 0 <-> rwilder p w c * (INR p - 1) + w x = 0).
    { split; [|intros ->; unfold Rdiv; ring]. intros Q. apply Rmult_eq_reg_r with (/ INR p); [unfold Rdiv in Q; lra|]. apply Rinv_neq_0_compat. lra. }
    rewrite K. clear K. destruct (Nat.eq_dec p 1) as [->|Np].
    + cbn [INR]. split.
      * intros Q i Hi [H2| ->]; [lia|]. cbn [nth]. lra.
      * intros Q. specialize (Q O ltac:(cbn [length]; lia) (or_intror eq_refl)). cbn [nth] in Q. lra.
    + assert (P2 : 2 <= INR p) by (apply (le_INR 2 p); lia). split.
      * intros Q i Hi _. assert (W0 : w x = 0) by nra. assert (G0 : rwilder p w c = 0) by nra.
        destruct i as [|i]; [exact W0|]. cbn [nth]. apply IH; [exact G0|cbn [length] in Hi; lia|lia].
      * intros Q. assert (W0 : w x = 0) by (apply (Q O); [cbn [length]; lia|now right]).
        assert (G0 : rwilder p w c = 0). { apply IH. intros i Hi _. apply (Q (S i)); [cbn [length]; lia|lia]. }
        rewrite W0, G0. ring.
Qed.
Lemma upto_rchanges n xs : (n < length xs)%nat ->
  rchanges (upto n xs) = map (fun i => nth (n - i) xs 0 - nth (n - i - 1) xs 0) (seq 0 n).
Proof.
  intros H. assert (E := @changes_upto ER n (map Fin xs)). rewrite map_length in E. specialize (E H).
  change (upto n (map Fin xs : list (@F ER))) with (upto n (map Fin xs)) in E. rewrite <- upto_map, changes_fin in E.
  assert (I : forall a b, map Fin a = map Fin b -> a = b).
  { induction a as [|x a IH]; intros [|y b] Q; try discriminate; [reflexivity|]. cbn in Q. injection Q as -> Q. f_equal. auto. }
  apply I. rewrite map_map. etransitivity; [exact E|]. apply map_ext. intros i.
  change (@f0 ER) with (Fin 0). rewrite !(map_nth Fin). reflexivity.
Qed.
Lemma rsi_real p xs : (1 <= p)%nat -> xs <> [] -> short (rev xs) ->
  exists out sf s0, call (@RelativeStrengthIndex ER (Z.of_nat p)) (@scalars ER (map Fin xs)) None true = Ok (scalars out, sf, s0) /\
    length out = length xs /\
    forall n, (n < length xs)%nat ->
      (nth n out PInf = NaN \/ exists r, nth n out PInf = Fin r /\ 0 <= r <= 100) /\
      (nth n out PInf = NaN <->
       (p <= n)%nat /\ forall i, (1 <= i <= n)%nat -> (2 <= p)%nat \/ i = n -> nth i xs 0 = nth (i - 1) xs 0).
Proof.
  intros Hp NE OK.
  destruct (@scalar_positions ER _ _ _ _ _ (@rsi_streams ER p Hp) (map Fin xs)) as (out & sf & s0 & E & L & H).
  { now destruct xs. }
  { unfold short in *. rewrite rev_length in *. now rewrite map_length. }
  rewrite map_length in *. exists out, sf, s0. split; [exact E|]. split; [exact L|]. intros n Hn.
  rewrite H by exact Hn. rewrite <- upto_map. set (h := upto n xs).
  change (@rsi ER p (@map R (@F ER) Fin h)) with (@rsi ER p (@map R ext Fin h)). assert (Lh : length h = S n) by now apply upto_length.
  assert (A : (p <= n)%nat -> (@average_gain ER p (map Fin h) = Fin 0 /\ @average_loss ER p (map Fin h) = Fin 0 <->
    forall i, (1 <= i <= n)%nat -> (2 <= p)%nat \/ i = n -> nth i xs 0 = nth (i - 1) xs 0)).
  { intros Pn. rewrite gain_fin, loss_fin by exact Hp.
    assert (Lc : length (rchanges h) = n) by (rewrite rchanges_length; lia).
    assert (X : forall a b : R, Fin a = Fin b <-> a = b) by (intros; split; [now injection 1|now intros ->]). rewrite !X.
    rewrite !rwilder_zero by (try lia; first [apply up_ge|apply dn_ge]). rewrite Lc.
    assert (N : forall i, (i < n)%nat -> nth i (rchanges h) 0 = nth (n - i) xs 0 - nth (n - i - 1) xs 0).
    { intros i Hi. unfold h. rewrite upto_rchanges by exact Hn.
      rewrite (nth_indep _ 0 ((fun i => nth (n - i) xs 0 - nth (n - i - 1) xs 0) 0%nat)) by (rewrite map_length, seq_length; exact Hi).
      rewrite (map_nth (fun i => nth (n - i) xs 0 - nth (n - i - 1) xs 0)), seq_nth by exact Hi. reflexivity. }
    split.
    - intros [Q1 Q2] i Hi C. specialize (Q1 (n - i)%nat ltac:(lia) ltac:(lia)). specialize (Q2 (n - i)%nat ltac:(lia) ltac:(lia)).
      rewrite N in Q1, Q2 by lia. replace (n - (n - i))%nat with i in * by lia.
      unfold up, dn, Rmax in *. destruct (Rle_dec 0 _), (Rle_dec 0 _); lra.
    - intros Q. split; intros i Hi C; rewrite N by exact Hi; (rewrite (Q (n - i)%nat) by lia); unfold up, dn, Rmax; destruct (Rle_dec 0 _); lra. }
  destruct (rsi_range p h Hp) as [(r & Er & Br)|(En & Ln & G & Lo)].
  - split; [right; now exists r|]. rewrite Er. split; [discriminate|]. intros [Pn Q]. exfalso.
    apply (A Pn) in Q as [G Lo]. rewrite (rsi_nan p h) in Er by (try assumption; lia). discriminate.
  - split; [now left|]. rewrite En. split; [|reflexivity]. intros _. split; [lia|]. apply A; [lia|]. split; assumption.
Qed.

(** ** Average true range *)
Lemma atr_real p xs : (1 <= p)%nat -> xs <> [] -> short (rev xs) ->
  exists out sf s0, call (@AverageTrueRange ER (Z.of_nat p)) (bars (map cfin xs)) None true = Ok (scalars out, sf, s0) /\
    length out = length xs /\
    forall n, (n < length xs)%nat -> exists a, nth n out NaN = Fin a /\ 0 <= a.
Proof.
  intros Hp NE OK. destruct (@scalar_positions ER _ _ _ _ _ (@atr_streams ER p Hp) (map cfin xs)) as (out & sf & s0 & E & L & H).
  { now destruct xs. }
  { unfold short in *. rewrite rev_length in *. now rewrite map_length. }
  rewrite map_length in *. exists out, sf, s0. split; [exact E|]. split; [exact L|]. intros n Hn. rewrite H by exact Hn.
  rewrite <- upto_map. now apply atr_nonneg.
Qed.

(** ** Heikin-Ashi *)
Definition no_rcandle : rcandle := RC 0 0 0 0.
Lemma rlast_open_upto n xs : (n < length xs)%nat -> rlast_open (upto n xs) = r_open (nth n xs no_rcandle).
Proof. intros H. destruct n as [|n]; [now rewrite (upto_0 xs no_rcandle)|]. now rewrite (upto_S n xs no_rcandle). Qed.
Lemma rlast_close_upto n xs : (n < length xs)%nat -> rlast_close (upto n xs) = r_close (nth n xs no_rcandle).
Proof. intros H. destruct n as [|n]; [now rewrite (upto_0 xs no_rcandle)|]. now rewrite (upto_S n xs no_rcandle). Qed.
Lemma ha_real xs : xs <> [] ->
  exists out sf s0, call (@HeikinAshi ER) (candles (map cfin xs)) None true = Ok (candles (map cfin out), sf, s0) /\
    length out = length xs /\
    forall n, (n < length xs)%nat ->
      let c := nth n xs no_rcandle in let b := nth (n - 1) xs no_rcandle in let o := nth n out no_rcandle in
      (n = O \/ r_open b = 0 -> o = c) /\
      (n <> O -> r_open b <> 0 ->
         r_open o = (r_open b + r_close b) / 2 /\
         r_close o = (r_open c + r_high c + r_low c + r_close c) / 4 /\
         r_high o = Rmax (r_high c) (Rmax (r_open o) (r_close o)) /\
         r_low o = Rmin (r_low c) (Rmin (r_open o) (r_close o)) /\
         r_low o <= r_open o <= r_high o /\ r_low o <= r_close o <= r_high o).
Proof.
  intros NE. destruct (@ha_streams ER) as (st & H & _).
  assert (X : forall h, exists o, @heikin_ashi ER (map cfin h) = cfin o /\
     match h with [] => True | c :: r => (rlast_open r = 0 -> o = c) /\ (rlast_open r <> 0 ->
         r_open o = (rlast_open r + rlast_close r) / 2 /\
         r_close o = (r_open c + r_high c + r_low c + r_close c) / 4 /\
         r_high o = Rmax (r_high c) (Rmax (r_open o) (r_close o)) /\
         r_low o = Rmin (r_low c) (Rmin (r_open o) (r_close o)) /\
         r_low o <= r_open o <= r_high o /\ r_low o <= r_close o <= r_high o) end).
  { intros [|c r]; [exists no_rcandle; split; [reflexivity|exact I]|].
    destruct (Req_EM_T (rlast_open r) 0) as [Z|Z].
    - exists c. split; [|split; [reflexivity|intros Q; contradiction]].
      cbn [map heikin_ashi]. rewrite last_open_fin. unfold f0. cbn [feq ER f_of_Z e_eq]. unfold Reqb. now destruct (Req_EM_T (rlast_open r) 0).
    - destruct (ha_fin r c Z) as (o & hi & lo & cl & E & Q). exists (RC o hi lo cl). split; [exact E|]. split; [intros; contradiction|]. intros _. exact Q. }
  assert (Y : forall l : list (list rcandle), exists out, map (fun h => @heikin_ashi ER (map cfin h)) l = map cfin out /\ length out = length l /\
     forall n, (n < length l)%nat -> @heikin_ashi ER (map cfin (nth n l [])) = cfin (nth n out no_rcandle)).
  { induction l as [|h l (out & E & Lo & IH)]; [exists []; split; [reflexivity|]; split; [reflexivity|]; cbn; lia|].
    destruct (X h) as (o & Eo & _). exists (o :: out). cbn [map length]. rewrite E, Eo. split; [reflexivity|]. split; [now rewrite Lo|].
    intros [|n] Hn; [exact Eo|]. apply IH. lia. }
  destruct (Y (hists [] xs)) as (out & E & Lo & K). rewrite hists_length in *.
  exists out, (st (rev (map cfin xs))), (st []). split; [|split; [exact Lo|]].
  - rewrite <- E. rewrite H; [|now destruct xs|exact I]. change (@nil (@candle ER)) with (map cfin []). rewrite hists_map, map_map. reflexivity.
  - intros n Hn c b o. specialize (K n Hn). rewrite nth_hists0 in K by exact Hn.
    destruct (X (upto n xs)) as (o' & Eo & Q).
    assert (EO : o' = o).
    { rewrite Eo in K. unfold o. destruct o', (nth n out no_rcandle). unfold cfin in K. cbn in K. now injection K as -> -> -> ->. }
    subst o'. destruct n as [|n].
    + rewrite (upto_0 xs no_rcandle) in Q by lia. split; [|intros; lia]. intros _. apply (proj1 Q). reflexivity.
    + rewrite (upto_S n xs no_rcandle) in Q by lia. rewrite rlast_open_upto, rlast_close_upto in Q by lia.
      unfold b. replace (S n - 1)%nat with n by lia. split; [intros [|]; [lia|now apply Q]|]. intros _. apply Q.
Qed.

(** ** Drawdown *)
(** The largest of the numbers before position [n], at least 0. *)
Definition top_before (xs : list R) (n : nat) (t : R) : Prop :=
  0 <= t /\ (forall i, (i < n)%nat -> nth i xs 0 <= t) /\ (t = 0 \/ exists i, (i < n)%nat /\ t = nth i xs 0).
Lemma rpeak_top xs n : (n <= length xs)%nat -> top_before xs n (rpeak (rev (firstn n xs))).
Proof.
  intros H. split; [apply rpeak_nonneg|]. split.
  - intros i Hi. pose proof (rpeak_upper (rev (firstn n xs))) as U. rewrite Forall_forall in U. apply U. rewrite <- in_rev.
    rewrite <- (nth_firstn i n) by exact Hi. apply nth_In. rewrite firstn_length. lia.
  - destruct (rpeak_in (rev (firstn n xs))) as [E|I]; [now left|]. right. rewrite <- in_rev in I. apply (In_nth _ _ 0) in I as (i & Hi & E).
    rewrite firstn_length in Hi. exists i. split; [lia|]. rewrite <- E. apply nth_firstn. lia.
Qed.
Lemma drawdown_real xs : xs <> [] -> below31 (rev xs) ->
  exists out (top : nat -> R) sf s0, call (@Drawdown ER) (@scalars ER (map Fin xs)) None true = Ok (drawdowns out, sf, s0) /\
    length out = length xs /\
    (forall n, (n <= length xs)%nat -> top_before xs n (top n)) /\
    forall n, (n < length xs)%nat ->
      fst (nth n out (NaN, 0%Z)) = Fin (if Rlt_dec (top n) (1 / 10000) then 0 else Rmin 0 (nth n xs 0 / top n - 1)) /\
      snd (nth n out (NaN, 0%Z)) = (if Rlt_dec (1 / 10000) (top (S n) - top n) then 0%Z
                                   else Z.add (if Nat.eqb n 0 then 0%Z else snd (nth (n - 1) out (NaN, 0%Z))) 1) /\
      ((forall i, (i <= n)%nat -> 0 <= nth i xs 0) -> exists d, fst (nth n out (NaN, 0%Z)) = Fin d /\ -1 <= d <= 0).
Proof.
  intros NE OK. destruct (@drawdown_streams ER) as (st & H & _).
  exists (map (fun h => (@drawdown ER h, @under_water ER h)) (hists [] (map Fin xs))), (fun n => rpeak (rev (firstn n xs))), (st (rev (map Fin xs))), (st []).
  assert (NE' : map Fin xs <> []) by now destruct xs.
  assert (OK' : below31 (rev (map Fin xs))) by (unfold below31 in *; rewrite rev_length in *; now rewrite map_length).
  split; [now apply H|]. split; [now rewrite map_length, hists_length, map_length|]. split; [intros; now apply rpeak_top|].
  intros n Hn.
  assert (R1 : nth n (map (fun h => (@drawdown ER h, @under_water ER h)) (hists [] (map Fin xs))) (NaN, 0%Z) =
               (@drawdown ER (map Fin (upto n xs)), @under_water ER (map Fin (upto n xs)))).
  { rewrite upto_map. apply (nth_map_hists (fun h => (@drawdown ER h, @under_water ER h))). now rewrite map_length. }
  assert (R2 : (0 < n)%nat -> nth (n - 1) (map (fun h => (@drawdown ER h, @under_water ER h)) (hists [] (map Fin xs))) (NaN, 0%Z) =
               (@drawdown ER (map Fin (upto (n - 1) xs)), @under_water ER (map Fin (upto (n - 1) xs)))).
  { intros. rewrite upto_map. apply (nth_map_hists (fun h => (@drawdown ER h, @under_water ER h))). rewrite map_length. lia. }
  rewrite R1. cbn [fst snd]. fold (upto n xs).
  assert (U : exists h, upto n xs = nth n xs 0 :: h /\ h = rev (firstn n xs)).
  { exists (rev (firstn n xs)). split; [|reflexivity]. unfold upto. destruct n as [|n]; [destruct xs; [easy|reflexivity]|].
    exact (upto_S n xs 0 Hn). }
  destruct U as (h & U & Eh). rewrite <- Eh. split; [rewrite U; apply drawdown_fin|]. split.
  - rewrite U. cbn [map under_water].
    change (@peak ER (Fin (nth n xs 0) :: map Fin h)) with (@peak ER (map Fin (nth n xs 0 :: h))).
    rewrite !peak_fin, tolerance_fin. cbn [fabs flt ER fsub e_sub e_add e_neg e_abs e_lt].
    rewrite Rabs_right by (apply Rle_ge; cbn [rpeak]; pose proof (Rmax_r (nth n xs 0) (rpeak h)); lra).
    unfold Rltb. change (rpeak (nth n xs 0 :: h) + - rpeak h) with (rpeak (nth n xs 0 :: h) - rpeak h).
    destruct (Rlt_dec (1 / 10000) (rpeak (nth n xs 0 :: h) - rpeak h)); [reflexivity|]. f_equal.
    destruct n as [|n]; [rewrite Eh; reflexivity|]. cbn [Nat.eqb]. rewrite R2 by lia. cbn [snd]. replace (S n - 1)%nat with n by lia.
    rewrite Eh. reflexivity.
  - intros P. apply drawdown_range. apply Forall_forall. intros x Hx. apply (upto_in n xs 0) in Hx as (i & Hi & <-); [|exact Hn]. now apply P.
Qed.
