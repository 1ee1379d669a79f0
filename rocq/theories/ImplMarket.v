(** * ImplMarket: closed forms of RelativeStrengthIndex, AverageTrueRange, HeikinAshi,
    Supertrend and Drawdown. *)
From Coq Require Import String List ZArith Bool Lia.
From Verif Require Import Num Py PyFacts Tensor Streamable Spec StreamFacts TensorFacts StreamProofs
  WfFacts Meta Common Finance Series Formulas EvalFacts Implements ImplMeta ImplBasic ImplScalar ImplComp ImplWindow.
Import ListNotations.

(** Evaluation of operations on scalars. *)
Ltac ev := repeat (first [rewrite tbin_ff|rewrite tbin_ii|rewrite tcmp_ff|rewrite tcmp_ii|rewrite tun_f|rewrite twhere_f
  |rewrite twhere_i|rewrite tbool2_bb|rewrite tlogical_not_b|rewrite tcond_f|rewrite tcond_i|rewrite int_op_f|rewrite int_op_i
  |rewrite zeros_like_f]; cbn [bind]).

Section ImplMarket.
Context {N : FOps}.

(** ** tf.case *)
Fixpoint pick {A} (cs : list (bool * A)) (d : A) : A :=
  match cs with [] => d | (b, v) :: r => if b then v else pick r d end.
Definition guarded (cs : list (bool * val)) : list (tensor * res val) :=
  map (fun c => (bsc (fst c), Ok (snd c))) cs.
Lemma tf_case_nested_pick cs d : solid d ->
  Forall (fun c => solid (snd c) /\ sig (snd c) = sig d) cs ->
  tf_case_nested (guarded cs) (Ok d) = Ok (pick cs d) /\ solid (pick cs d) /\ sig (pick cs d) = sig d.
Proof.
  intros Hd H. induction H as [|[b v] cs [Hv Ev] _ IH]; cbn [guarded map tf_case_nested pick fst snd]; [auto|].
  destruct IH as (E & Hs & Es). cbn [fst snd] in *. unfold guarded in E. rewrite E.
  rewrite tf_cond_pick; [|assumption|assumption|apply same_types_sig; [apply Hv|congruence]].
  split; [reflexivity|]. destruct b; auto.
Qed.
Lemma guarded_preds cs : mapM (fun pv : tensor * res val => as_pred (fst pv)) (guarded cs) = Ok (map fst cs).
Proof. induction cs as [|[b v] cs IH]; [reflexivity|]. cbn [guarded map mapM fst]. unfold guarded in IH. cbn. now rewrite IH. Qed.
Lemma tf_case_pick cs d ex : solid d -> Forall (fun c => solid (snd c) /\ sig (snd c) = sig d) cs ->
  ex && Nat.ltb 1 (length (filter (fun b => b) (map fst cs))) = false ->
  tf_case (guarded cs) (Ok d) ex = Ok (pick cs d).
Proof.
  intros Hd H He. unfold tf_case. rewrite guarded_preds. cbn [bind]. rewrite He. now apply tf_case_nested_pick.
Qed.

(** ** RelativeStrengthIndex *)
Lemma changes_map2 x w : changes (x :: w) = map2 fsub (firstn (length w) (x :: w)) w.
Proof.
  revert x. induction w as [|y w IH]; intros x; [reflexivity|].
  change (changes (x :: y :: w)) with (fsub x y :: changes (y :: w)). rewrite IH. reflexivity.
Qed.
Lemma changes_length x w : length (changes (x :: w)) = length w.
Proof.
  rewrite changes_map2, map2_length; [|rewrite firstn_length; cbn [length]; lia].
  rewrite firstn_length. cbn [length]. lia.
Qed.
Lemma first_gain_loss x p w : length w = p ->
  compute_first_gain_loss (fsc x) (mkT [p] (DF w)) =
  Ok (fsc (fmean (map rise (changes (x :: w)))), fsc (fneg (fmean (map fall (changes (x :: w)))))).
Proof.
  intros <-. unfold compute_first_gain_loss. unfold concat0, expand0. cbn [sh dat fsc shape_eqb dapp bind Nat.add app].
  cbn [size0 sh bind]. unfold slice0. cbn [sh dat prod fold_right dslice].
  destruct (Z.ltb_spec 1 0); [lia|]. destruct (Z.ltb_spec (Z.of_nat (S (length w))) 0); [lia|].
  destruct (Z.ltb_spec 0 0); [lia|]. destruct (Z.ltb_spec (-1) 0); [|lia].
  replace (Z.to_nat (Z.min 1 (Z.of_nat (S (length w))))) with 1 by lia.
  replace (Z.to_nat (Z.min (Z.of_nat (S (length w))) (Z.of_nat (S (length w))))) with (S (length w)) by lia.
  replace (Z.to_nat (Z.min 0 (Z.of_nat (S (length w))))) with 0 by lia.
  replace (Z.to_nat (Z.max 0 (-1 + Z.of_nat (S (length w))))) with (length w) by lia.
  cbn [bind]. rewrite !Nat.mul_1_r. cbn [Nat.sub]. rewrite !Nat.sub_0_r. unfold lslice. cbn [skipn].
  rewrite (firstn_all2 w) by lia.
  assert (E : tsub (mkT [length w] (DF (firstn (length w) (x :: w)))) (mkT [length w] (DF w)) =
    Ok (mkT [length w] (DF (changes (x :: w))))).
  { rewrite changes_map2. exact (tbin_same fsub _ [length w] _ _). }
  rewrite E. cbn [bind rsi_clip sh dat]. reflexivity.
Qed.
Lemma default_gain_loss p x h g l : p >= 1 ->
  compute_default_gain_loss (Z.of_nat p) (fsc x) (sbuf p h) (fsc g) (fsc l) =
  Ok (fsc (fdiv (fadd (fmul g (f_of_Z (Z.of_nat p - 1))) (fmax f0 (fsub x (now h)))) (f_of_Z (Z.of_nat p))),
      fsc (fdiv (fadd (fmul l (f_of_Z (Z.of_nat p - 1))) (fneg (fmin f0 (fsub x (now h))))) (f_of_Z (Z.of_nat p)))).
Proof.
  intros Hp. unfold compute_default_gain_loss. rewrite (sbuf_index' p h 0 0) by lia. reflexivity.
Qed.
Definition rsi_of (g l : F) : F :=
  fsub (f_of_Z 100) (fdiv (f_of_Z 100) (fadd (f_of_Z 1) (fdiv g l))).
Lemma with_rsi_ok g l : with_rsi (Ok (fsc g, fsc l)) = Ok (Tup [Leaf (fsc g); Leaf (fsc l); Leaf (fsc (rsi_of g l))]).
Proof. reflexivity. Qed.
Lemma cnt_eq {X} (x : X) h p : short (x :: h) -> int_op tequal (cnt h) (Z.of_nat p) = Ok (bsc (length h =? p)).
Proof. intros H. rewrite (cnt_small x h H), int_op_i. unfold tequal. rewrite tcmp_ii, eqb_nat. reflexivity. Qed.
Definition rsi_st (p : nat) : pyval (list F -> tensor) :=
  Tup [Leaf cnt; Leaf (sbuf p); Leaf (fun h => fsc (average_gain p h)); Leaf (fun h => fsc (average_loss p h))].
Lemma average_next p seed new x y r : let h := y :: r in
  wilder p seed new (changes (x :: h)) =
  if length h <? p then f0 else if length h =? p then seed (changes (x :: h))
  else fdiv (fadd (fmul (wilder p seed new (changes h)) (f_of_Z (Z.of_nat p - 1))) (new (fsub x y))) (f_of_Z (Z.of_nat p)).
Proof.
  intros h. rewrite <- (changes_length x h). change (changes (x :: h)) with (fsub x y :: changes h). reflexivity.
Qed.
Lemma average_first p seed new x : p >= 1 -> wilder p seed new (changes [x]) = f0.
Proof. reflexivity. Qed.
Lemma lag_sbuf p : p >= 1 -> implements (Lag (Z.of_nat p)) (fun _ => True) (Leaf fsc)
  (Leaf (fun h => fsc (ago p h))) (Leaf (sbuf p)).
Proof.
  intros Hp. apply implements_intro; auto.
  - apply (typed_fsc _ (fun x => x)).
  - apply typed_fsc.
  - apply typed_sbuf.
  - intros x h _. cbn [forward_step Lag at_ vmap app]. unfold lag_step. args.
    assert (E : index0 (sbuf p h) (-1) = Ok (fsc (ago (p - 1) h))).
    { rewrite <- (sbuf_index p h (p - 1)) by lia. unfold index0, sbuf. cbn [sh dat].
      destruct (Z.ltb_spec (-1) 0); [|lia]. destruct (Z.ltb_spec (Z.of_nat (p - 1)) 0); [lia|].
      replace (-1 + Z.of_nat p)%Z with (Z.of_nat (p - 1)) by lia. reflexivity. }
    rewrite E. cbn [bind]. rewrite sbuf_roll by assumption. cbn [bind].
    replace (ago p (x :: h)) with (ago (p - 1) h); [reflexivity|].
    unfold ago. destruct p; [lia|]. cbn. now rewrite Nat.sub_0_r.
  - intros x _. cbn [forward_step Lag at_ vmap app]. unfold lag_step. args. now rewrite sbuf_zeros.
Qed.
Lemma rsi_implements p : p >= 1 ->
  implements (RelativeStrengthIndex (Z.of_nat p)) short (Leaf fsc) (Leaf (fun h => fsc (rsi p h))) (rsi_st p).
Proof.
  intros Hp. apply implements_intro.
  - apply short_nil.
  - apply short_tl.
  - apply (typed_fsc _ (fun x => x)).
  - apply typed_fsc.
  - ttup; [apply typed_cnt|apply typed_sbuf|apply typed_fsc..].
  - intros x h H. cbn [forward_step RelativeStrengthIndex at_ vmap rsi_st map app]. unfold rsi_step. args.
    change (Leaf (fsc x)) with (at_ (Leaf fsc) x). change (Leaf (sbuf p h)) with (at_ (Leaf (sbuf p)) h).
    rewrite (im_call _ _ _ _ _ _ _ (lag_sbuf p Hp)) by exact I. cbn [bind as_t at_ vmap].
    rewrite (cnt_eq x) by assumption. cbn [bind]. rewrite (cnt_lt x) by assumption. cbn [bind].
    unfold sbuf at 1. rewrite first_gain_loss by apply window_length. rewrite default_gain_loss by assumption.
    rewrite !with_rsi_ok.
    match goal with |- context [tf_case [(bsc ?b1, Ok ?v1); (bsc ?b2, Ok ?v2)] (Ok ?d) true] =>
      replace (tf_case [(bsc b1, Ok v1); (bsc b2, Ok v2)] (Ok d) true) with (@Ok val (pick [(b1, v1); (b2, v2)] d));
      [|symmetry; apply (tf_case_pick [(b1, v1); (b2, v2)] d true)] end.
    2: {
apply solid_pair. repeat constructor. }
    2: { repeat constructor. }
    2: { cbn [map fst filter andb]. destruct (Nat.eqb_spec (length h) p), (Nat.ltb_spec (length h) p); try lia; reflexivity. }
    cbn [bind pick]. rewrite (cnt_next x).
    assert (EG : forall seed new, (length h = p -> seed (changes (x :: window p f0 h)) = seed (changes (x :: h))) ->
      wilder p seed new (changes (x :: h)) = if length h =? p then seed (changes (x :: window p f0 h)) else
      if length h <? p then f0 else
      fdiv (fadd (fmul (wilder p seed new (changes h)) (f_of_Z (Z.of_nat p - 1))) (new (fsub x (now h)))) (f_of_Z (Z.of_nat p))).
    { intros seed new Hs. destruct h as [|y r].
      - cbn [length]. destruct (Nat.eqb_spec 0 p); [lia|]. destruct (Nat.ltb_spec 0 p); [reflexivity|lia].
      - rewrite average_next. destruct (Nat.ltb_spec (length (y :: r)) p), (Nat.eqb_spec (length (y :: r)) p); try lia; auto.
        now rewrite Hs. }
    assert (EW : length h = p -> window p f0 h = h) by (intros EL; rewrite window_full by lia; apply firstn_all2; lia).
    unfold rsi, average_gain, average_loss. rewrite !EG by (intros EL; now rewrite EW). cbn [length].
    destruct (Nat.eqb_spec (length h) p), (Nat.ltb_spec (length h) p), (Nat.leb_spec (S (length h)) p); try lia; reflexivity.
  - intros x H. cbn [forward_step RelativeStrengthIndex at_ vmap rsi_st map app]. unfold rsi_step. args.
    change (Leaf (fsc x)) with (at_ (Leaf fsc) x). change (Leaf (sbuf p [])) with (at_ (Leaf (sbuf p)) []).
    rewrite (im_call0 _ _ _ _ _ _ (lag_sbuf p Hp)) by exact I.
    rewrite (im_call _ _ _ _ _ _ _ (lag_sbuf p Hp)) by exact I. reflexivity.
Qed.
Theorem rsi_streams p : p >= 1 ->
  streams (RelativeStrengthIndex (Z.of_nat p)) short scalars (fun hs => scalars (map (rsi p) hs)).
Proof. intros Hp. eapply scalars_streams, rsi_implements; assumption. Qed.

(** ** Series of candles *)
Definition bars (l : list candle) : val :=
  Tup [scalars (map c_close l); scalars (map c_low l); scalars (map c_high l)].
Definition candles (l : list candle) : val :=
  Tup [scalars (map c_open l); scalars (map c_high l); scalars (map c_low l); scalars (map c_close l)].
Definition bar_in : pyval (candle -> tensor) :=
  Tup [Leaf (fun x => fsc (c_close x)); Leaf (fun x => fsc (c_low x)); Leaf (fun x => fsc (c_high x))].
Definition candle_in {X} (f : X -> candle) : pyval (X -> tensor) :=
  Tup [Leaf (fun x => fsc (c_open (f x))); Leaf (fun x => fsc (c_high (f x)));
       Leaf (fun x => fsc (c_low (f x))); Leaf (fun x => fsc (c_close (f x)))].
Lemma stack_bars xs : xs <> [] -> stacked bar_in xs = bars xs.
Proof. intros NE. cbn [stacked bar_in vmap map]. now rewrite !stack_fsc'. Qed.
Lemma stack_candles {X} (f : X -> candle) xs : xs <> [] -> stacked (candle_in f) xs = candles (map f xs).
Proof. intros NE. cbn [stacked candle_in vmap map]. unfold candles. rewrite !stack_fsc', !map_map by assumption. reflexivity. Qed.
Lemma bars_streams op (P : list candle -> Prop) f ES :
  implements op P bar_in (Leaf (fun h => fsc (f h))) ES ->
  streams op P bars (fun hs => scalars (map f hs)).
Proof.
  intros IM. eapply streams_of; [exact IM|discriminate|apply stack_bars|].
  intros hs NE. cbn [stacked vmap]. now rewrite stack_fsc'.
Qed.

(** ** AverageTrueRange *)
Lemma true_range_ok c prev : true_range (fsc (c_low c)) (fsc (c_high c)) (fsc prev) = Ok (fsc (range prev c)).
Proof.
  unfold true_range, tsub, tabs. ev. unfold tequal. ev. reflexivity.
Qed.
Lemma ranges_length h : length (ranges h) = length h.
Proof. induction h; [reflexivity|]. cbn. now rewrite IHh. Qed.
Lemma short_ranges h : short h -> short (ranges h).
Proof. intros H. eapply short_le; [exact H|]. now rewrite ranges_length. Qed.
Definition rma_sc (p : nat) : pyval (list F -> tensor) := on_sing (seeded_st p [] (rma p)).
Lemma rma_scalar p : p >= 1 ->
  implements (RollingMovingAverage (Z.of_nat p)) short (Leaf fsc) (Leaf (fun h => fsc (rma p h))) (rma_sc p).
Proof. intros Hp. apply implements_scalar, rma_implements, Hp. Qed.
Definition atr_st (p : nat) : pyval (list candle -> tensor) :=
  Tup [Leaf (fun h => fsc (last_close h)); vmap (fun g h => g (ranges h)) (rma_sc p)].
Lemma at_atr_st p h : at_ (atr_st p) h = Tup [Leaf (fsc (last_close h)); at_ (rma_sc p) (ranges h)].
Proof. rewrite <- (at_vmap ranges (rma_sc p) h). reflexivity. Qed.
Lemma atr_implements p : p >= 1 ->
  implements (AverageTrueRange (Z.of_nat p)) short bar_in (Leaf (fun h => fsc (atr p h))) (atr_st p).
Proof.
  intros Hp. assert (IM := rma_scalar p Hp). apply implements_intro.
  - apply short_nil.
  - apply short_tl.
  - ttup; apply typed_fsc.
  - apply typed_fsc.
  - ttup; [apply typed_fsc|]. eapply (typed_pull ranges); [apply IM|]. exact short_ranges.
  - intros x h H. rewrite !at_atr_st. cbn [forward_step AverageTrueRange].
    set (AT := at_ (rma_sc p)). cbn [at_ vmap bar_in map app]. subst AT. unfold atr_step. args.
    rewrite true_range_ok. cbn [bind].
    change (Leaf (fsc (range (last_close h) x))) with (at_ (Leaf fsc) (range (last_close h) x)).
    rewrite (im_call _ _ _ _ _ _ _ IM) by (apply (short_ranges (x :: h)), H). reflexivity.
  - intros x H. rewrite !at_atr_st. cbn [forward_step AverageTrueRange].
    set (AT := at_ (rma_sc p)). cbn [at_ vmap bar_in map app]. subst AT. unfold atr_step. args.
    rewrite zeros_like_f. change (last_close []) with f0. rewrite true_range_ok. cbn [bind].
    change (Leaf (fsc (range f0 x))) with (at_ (Leaf fsc) (range f0 x)).
    rewrite (im_call0 _ _ _ _ _ _ IM) by (apply (short_ranges [x]), H).
    rewrite (im_call _ _ _ _ _ _ _ IM) by (apply (short_ranges [x]), H). reflexivity.
Qed.
Theorem atr_streams p : p >= 1 ->
  streams (AverageTrueRange (Z.of_nat p)) short bars (fun hs => scalars (map (atr p) hs)).
Proof. intros Hp. eapply bars_streams, atr_implements; assumption. Qed.

(** ** HeikinAshi *)
Lemma ha_implements :
  implements HeikinAshi (fun _ => True) (candle_in (fun c => c)) (candle_in heikin_ashi)
    (Tup [Leaf (fun h => fsc (last_open h)); Leaf (fun h => fsc (last_close h))]).
Proof.
  apply implements_intro; auto.
  - ttup; apply typed_fsc.
  - ttup; apply typed_fsc.
  - ttup; apply typed_fsc.
  - intros x h _. cbn [forward_step HeikinAshi at_ vmap candle_in map app]. unfold heikin_ashi_step. args.
    rewrite int_op_f. unfold tequal. rewrite tcmp_ff. cbn [bind].
    match goal with |- context [tcond _ (Ok (fsc (c_close x))) ?e] =>
      replace e with (Ok (fsc (fdiv (fsum [c_close x; c_low x; c_high x; c_open x]) (f_of_Z 4)))) by reflexivity end.
    rewrite tcond_f. cbn [bind].
    match goal with |- context [tcond _ (Ok (fsc (c_open x))) ?e] =>
      replace e with (Ok (fsc (fdiv (fadd (last_open h) (last_close h)) (f_of_Z 2)))) by reflexivity end.
    rewrite tcond_f. cbn [bind].
    match goal with |- context [tstack [fsc (c_low x); fsc ?c; fsc ?o]] => set (cl := c); set (op := o) end.
    change (let* st := tstack [fsc (c_low x); fsc cl; fsc op] in treduce_all frmin st) with (Ok (fsc (frmin [c_low x; cl; op]))).
    rewrite tcond_f. cbn [bind].
    change (let* st := tstack [fsc (c_high x); fsc cl; fsc op] in treduce_all frmax st) with (Ok (fsc (frmax [c_high x; cl; op]))).
    rewrite tcond_f. cbn [bind]. unfold cl, op, heikin_ashi. fold f0. destruct (feq (last_open h) f0); reflexivity.
Qed.
Theorem ha_streams :
  streams HeikinAshi (fun _ => True) candles (fun hs => candles (map heikin_ashi hs)).
Proof.
  eapply streams_of; [apply ha_implements|discriminate|..].
  - intros xs NE. rewrite stack_candles by assumption. now rewrite map_id.
  - intros hs NE. now apply stack_candles.
Qed.

(** ** Drawdown *)
Lemma under_water_bounds h : (0 <= under_water h <= Z.of_nat (length h))%Z.
Proof.
  induction h as [|x h IH]; [cbn; lia|]. cbn [under_water length].
  destruct (flt tolerance (fabs (fsub (peak (x :: h)) (peak h)))); lia.
Qed.
Definition below31 {X} (h : list X) : Prop := (Z.of_nat (length h) < 2147483648)%Z.
Lemma drawdown_implements :
  implements Drawdown below31 (Leaf fsc)
    (Tup [Leaf (fun h => fsc (drawdown h)); Leaf (fun h => isc (under_water h))])
    (Tup [Leaf (fun h => fsc (peak h)); Leaf (fun h => isc (under_water h))]).
Proof.
  apply implements_intro.
  - unfold below31. cbn. lia.
  - intros x h. unfold below31. cbn [length]. lia.
  - apply (typed_fsc _ (fun x => x)).
  - ttup; [apply typed_fsc|apply typed_isc].
  - ttup; [apply typed_fsc|apply typed_isc].
  - intros x h H. cbn [forward_step Drawdown at_ vmap map app]. unfold drawdown_step. args.
    unfold tmaximum, tsub, tabs. ev. cbn [pyfloat_like dat fsc bind]. unfold tgreater, tless. fold (fsc (peak h)). fold (fsc x). ev.
    assert (EI : tadd (isc (under_water h)) (isc 1) = Ok (isc (under_water h + 1))).
    { unfold tadd. rewrite tbin_ii. unfold iadd. rewrite wrap32_small; [reflexivity|].
      pose proof (under_water_bounds h). unfold below31 in H. cbn [length] in H. lia. }
    rewrite EI. ev. 
    match goal with |- context [tcond _ (Ok (fsc f0)) ?e] =>
      replace e with (Ok (fsc (fmin f0 (fsub (fdiv x (peak h)) f1)))) by reflexivity end.
    rewrite tcond_f. reflexivity.
  - reflexivity.
Qed.
Definition drawdowns (l : list (F * Z)) : val := Tup [scalars (map fst l); ints (map snd l)].
Lemma stack_isc' {X} (f : X -> Z) xs : xs <> [] -> Leaf (stackT (map (fun x => isc (f x)) xs)) = ints (map f xs).
Proof.
  intros NE. unfold ints. f_equal. rewrite <- (map_map f isc). apply stack_isc. destruct xs; [easy|discriminate].
Qed.
Theorem drawdown_streams :
  streams Drawdown below31 scalars (fun hs => drawdowns (map (fun h => (drawdown h, under_water h)) hs)).
Proof.
  eapply streams_of; [apply drawdown_implements|discriminate|..].
  - intros xs NE. cbn [stacked vmap]. now rewrite stack_fsc.
  - intros hs NE. cbn [stacked vmap map]. unfold drawdowns. now rewrite stack_fsc', stack_isc', !map_map.
Qed.

(** ** Supertrend *)
Definition super_st (p : nat) (k : F) : pyval (list candle -> tensor) :=
  Tup [atr_st p; Leaf (fun h => fsc (last_close h)); Leaf (fun h => fsc (t_down (supertrend p k h)));
       Leaf (fun h => fsc (t_up (supertrend p k h))); Leaf (fun h => isc (t_dir (supertrend p k h)))].
Lemma at_super_st p k h : at_ (super_st p k) h =
  Tup [at_ (atr_st p) h; Leaf (fsc (last_close h)); Leaf (fsc (t_down (supertrend p k h)));
       Leaf (fsc (t_up (supertrend p k h))); Leaf (isc (t_dir (supertrend p k h)))].
Proof. reflexivity. Qed.
Definition trend_val (t : trend) : val :=
  Tup [Leaf (fsc (t_down t)); Leaf (fsc (t_up t)); Leaf (isc (t_dir t)); Leaf (fsc (t_line t))].
Definition crossing_lines (c : candle) (s : trend) : bool := flt (t_down s) (c_close c) && flt (c_close c) (t_up s).
Lemma supertrend_default_ok factor c prev s a :
  supertrend_default factor (fsc (c_close c)) (fsc (c_low c)) (fsc (c_high c)) (fsc prev)
    (fsc (t_down s)) (fsc (t_up s)) (isc (t_dir s)) (fsc a) =
  if crossing_lines c s then Err EAssert else Ok (trend_val (next_trend (num factor) a c prev s)).
Proof.
  unfold supertrend_default. unfold tadd, tsub, tmul, tdiv, tgreater, tless, tmaximum, tminimum. ev.
  change (pyfloat_like (fsc (fadd (c_high c) (c_low c))) (f_of_Z 2)) with (Ok (fsc (f_of_Z 2))). ev.
  replace (pynum_like (fsc a) factor) with (Ok (fsc (num factor))) by (symmetry; exact (pynum_like_F [] [a] factor)). cbn [bind].
  ev. unfold tequal at 1. ev.
  rewrite tf_cond_pick'; [|apply solid_leaf..|reflexivity].
  unfold crossing_lines, fgt.
  destruct (flt (t_down s) (c_close c)) eqn:E1, (flt (c_close c) (t_up s)) eqn:E2; cbn [andb].
  - reflexivity.
  - replace (if (t_dir s =? 0)%Z then Leaf (isc 1) else Leaf (isc (t_dir s))) with (Leaf (isc (if (t_dir s =? 0)%Z then 1 else t_dir s)))
      by now destruct (t_dir s =? 0)%Z.
    unfold next_trend. rewrite E1. cbn. unfold trend_val. cbn. reflexivity.
  - replace (if (t_dir s =? 0)%Z then Leaf (isc 1) else Leaf (isc (t_dir s))) with (Leaf (isc (if (t_dir s =? 0)%Z then 1 else t_dir s)))
      by now destruct (t_dir s =? 0)%Z.
    unfold next_trend. rewrite E1, E2. cbn. reflexivity.
  - replace (if (t_dir s =? 0)%Z then Leaf (isc 1) else Leaf (isc (t_dir s))) with (Leaf (isc (if (t_dir s =? 0)%Z then 1 else t_dir s)))
      by now destruct (t_dir s =? 0)%Z.
    unfold next_trend. rewrite E1, E2. set (d := if (t_dir s =? 0)%Z then 1%Z else t_dir s).
    cbn. destruct (d =? 1)%Z; reflexivity.
Qed.

Definition calm_short (p : nat) (k : F) (h : list candle) : Prop := short h /\ calm p k h.
Lemma super_step p factor x h (st : option val) : p >= 1 -> short (x :: h) ->
  st = Some (at_ (super_st p (num factor)) h) \/ st = None /\ h = [] ->
  forward_step (Supertrend (Z.of_nat p) factor) (at_ bar_in x) st =
  if conflict p (num factor) (x :: h) then Err EAssert
  else Ok (Leaf (fsc (t_line (supertrend p (num factor) (x :: h)))),
           at_ (super_st p (num factor)) (x :: h), at_ (super_st p (num factor)) h).
Proof.
  intros Hp H Hst. rewrite !at_super_st.
  assert (E : forall atr_state, call (AverageTrueRange (Z.of_nat p)) (at_ bar_in x) atr_state false =
      Ok (at_ (Leaf (fun h => fsc (atr p h))) (x :: h), at_ (atr_st p) (x :: h), at_ (atr_st p) h) ->
    (let* (atr, next_atr_state, atr_init) := call (AverageTrueRange (Z.of_nat p)) (at_ bar_in x) atr_state false in
    let* atr := as_t atr in
    let* c := int_op tequal atr 0 in
    let* r := tf_cond c (Ok supertrend_warmup)
      (supertrend_default factor (fsc (c_close x)) (fsc (c_low x)) (fsc (c_high x)) (fsc (last_close h))
        (fsc (t_down (supertrend p (num factor) h))) (fsc (t_up (supertrend p (num factor) h)))
        (isc (t_dir (supertrend p (num factor) h))) atr) in
    let* trend_down := item r 0 in
    let* trend_up := item r 1 in
    let* trend := item r 2 in
    let* supertrend0 := item r 3 in
    Ok (supertrend0,
      Tup [next_atr_state; Leaf (fsc (c_close x)); trend_down; trend_up; trend],
      Tup [atr_init; Leaf (fsc (last_close h)); Leaf (fsc (t_down (supertrend p (num factor) h))); Leaf (fsc (t_up (supertrend p (num factor) h)));
           Leaf (isc (t_dir (supertrend p (num factor) h)))])) =
    if conflict p (num factor) (x :: h) then Err EAssert
    else Ok (Leaf (fsc (t_line (supertrend p (num factor) (x :: h)))),
             at_ (super_st p (num factor)) (x :: h), at_ (super_st p (num factor)) h)).
  { intros ast ->. cbn [bind at_ vmap as_t]. fold (at_ (atr_st p) h). fold (at_ (atr_st p) (x :: h)). rewrite !at_super_st.
    ev. unfold tequal. ev. fold f0.
    rewrite supertrend_default_ok. unfold conflict, crossing_lines. cbn [supertrend].
    change (last_close (x :: h)) with (c_close x).
    set (s := supertrend p (num factor) h). set (a := atr p (x :: h)). clearbody s.
    destruct (flt (t_down s) (c_close x) && flt (c_close x) (t_up s)) eqn:E.
    - rewrite <- andb_assoc, E. destruct (feq a f0); reflexivity.
    - rewrite <- andb_assoc, E, andb_false_r.
      match goal with |- context [tf_cond ?c (Ok ?u) (Ok ?v)] =>
        replace (tf_cond c (Ok u) (Ok v)) with (@Ok val (if feq a f0 then u else v));
        [|symmetry; apply (tf_cond_pick (feq a f0) u v)] end.
      + destruct (feq a f0); reflexivity.
      + apply solid_pair. repeat constructor.
      + apply solid_pair. repeat constructor.
      + reflexivity. }
  destruct Hst as [->|[-> ->]].
  - cbn [forward_step Supertrend]. change (at_ bar_in x) with (Tup [Leaf (fsc (c_close x)); Leaf (fsc (c_low x)); Leaf (fsc (c_high x))]) at 1.
    set (AT := at_ (atr_st p)). cbn [at_ vmap map app]. unfold supertrend_step. args. subst AT.
    change (Tup [Leaf (fsc (c_close x)); Leaf (fsc (c_low x)); Leaf (fsc (c_high x))]) with (at_ bar_in x).
    rewrite <- !at_super_st. apply E. apply (im_call _ _ _ _ _ _ _ (atr_implements p Hp)), H.
  - cbn [forward_step Supertrend]. change (at_ bar_in x) with (Tup [Leaf (fsc (c_close x)); Leaf (fsc (c_low x)); Leaf (fsc (c_high x))]) at 1.
    unfold supertrend_step. cbn [app]. args.
    change (Tup [Leaf (fsc (c_close x)); Leaf (fsc (c_low x)); Leaf (fsc (c_high x))]) with (at_ bar_in x).
    rewrite <- !at_super_st. apply E. apply (im_call0 _ _ _ _ _ _ (atr_implements p Hp)), H.
Qed.
Lemma super_implements p factor : p >= 1 ->
  implements (Supertrend (Z.of_nat p) factor) (calm_short p (num factor)) bar_in
    (Leaf (fun h => fsc (t_line (supertrend p (num factor) h)))) (super_st p (num factor)).
Proof.
  intros Hp. split.
  - split; [apply short_nil|exact I].
  - intros x h [H1 [_ H2]]. split; [now apply short_tl in H1|exact H2].
  - ttup; apply typed_fsc.
  - apply typed_fsc.
  - ttup; [|apply typed_fsc..|apply typed_isc].
    eapply typed_weaken; [apply (im_st _ _ _ _ _ (atr_implements p Hp))|]. now intros h [].
  - intros x h [H1 [H2 _]]. rewrite (super_step p factor x h) by auto. rewrite H2. reflexivity.
  - intros x [H1 [H2 _]]. rewrite (super_step p factor x []) by auto. rewrite H2. reflexivity.
Qed.
Theorem super_streams p factor : p >= 1 ->
  streams (Supertrend (Z.of_nat p) factor) (calm_short p (num factor)) bars
    (fun hs => scalars (map (fun h => t_line (supertrend p (num factor) h)) hs)).
Proof. intros Hp. eapply bars_streams, super_implements; assumption. Qed.

(** An operator that describes the histories on which it does not fail. *)
Section Blocked.
Context {X : Type} (op : operator) (P Q : list X -> Prop) (EI : pyval (X -> tensor)) (EO ES : pyval (list X -> tensor)).
Hypothesis IM : implements op P EI EO ES.
Hypothesis Qtl : forall x h, Q (x :: h) -> Q h.
Hypothesis TQ : typed (fun x => exists h, Q (x :: h)) EI.
Hypothesis NL : leaves EI <> [].
Hypothesis GO : genuine_op op.
Hypothesis blocked : forall x h, P h -> Q (x :: h) ->
  P (x :: h) \/ exists e, forward_step op (at_ EI x) (Some (at_ ES h)) = Err e.
Hypothesis blocked0 : forall x, Q [x] -> P [x] \/ exists e, forward_step op (at_ EI x) None = Err e.
Lemma q_suffix xs h : Q (xs ++ h) -> Q h.
Proof. induction xs as [|x xs IH]; [auto|]. intros H. apply IH. eapply Qtl. exact H. Qed.
Lemma q_in xs h x : Q (rev xs ++ h) -> In x xs -> exists h', Q (x :: h').
Proof.
  revert h. induction xs as [|y xs IH]; intros h H Hx; [easy|].
  simpl in H. rewrite <- app_assoc in H. simpl in H. destruct Hx as [<-|Hx].
  - exists h. eapply q_suffix; exact H.
  - eapply IH; eauto.
Qed.
Lemma steps_blocked xs : forall h r, P h -> Q (rev xs ++ h) ->
  steps op (at_ ES h) (map (at_ EI) xs) = Ok r -> P (rev xs ++ h).
Proof.
  induction xs as [|x xs IH]; intros h r Ph HQ H; [exact Ph|].
  cbn [map steps] in H. cbn [rev] in *. rewrite <- app_assoc in *. cbn [app] in *.
  assert (Q (x :: h)) by (eapply q_suffix; exact HQ).
  assert (Px : P (x :: h)).
  { destruct (blocked x h Ph) as [|(e & E)]; auto. exfalso.
    rewrite call_false_g in H.
    - rewrite E in H. discriminate.
    - apply (typed_genuine (fun x => exists h, Q (x :: h))); eauto.
    - apply (typed_genuine P); [apply (im_st _ _ _ _ _ IM)|exact Ph]. }
  rewrite (im_call _ _ _ _ _ _ _ IM) in H by exact Px. cbn [bind] in H.
  apply bind_ok in H as ([os sf] & H & _). eapply IH; eauto.
Qed.
Theorem stream_blocked h xs st r : P h -> Q (rev xs ++ h) -> xs <> [] ->
  st = Some (at_ ES h) \/ st = None /\ h = [] ->
  call op (stacked EI xs) st true = Ok r -> P (rev xs ++ h).
Proof.
  intros Ph HQ NE Hst H. destruct r as [[o sf] s0].
  assert (HX : Forall (fun x => exists h, Q (x :: h)) xs) by (apply Forall_forall; intros x Hx; eapply q_in; eauto).
  destruct (stacked_series _ EI xs TQ NE HX NL) as (G & S & R).
  assert (Gs : genuine_opt st).
  { destruct Hst as [->|[-> _]]; [|exact I]. apply (typed_genuine P); [apply (im_st _ _ _ _ _ IM)|exact Ph]. }
  apply (streaming_sound op _ st o sf s0 G Gs GO) in H as (n & os & _ & S' & St & Hs & _).
  rewrite <- (series_unique _ _ _ S S') in Hs. rewrite R in Hs.
  assert (s0 = at_ ES h) as ->.
  { destruct Hst as [->|[-> ->]]; [exact St|]. destruct St as (o' & s' & St).
    destruct xs as [|x xs]; [easy|]. unfold rows in R. cbn [length seq map] in R. injection R as R _. rewrite R in St.
    assert (Q [x]).
    { cbn [rev] in HQ. rewrite app_nil_r in HQ. eapply q_suffix; exact HQ. }
    rewrite call_false_g in St; [|apply (typed_genuine (fun x => exists h, Q (x :: h))); eauto|exact I].
    destruct (blocked0 x) as [Px|(e & E)]; auto; [|rewrite E in St; discriminate].
    rewrite (im_init _ _ _ _ _ IM) in St by exact Px. now injection St as _ _ <-. }
  eapply steps_blocked; eauto.
Qed.
End Blocked.
(** Streaming Supertrend succeeds only on conflict-free series. *)
Lemma calm_dec p k x h : calm p k h -> calm p k (x :: h) \/ conflict p k (x :: h) = true.
Proof. intros H. destruct (conflict p k (x :: h)) eqn:E; [auto|]. left. split; auto. Qed.
Theorem super_calm p factor xs r : p >= 1 -> short (rev xs) -> genuine_op (Supertrend (Z.of_nat p) factor) -> xs <> [] ->
  call (Supertrend (Z.of_nat p) factor) (bars xs) None true = Ok r -> calm p (num factor) (rev xs).
Proof.
  intros Hp Hs G NE H. rewrite <- stack_bars in H by assumption.
  apply (stream_blocked _ (calm_short p (num factor)) short bar_in _ (super_st p (num factor)) (super_implements p factor Hp)
    (@short_tl _)) with (h := []) in H.
  - rewrite app_nil_r in H. apply H.
  - ttup; apply typed_fsc.
  - discriminate.
  - exact G.
  - intros x h [_ H1] H2. destruct (calm_dec p (num factor) x h H1) as [C|C]; [left; now split|].
    right. exists EAssert. rewrite (super_step p factor x h) by auto. now rewrite C.
  - intros x H2. destruct (calm_dec p (num factor) x [] I) as [C|C]; [left; now split|].
    right. exists EAssert. rewrite (super_step p factor x []) by auto. now rewrite C.
  - split; [apply short_nil|exact I].
  - now rewrite app_nil_r.
  - exact NE.
  - auto.
Qed.
End ImplMarket.
