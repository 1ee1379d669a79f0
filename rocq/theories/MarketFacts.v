(** * MarketFacts: RSI, ATR, Supertrend, Heikin-Ashi and drawdown, position by position. *)
From Coq Require Import Lia List ZArith Bool.
From Verif Require Import Num Py Tensor Streamable Common Finance Series Formulas Positions EvalFacts
  ImplBasic ImplComp ImplMarket Genuine MovingFacts ReturnFacts SignalFacts StatFacts.
Import ListNotations.

Section Market.
Context {N : FOps}.
(** ** Relative strength index *)
Lemma changes_cons x y h : changes (x :: y :: h) = fsub x y :: changes (y :: h).
Proof. reflexivity. Qed.
Lemma changes_upto_S n xs : S n < length xs -> changes (upto (S n) xs) = fsub (nth (S n) xs f0) (nth n xs f0) :: changes (upto n xs).
Proof.
  intros H. rewrite (upto_S n xs f0 H). destruct n as [|n].
  - rewrite (upto_0 xs f0) by lia. reflexivity.
  - rewrite (upto_S n xs f0) by lia. reflexivity.
Qed.
Lemma changes_upto n xs : n < length xs ->
  changes (upto n xs) = map (fun i => fsub (nth (n - i) xs f0) (nth (n - i - 1) xs f0)) (seq 0 n).
Proof.
  induction n as [|n IH]; intros H; [rewrite (upto_0 xs f0) by lia; reflexivity|].
  rewrite changes_upto_S, IH by lia. cbn [seq map]. replace (S n - 0 - 1) with n by lia. rewrite Nat.sub_0_r. f_equal.
  rewrite <- (seq_shift n 0), map_map. reflexivity.
Qed.
Lemma changes_upto_length n xs : n < length xs -> length (changes (upto n xs)) = n.
Proof. intros H. now rewrite changes_upto, map_length, seq_length. Qed.
Lemma wilder_S p seed new n xs : p >= 1 -> p < n -> n < length xs ->
  wilder p seed new (changes (upto n xs)) =
  fdiv (fadd (fmul (wilder p seed new (changes (upto (n - 1) xs))) (f_of_Z (Z.of_nat p - 1))) (new (fsub (nth n xs f0) (nth (n - 1) xs f0))))
       (f_of_Z (Z.of_nat p)).
Proof.
  intros Hp H1 H2. destruct n as [|n]; [lia|]. replace (S n - 1) with n by lia. rewrite changes_upto_S by exact H2. cbn [wilder].
  cbn [length]. rewrite changes_upto_length by lia. destruct (Nat.ltb_spec (S n) p); [lia|]. destruct (Nat.eqb_spec (S n) p); [lia|]. reflexivity.
Qed.
Lemma wilder_seed p seed new xs : p >= 1 -> p < length xs ->
  wilder p seed new (changes (upto p xs)) = seed (changes (upto p xs)).
Proof.
  intros Hp H. assert (L := changes_upto_length p xs H). destruct (changes (upto p xs)) as [|c r] eqn:E; [cbn in L; lia|].
  cbn [wilder]. rewrite L, Nat.ltb_irrefl, Nat.eqb_refl. reflexivity.
Qed.
Lemma rsi_positions p xs : p >= 1 -> xs <> [] -> short (rev xs) ->
  exists out gain loss sf s0, call (RelativeStrengthIndex (Z.of_nat p)) (scalars xs) None true = Ok (scalars out, sf, s0) /\
    length out = length xs /\
    (forall n, n < length xs -> nth n out f0 = if n <? p then f0
       else fsub (f_of_Z 100) (fdiv (f_of_Z 100) (fadd (f_of_Z 1) (fdiv (gain n) (loss n))))) /\
    let d i := fsub (nth i xs f0) (nth (i - 1) xs f0) in
    (p < length xs ->
       gain p = fmean (map (fun i => if flt f0 (d (p - i)) then d (p - i) else f0) (seq 0 p)) /\
       loss p = fneg (fmean (map (fun i => if flt (d (p - i)) f0 then d (p - i) else f0) (seq 0 p)))) /\
    (forall n, p < n -> n < length xs ->
       gain n = fdiv (fadd (fmul (gain (n - 1)) (f_of_Z (Z.of_nat p - 1))) (fmax f0 (d n))) (f_of_Z (Z.of_nat p)) /\
       loss n = fdiv (fadd (fmul (loss (n - 1)) (f_of_Z (Z.of_nat p - 1))) (fneg (fmin f0 (d n)))) (f_of_Z (Z.of_nat p))).
Proof.
  intros Hp NE OK. destruct (scalar_positions _ _ _ _ (rsi_streams p Hp) xs NE OK) as (out & sf & s0 & E & L & H).
  exists out, (fun n => average_gain p (upto n xs)), (fun n => average_loss p (upto n xs)), sf, s0.
  split; [exact E|]. split; [exact L|]. split; [|intros d; split].
  - intros n Hn. rewrite H by exact Hn. unfold rsi. rewrite upto_length by exact Hn. unfold Nat.ltb. reflexivity.
  - intros Hl. unfold average_gain, average_loss. rewrite !wilder_seed by assumption. rewrite changes_upto by assumption. rewrite !map_map. split; reflexivity.
  - intros n H1 H2. unfold average_gain, average_loss. split; apply wilder_S; assumption.
Qed.

(** ** Average true range *)
Definition no_candle : candle := Candle f0 f0 f0 f0.
Definition true_range (xs : list candle) (n : nat) : F :=
  let c := nth n xs no_candle in
  let prev := if n =? 0 then f0 else c_close (nth (n - 1) xs no_candle) in
  frmax [fsub (c_high c) (c_low c);
         if feq prev f0 then f0 else fabs (fsub (c_high c) prev);
         if feq prev f0 then f0 else fabs (fsub (c_low c) prev)].
Lemma last_close_upto n xs : n < length xs -> last_close (upto n xs) = c_close (nth n xs no_candle).
Proof.
  intros H. destruct n as [|n]; [now rewrite (upto_0 xs no_candle)|]. now rewrite (upto_S n xs no_candle).
Qed.
Lemma last_open_upto n xs : n < length xs -> last_open (upto n xs) = c_open (nth n xs no_candle).
Proof.
  intros H. destruct n as [|n]; [now rewrite (upto_0 xs no_candle)|]. now rewrite (upto_S n xs no_candle).
Qed.
Lemma ranges_upto n xs : n < length xs -> ranges (upto n xs) = upto n (map (true_range xs) (seq 0 (length xs))).
Proof.
  assert (NT : forall i, i < length xs -> nth i (map (true_range xs) (seq 0 (length xs))) f0 = true_range xs i).
  { intros i Hi. rewrite (nth_indep _ f0 (true_range xs 0)) by (rewrite map_length, seq_length; exact Hi).
    now rewrite map_nth, seq_nth. }
  induction n as [|n IH]; intros H.
  - rewrite (upto_0 xs no_candle) by lia. rewrite (upto_0 _ f0) by (rewrite map_length, seq_length; lia). rewrite NT by lia. reflexivity.
  - rewrite (upto_S n xs no_candle) by lia. rewrite (upto_S n _ f0) by (rewrite map_length, seq_length; lia). rewrite NT by lia.
    cbn [ranges]. rewrite IH by lia. f_equal. unfold range, true_range. cbn [Nat.eqb]. rewrite last_close_upto by lia.
    replace (S n - 1) with n by lia. reflexivity.
Qed.
Lemma concat_single {X} (l : list X) : concat (map (fun x => [x]) l) = l.
Proof. induction l as [|x l IH]; [reflexivity|]. cbn. now rewrite IH. Qed.
Lemma tensors_single l : tensors [] (map (fun x => [x]) l) = scalars l.
Proof. unfold tensors, scalars. now rewrite concat_single, map_length. Qed.
Lemma each_single (f : list F -> F) h : each [] f (map (fun x => [x]) h) = [f h].
Proof. unfold each, column. cbn [prod seq map fold_right]. rewrite map_map. cbn [nth]. now rewrite map_id. Qed.
Lemma hists_map {X Y} (f : X -> Y) : forall xs h, hists (map f h) (map f xs) = map (map f) (hists h xs).
Proof. induction xs as [|x xs IH]; intros h; [reflexivity|]. cbn [hists map]. f_equal. apply (IH (x :: h)). Qed.
Lemma rma_scalars p l : p >= 1 -> l <> [] -> short (rev l) ->
  exists sf s0, call (RollingMovingAverage (Z.of_nat p)) (scalars l) None true = Ok (scalars (map (rma p) (hists [] l)), sf, s0).
Proof.
  intros Hp NE OK. destruct (rma_streams [] p Hp) as (st & H & _). specialize (H (map (fun x => [x]) l)). rewrite tensors_single in H.
  eexists _, _. rewrite H.
  - do 3 f_equal. rewrite <- tensors_single. f_equal. change (@nil (list F)) with (map (fun x : F => [x]) []). rewrite hists_map, !map_map.
    apply map_ext. intros h. apply each_single.
  - now destruct l.
  - split.
    + apply Forall_rev, Forall_map, Forall_forall. reflexivity.
    + unfold short in *. rewrite rev_length in *. now rewrite map_length.
Qed.
Lemma atr_positions p xs : p >= 1 -> xs <> [] -> short (rev xs) ->
  exists out sf s0 sf' s0', call (AverageTrueRange (Z.of_nat p)) (bars xs) None true = Ok (scalars out, sf, s0) /\
    call (RollingMovingAverage (Z.of_nat p)) (scalars (map (true_range xs) (seq 0 (length xs)))) None true = Ok (scalars out, sf', s0').
Proof.
  intros Hp NE OK. destruct (atr_streams p Hp) as (st & H & _). specialize (H xs NE OK).
  destruct (rma_scalars p (map (true_range xs) (seq 0 (length xs))) Hp) as (sf' & s0' & E').
  - destruct xs; [easy|discriminate].
  - unfold short in *. rewrite rev_length in *. now rewrite map_length, seq_length.
  - eexists _, _, _, _, _. split; [exact H|]. rewrite E'. do 4 f_equal.
    apply (nth_ext _ _ f0 f0); [rewrite !map_length, !hists_length, map_length, seq_length; reflexivity|].
    intros n Hn. rewrite map_length, hists_length, map_length, seq_length in Hn.
    rewrite !nth_map_hists by (rewrite ?map_length, ?seq_length; exact Hn). unfold atr. now rewrite ranges_upto.
Qed.

(** ** Supertrend *)
Lemma super_positions p factor xs r : p >= 1 -> xs <> [] -> short (rev xs) ->
  call (Supertrend (Z.of_nat p) factor) (bars xs) None true = Ok r ->
  exists out a (T : nat -> trend) sf s0 sf' s0', r = (scalars out, sf, s0) /\
    call (AverageTrueRange (Z.of_nat p)) (bars xs) None true = Ok (scalars a, sf', s0') /\
    length out = length xs /\
    forall n, n < length xs ->
      let c := nth n xs no_candle in
      let before := if n =? 0 then no_trend else T (n - 1) in
      let prev_close := if n =? 0 then f0 else c_close (nth (n - 1) xs no_candle) in
      nth n out f0 = t_line (T n) /\
      T n = (if feq (nth n a f0) f0 then no_trend else next_trend (num factor) (nth n a f0) c prev_close before) /\
      (feq (nth n a f0) f0 = false -> flt (t_down before) (c_close c) && flt (c_close c) (t_up before) = false).
Proof.
  intros Hp NE OK H. pose proof (super_calm p factor xs r Hp OK (genuine_supertrend _ _) NE H) as CL.
  destruct (super_streams p factor Hp) as (st & H1 & _). rewrite (H1 xs NE (conj OK CL)) in H. injection H as <-.
  destruct (atr_streams p Hp) as (st' & H2 & _). specialize (H2 xs NE OK).
  eexists _, _, (fun n => supertrend p (num factor) (upto n xs)), _, _, _, _.
  split; [reflexivity|]. split; [exact H2|]. split; [now rewrite map_length, hists_length|].
  intros n Hn c before prev. rewrite !nth_map_hists by exact Hn. split; [reflexivity|].
  assert (CN : calm p (num factor) (upto n xs)).
  { clear -CL Hn. rewrite <- (upto_last xs) in CL. destruct (upto_split n (length xs - 1) xs ltac:(lia) ltac:(lia)) as (g & _ & E & _).
    rewrite E in CL. clear E. induction g as [|x g IH]; [exact CL|]. apply IH. apply CL. }
  assert (U : exists h, upto n xs = c :: h /\ supertrend p (num factor) h = before /\ last_close h = prev).
  { destruct n as [|n].
    - exists []. split; [now apply upto_0|]. split; reflexivity.
    - exists (upto n xs). split; [now apply upto_S|]. unfold before, prev. cbn [Nat.eqb]. replace (S n - 1) with n by lia.
      split; [reflexivity|]. apply last_close_upto. lia. }
  destruct U as (h & Eu & Eb & Ep). rewrite Eu in *. split.
  - cbn [supertrend]. now rewrite Eb, Ep.
  - intros A. destruct CN as [CN _]. unfold conflict in CN. rewrite A, Eb in CN. exact CN.
Qed.
Lemma super_total p factor xs : p >= 1 -> xs <> [] -> short (rev xs) ->
  (exists r, call (Supertrend (Z.of_nat p) factor) (bars xs) None true = Ok r) <-> calm p (num factor) (rev xs).
Proof.
  intros Hp NE OK. split.
  - intros [r H]. exact (super_calm p factor xs r Hp OK (genuine_supertrend _ _) NE H).
  - intros CL. destruct (super_streams p factor Hp) as (st & H1 & _). eexists. apply H1; [exact NE|]. split; assumption.
Qed.
Lemma super_cases p factor xs r : p >= 1 -> xs <> [] -> short (rev xs) ->
  call (Supertrend (Z.of_nat p) factor) (bars xs) None true = Ok r ->
  exists out a (T : nat -> trend) sf s0 sf' s0', r = (scalars out, sf, s0) /\
    call (AverageTrueRange (Z.of_nat p)) (bars xs) None true = Ok (scalars a, sf', s0') /\
    length out = length xs /\
    forall n, n < length xs ->
      let c := nth n xs no_candle in
      let before := if n =? 0 then no_trend else T (n - 1) in
      let prev_close := if n =? 0 then f0 else c_close (nth (n - 1) xs no_candle) in
      (feq (nth n a f0) f0 = true -> nth n out f0 = f0 /\ T n = no_trend) /\
      (feq (nth n a f0) f0 = false ->
         T n = next_trend (num factor) (nth n a f0) c prev_close before /\
         nth n out f0 = if Z.eqb (t_dir (T n)) 1 then t_up (T n) else t_down (T n)).
Proof.
  intros Hp NE OK H. destruct (super_positions p factor xs r Hp NE OK H) as (out & a & T & sf & s0 & sf' & s0' & E & E' & L & K).
  exists out, a, T, sf, s0, sf', s0'. split; [exact E|]. split; [exact E'|]. split; [exact L|].
  intros n Hn c before prev. destruct (K n Hn) as (K1 & K2 & _). cbv zeta in *. fold c before prev in K2. split; intros A; rewrite A in K2.
  - rewrite K1, K2. split; reflexivity.
  - split; [exact K2|]. rewrite K1, K2. reflexivity.
Qed.

(** ** Heikin-Ashi *)
Lemma ha_positions xs : xs <> [] -> feq f0 f0 = true ->
  exists out sf s0, call HeikinAshi (candles xs) None true = Ok (candles out, sf, s0) /\
    length out = length xs /\
    forall n, n < length xs ->
      let c := nth n xs no_candle in
      let b := nth (n - 1) xs no_candle in
      let close := fdiv (fsum [c_close c; c_low c; c_high c; c_open c]) (f_of_Z 4) in
      let open := fdiv (fadd (c_open b) (c_close b)) (f_of_Z 2) in
      nth n out no_candle = if (n =? 0) || feq (c_open b) f0 then c
        else Candle open (frmax [c_high c; close; open]) (frmin [c_low c; close; open]) close.
Proof.
  intros NE Z. destruct ha_streams as (st & H & _). exists (map heikin_ashi (hists [] xs)), (st (rev xs)), (st []).
  split; [now apply H|]. split; [now rewrite map_length, hists_length|]. intros n Hn c b close open.
  rewrite nth_map_hists by exact Hn. destruct n as [|n].
  - rewrite (upto_0 xs no_candle) by lia. cbn [heikin_ashi last_open Nat.eqb orb]. now rewrite Z.
  - rewrite (upto_S n xs no_candle) by lia. cbn [heikin_ashi Nat.eqb orb]. rewrite last_open_upto, last_close_upto by lia.
    unfold open, b. replace (S n - 1) with n by lia. reflexivity.
Qed.

(** ** Drawdown *)
Lemma drawdown_positions xs : xs <> [] -> below31 (rev xs) ->
  exists out (top : nat -> F) sf s0, call Drawdown (scalars xs) None true = Ok (drawdowns out, sf, s0) /\
    length out = length xs /\
    top 0 = f0 /\
    forall n, n < length xs ->
      top (S n) = fmax (nth n xs f0) (top n) /\
      fst (nth n out (f0, 0%Z)) = (if flt (fabs (top n)) tolerance then f0 else fmin f0 (fsub (fdiv (nth n xs f0) (top n)) f1)) /\
      snd (nth n out (f0, 0%Z)) = if flt tolerance (fabs (fsub (top (S n)) (top n))) then 0%Z
                                  else Z.add (if n =? 0 then 0%Z else snd (nth (n - 1) out (f0, 0%Z))) 1.
Proof.
  intros NE OK. destruct drawdown_streams as (st & H & _).
  exists (map (fun h => (drawdown h, under_water h)) (hists [] xs)), (fun n => peak (rev (firstn n xs))), (st (rev xs)), (st []).
  split; [now apply H|]. split; [now rewrite map_length, hists_length|]. split; [reflexivity|]. intros n Hn.
  rewrite nth_map_hists by exact Hn. cbn [fst snd]. fold (upto n xs).
  destruct n as [|n].
  - rewrite (upto_0 xs f0) by lia. cbn [firstn rev]. split; [reflexivity|]. split; reflexivity.
  - rewrite nth_map_hists by lia. cbn [snd]. replace (S n - 1) with n by lia. fold (upto n xs).
    rewrite (upto_S n xs f0) by lia. cbn [Nat.eqb]. split; [reflexivity|]. split; reflexivity.
Qed.
End Market.
