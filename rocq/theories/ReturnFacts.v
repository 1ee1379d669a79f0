(** * ReturnFacts: returns, momentum, MACD, crossover, volatility, position by position. *)
From Coq Require Import List ZArith Bool Lia.
From Verif Require Import Num Py Tensor Streamable Common Finance Series Formulas Positions EvalFacts ImplBasic
  ImplScalar ImplComp MovingFacts.
Import ListNotations.

Lemma trail_length {X Y} (f : list X -> Y) h : length (trail f h) = length h.
Proof. induction h as [|x h IH]; cbn [trail length]; [reflexivity|now rewrite IH]. Qed.
Lemma nth_trail {X Y} (f : list X -> Y) : forall h i d, i < length h -> nth i (trail f h) d = f (skipn i h).
Proof.
  induction h as [|x h IH]; intros i d H; [cbn in H; lia|]. cbn [trail].
  destruct i as [|i]; [reflexivity|]. cbn [nth skipn length] in *. apply IH. lia.
Qed.
Lemma skipn_upto {X} i n (xs : list X) : i <= n -> n < length xs -> skipn i (upto n xs) = upto (n - i) xs.
Proof.
  intros H1 H2. unfold upto. rewrite skipn_rev, firstn_length, Nat.min_l by lia. rewrite firstn_firstn. f_equal. f_equal. lia.
Qed.
(** The outputs up to position [n] are the outputs at the histories up to [n]. *)
Lemma upto_map_hists {X Y} (f : list X -> Y) n (xs : list X) : n < length xs ->
  upto n (map f (hists [] xs)) = trail f (upto n xs).
Proof.
  intros H. assert (L : length (upto n (map f (hists [] xs))) = length (trail f (upto n xs))).
  { rewrite trail_length, !upto_length; [reflexivity|exact H|]. now rewrite map_length, hists_length. }
  apply (nth_ext _ _ (f []) (f [])); [exact L|]. intros i Hi.
  rewrite L, trail_length, upto_length in Hi by exact H.
  rewrite nth_upto by (try rewrite map_length, hists_length; lia). rewrite nth_map_hists by lia.
  rewrite nth_trail by (rewrite upto_length; lia). now rewrite skipn_upto by lia.
Qed.

Section Returns.
Context {N : FOps}.
Lemma change_upto f p n xs : n < length xs ->
  change f p (upto n xs) = if (n <? p) || feq (nth (n - p) xs f0) f0 then f0 else f (fdiv (nth n xs f0) (nth (n - p) xs f0)).
Proof.
  intros H. unfold change. rewrite upto_length by exact H. destruct (Nat.leb_spec (S n) p), (Nat.ltb_spec n p); try lia; [reflexivity|].
  unfold now, ago. rewrite !nth_upto by lia. now replace (n - 0) with n by lia.
Qed.
Lemma ret_positions p xs : p >= 1 -> feq f0 f0 = true -> xs <> [] -> short (rev xs) ->
  exists out sf s0, call (Return (Z.of_nat p)) (scalars xs) None true = Ok (scalars out, sf, s0) /\
    length out = length xs /\
    forall n, n < length xs ->
      nth n out f0 = if (n <? p) || feq (nth (n - p) xs f0) f0 then f0 else fsub (fdiv (nth n xs f0) (nth (n - p) xs f0)) f1.
Proof.
  intros Hp Z NE OK. destruct (scalar_positions _ _ _ _ (ret_streams p Hp Z) xs NE OK) as (out & sf & s0 & E & L & H).
  exists out, sf, s0. split; [exact E|]. split; [exact L|]. intros n Hn. rewrite H by exact Hn. now apply change_upto.
Qed.
Lemma log_ret_positions p xs : p >= 1 -> feq f0 f0 = true -> xs <> [] -> short (rev xs) ->
  exists out sf s0, call (LogarithmicReturn (Z.of_nat p)) (scalars xs) None true = Ok (scalars out, sf, s0) /\
    length out = length xs /\
    forall n, n < length xs ->
      nth n out f0 = if (n <? p) || feq (nth (n - p) xs f0) f0 then f0 else flog (fdiv (nth n xs f0) (nth (n - p) xs f0)).
Proof.
  intros Hp Z NE OK. destruct (scalar_positions _ _ _ _ (log_ret_streams p Hp Z) xs NE OK) as (out & sf & s0 & E & L & H).
  exists out, sf, s0. split; [exact E|]. split; [exact L|]. intros n Hn. rewrite H by exact Hn. now apply change_upto.
Qed.
Lemma momentum_positions s p xs : p >= 1 -> xs <> [] -> ok_rows s (rev xs) ->
  exists out sf s0, call (Momentum (Z.of_nat p)) (tensors s xs) None true = Ok (tensors s out, sf, s0) /\
    length out = length xs /\
    forall n j, n < length xs -> j < prod s ->
      number out j n = if n <? p then f0 else fsub (number xs j n) (number xs j (n - p)).
Proof.
  intros Hp NE OK. destruct (tensor_positions _ _ _ _ (momentum_streams s p Hp) xs NE OK) as (out & sf & s0 & E & L & H).
  exists out, sf, s0. split; [exact E|]. split; [exact L|]. intros n j Hn Hj. rewrite H by assumption.
  unfold momentum. rewrite upto_length by (now rewrite numbers_length).
  destruct (Nat.leb_spec (S n) p), (Nat.ltb_spec n p); try lia; [reflexivity|].
  unfold now, ago. rewrite !nth_upto by (rewrite ?numbers_length; lia). rewrite !nth_numbers by lia.
  now replace (n - 0) with n by lia.
Qed.
Lemma crossover_positions s slow fast xs : slow >= 1 -> fast >= 1 -> xs <> [] -> ok_rows s (rev xs) ->
  exists out msl mfa sf s0 sf1 s01 sf2 s02,
    call (SimpleMovingAverageCrossover (Z.of_nat slow) (Z.of_nat fast)) (tensors s xs) None true = Ok (tensors s out, sf, s0) /\
    call (SimpleMovingAverage (Z.of_nat slow)) (tensors s xs) None true = Ok (tensors s msl, sf1, s01) /\
    call (SimpleMovingAverage (Z.of_nat fast)) (tensors s xs) None true = Ok (tensors s mfa, sf2, s02) /\
    length out = length xs /\
    forall n j, n < length xs -> j < prod s ->
      number out j n = if n + 1 <? slow then fsub f0 f0 else fsub (number mfa j n) (number msl j n).
Proof.
  intros Hs Hf NE OK. destruct (tensor_positions _ _ _ _ (crossover_streams s slow fast Hs Hf) xs NE OK) as (out & sf & s0 & E & L & H).
  destruct (tensor_positions _ _ _ _ (sma_streams s slow Hs) xs NE OK) as (msl & sf1 & s01 & E1 & L1 & H1).
  destruct (tensor_positions _ _ _ _ (sma_streams s fast Hf) xs NE OK) as (mfa & sf2 & s02 & E2 & L2 & H2).
  exists out, msl, mfa. eexists _, _, _, _, _, _. split; [exact E|]. split; [exact E1|]. split; [exact E2|]. split; [exact L|].
  intros n j Hn Hj. rewrite H, H1, H2 by assumption. unfold crossover_code. 
  rewrite upto_length by (now rewrite numbers_length). replace (n + 1) with (S n) by lia.
  destruct (Nat.ltb_spec (S n) slow); [|reflexivity]. f_equal.
  unfold sma. rewrite upto_length by (now rewrite numbers_length). destruct (Nat.ltb_spec (S n) slow); [reflexivity|lia].
Qed.
(** Volatility: deviation of the last emitted logarithmic returns. *)
Lemma volatility_positions m r xs : m >= 1 -> r >= 1 -> feq f0 f0 = true -> xs <> [] -> short (rev xs) ->
  exists out lr sf s0 sf1 s01,
    call (Volatility (Z.of_nat m) (Z.of_nat r)) (scalars xs) None true = Ok (scalars out, sf, s0) /\
    call (LogarithmicReturn (Z.of_nat r)) (scalars xs) None true = Ok (scalars lr, sf1, s01) /\
    length out = length xs /\
    forall n, n < length xs ->
      nth n out f0 = if n <? Nat.max m r then f0 else fsqrt (fvar (map (fun i => nth (n - i) lr f0) (seq 0 m))).
Proof.
  intros Hm Hr Z NE OK. destruct (scalar_positions _ _ _ _ (volatility_streams m r Hm Hr Z) xs NE OK) as (out & sf & s0 & E & L & H).
  destruct (scalar_positions _ _ _ _ (log_ret_streams r Hr Z) xs NE OK) as (lr & sf1 & s01 & E1 & L1 & H1).
  exists out, lr, sf, s0, sf1, s01. split; [exact E|]. split; [exact E1|]. split; [exact L|]. intros n Hn.
  rewrite H by exact Hn. unfold volatility. rewrite upto_length by exact Hn.
  destruct (Nat.leb_spec (S n) (Nat.max m r)), (Nat.ltb_spec n (Nat.max m r)); try lia; [reflexivity|].
  unfold msd. rewrite trail_length, upto_length by exact Hn. destruct (Nat.ltb_spec (S n) m); [lia|].
  f_equal. f_equal. apply (nth_ext _ _ f0 f0).
  - rewrite firstn_length, trail_length, upto_length, map_length, seq_length by exact Hn. lia.
  - intros i Hi. rewrite firstn_length, trail_length, upto_length in Hi by exact Hn. rewrite nth_firstn by lia.
    rewrite nth_trail by (rewrite upto_length; lia). rewrite skipn_upto by lia.
    rewrite (nth_indep (map (fun i => nth (n - i) lr f0) (seq 0 m)) f0 ((fun i => nth (n - i) lr f0) 0)) by (rewrite map_length, seq_length; lia).
    rewrite (map_nth (fun i => nth (n - i) lr f0)), seq_nth by lia. cbn [Nat.add]. now rewrite H1 by lia.
Qed.

(** ** MACD *)
Lemma nth_skipn' {X} : forall k i (xs : list X) d, nth i (skipn k xs) d = nth (k + i) xs d.
Proof.
  induction k as [|k IH]; intros i [|x xs] d; cbn [skipn Nat.add]; try reflexivity; [now destruct i|]. apply IH.
Qed.
Lemma upto_skipn {X} k n (xs : list X) : n + k < length xs -> upto n (skipn k xs) = firstn (S n) (upto (n + k) xs).
Proof.
  intros H. destruct xs as [|d xs']; [cbn in H; lia|]. set (xs := d :: xs') in *.
  apply (nth_ext _ _ d d).
  - rewrite firstn_length, !upto_length by (rewrite ?skipn_length; lia). lia.
  - intros i Hi. rewrite upto_length in Hi by (rewrite skipn_length; lia).
    rewrite nth_firstn by lia. rewrite !nth_upto by (rewrite ?skipn_length; lia).
    rewrite nth_skipn'. f_equal. lia.
Qed.
Lemma ok_rows_skipn s k (xs : list (list F)) : ok_rows s (rev xs) -> ok_rows s (rev (skipn k xs)).
Proof.
  intros [H1 H2]. split.
  - apply Forall_rev. apply Forall_rev in H1. rewrite rev_involutive in H1.
    rewrite <- (firstn_skipn k xs) in H1. now apply Forall_app in H1 as [_ H1].
  - unfold short in *. rewrite rev_length in *. rewrite skipn_length. lia.
Qed.
Lemma ok_rows_out s (f : list F -> F) xs : short (rev xs) -> ok_rows s (rev (map (each s f) (hists [] xs))).
Proof.
  intros H. split.
  - apply Forall_rev, Forall_map, Forall_forall. intros h _. apply each_length.
  - unfold short in *. rewrite rev_length in *. now rewrite map_length, hists_length.
Qed.
Lemma numbers_out s (f : list F -> F) xs j : j < prod s ->
  numbers (map (each s f) (hists [] xs)) j = map f (hists [] (numbers xs j)).
Proof.
  intros Hj. unfold numbers. rewrite map_map.
  assert (E : forall h, map (fun g => nth j (each s f g) f0) (hists h xs) =
            map f (hists (map (fun r => nth j r f0) h) (map (fun r => nth j r f0) xs))).
  { clear -Hj. induction xs as [|x xs IH]; intros h; [reflexivity|]. cbn [hists map]. rewrite each_nth by exact Hj.
    f_equal. apply IH. }
  apply (E []).
Qed.
Lemma numbers_skipn k xs j : numbers (skipn k xs) j = skipn k (numbers xs j).
Proof. unfold numbers. now rewrite skipn_map. Qed.
Lemma macd_positions s slow fast m xs : slow >= 1 -> fast >= 1 -> m >= 1 -> xs <> [] -> ok_rows s (rev xs) ->
  exists eslow efast macd signal hist sf s0 sf1 s01 sf2 s02,
    call (MovingAverageConvergenceDivergence (Z.of_nat slow) (Z.of_nat fast) (Z.of_nat m)) (tensors s xs) None true =
      Ok (Tup [tensors s eslow; tensors s efast; tensors s macd; tensors s signal; tensors s hist], sf, s0) /\
    call (ExponentialMovingAverage (Z.of_nat slow)) (tensors s xs) None true = Ok (tensors s eslow, sf1, s01) /\
    call (ExponentialMovingAverage (Z.of_nat fast)) (tensors s xs) None true = Ok (tensors s efast, sf2, s02) /\
    length macd = length xs /\ length signal = length xs /\ length hist = length xs /\
    (slow <= length xs -> exists smooth sf3 s03,
      call (ExponentialMovingAverage (Z.of_nat m)) (tensors s (skipn (slow - 1) macd)) None true = Ok (tensors s smooth, sf3, s03) /\
      forall n j, slow <= n + 1 -> n < length xs -> j < prod s -> number signal j n = number smooth j (n - (slow - 1))) /\
    forall n j, n < length xs -> j < prod s ->
      number macd j n = (if n + 1 <? slow then f0 else fsub (number efast j n) (number eslow j n)) /\
      (n + 1 < slow -> number signal j n = f0) /\
      number hist j n = if n + 2 <? slow + m then f0 else fsub (number macd j n) (number signal j n).
Proof.
  intros Hs Hf Hm NE OK.
  destruct (macd_streams s slow fast m Hs Hf Hm) as (st & H & _), (ema_streams s slow Hs) as (st1 & H1 & _), (ema_streams s fast Hf) as (st2 & H2 & _).
  eexists _, _, _, _, _, _, _, _, _, _, _. split; [now apply H|]. split; [now apply H1|]. split; [now apply H2|].
  rewrite !map_length, hists_length. repeat (split; [reflexivity|]). split.
  - intros Hl. set (mac := map (each s (macd slow fast)) (hists [] xs)).
    assert (Lm : length mac = length xs) by (unfold mac; now rewrite map_length, hists_length).
    assert (NEm : skipn (slow - 1) mac <> []).
    { intros E. apply (f_equal (@length _)) in E. rewrite skipn_length in E. cbn [length] in E. lia. }
    assert (OKm : ok_rows s (rev (skipn (slow - 1) mac))) by (apply ok_rows_skipn, ok_rows_out; apply OK).
    destruct (tensor_positions _ _ _ _ (ema_streams s m Hm) _ NEm OKm) as (sm & sf3 & s03 & E3 & L3 & H3).
    exists sm, sf3, s03. split; [exact E3|]. intros n j Hn1 Hn Hj.
    rewrite H3 by (rewrite ?skipn_length; lia). unfold number. rewrite nth_map_hists by exact Hn. rewrite each_nth by exact Hj.
    rewrite column_upto. unfold macd_signal. rewrite upto_length by (now rewrite numbers_length).
    destruct (Nat.ltb_spec (S n) slow); [lia|]. f_equal. rewrite numbers_skipn, upto_skipn by (rewrite numbers_length; lia).
    replace (n - (slow - 1) + (slow - 1)) with n by lia. replace (S n + 1 - slow) with (S (n - (slow - 1))) by lia.
    f_equal. unfold mac. rewrite numbers_out by exact Hj. rewrite upto_map_hists by (now rewrite numbers_length). reflexivity.
  - intros n j Hn Hj. unfold number. rewrite !nth_map_hists by exact Hn. rewrite !each_nth by exact Hj.
    rewrite !column_upto. unfold macd_histogram, macd_signal, macd.
    rewrite upto_length by (now rewrite numbers_length). replace (n + 1) with (S n) by lia. split; [reflexivity|]. split.
    + intros L. destruct (Nat.ltb_spec (S n) slow); [reflexivity|lia].
    + replace (S n + 1) with (n + 2) by lia. reflexivity.
Qed.
End Returns.

Section Placeholders.
Context {N : FOps}.
Lemma volatility_placeholders m r xs : m >= 2 -> r >= 2 -> feq f0 f0 = true -> short (rev xs) -> Nat.max m r < length xs ->
  exists out lr sf s0 sf1 s01 i,
    call (Volatility (Z.of_nat m) (Z.of_nat r)) (scalars xs) None true = Ok (scalars out, sf, s0) /\
    call (LogarithmicReturn (Z.of_nat r)) (scalars xs) None true = Ok (scalars lr, sf1, s01) /\
    nth (Nat.max m r) out f0 = fsqrt (fvar (map (fun i => nth (Nat.max m r - i) lr f0) (seq 0 m))) /\
    i < m /\ Nat.max m r - i < r /\ nth (Nat.max m r - i) lr f0 = f0.
Proof.
  intros Hm Hr Z OK Hl. assert (NE : xs <> []) by (intros ->; cbn in Hl; lia).
  destruct (volatility_positions m r xs ltac:(lia) ltac:(lia) Z NE OK) as (out & lr & sf & s0 & sf1 & s01 & E & E1 & L & H).
  destruct (log_ret_positions r xs ltac:(lia) Z NE OK) as (lr' & sf2 & s02 & E2 & L2 & H2).
  assert (X : lr' = lr) by (rewrite E1 in E2; unfold scalars in E2; congruence). subst lr'.
  exists out, lr, sf, s0, sf1, s01, (m - 1). split; [exact E|]. split; [exact E1|]. split.
  { rewrite H by exact Hl. now rewrite Nat.ltb_irrefl. }
  split; [lia|]. split; [lia|]. rewrite H2 by lia. destruct (Nat.ltb_spec (Nat.max m r - (m - 1)) r); [reflexivity|lia].
Qed.
Lemma volatility_defined m xs : m >= 1 -> feq f0 f0 = true -> short (rev xs) -> xs <> [] ->
  exists out sf s0, call (Volatility (Z.of_nat m) 1) (scalars xs) None true = Ok (scalars out, sf, s0) /\
    length out = length xs /\
    forall n, n < length xs -> nth n out f0 = if n <? m then f0
      else fsqrt (fvar (map (fun i => if feq (nth (n - i - 1) xs f0) f0 then f0
                                      else flog (fdiv (nth (n - i) xs f0) (nth (n - i - 1) xs f0))) (seq 0 m))).
Proof.
  intros Hm Z OK NE.
  destruct (volatility_positions m 1 xs ltac:(lia) ltac:(lia) Z NE OK) as (out & lr & sf & s0 & sf1 & s01 & E & E1 & L & H).
  destruct (log_ret_positions 1 xs ltac:(lia) Z NE OK) as (lr' & sf2 & s02 & E2 & L2 & H2).
  assert (X : lr' = lr) by (rewrite E1 in E2; unfold scalars in E2; congruence). subst lr'.
  exists out, sf, s0. split; [exact E|]. split; [exact L|]. intros n Hn. rewrite H by exact Hn.
  replace (Nat.max m 1) with m by lia. destruct (Nat.ltb_spec n m); [reflexivity|]. f_equal. f_equal.
  apply map_ext_in. intros i Hi. apply in_seq in Hi. rewrite H2 by lia. destruct (Nat.ltb_spec (n - i) 1); [lia|]. reflexivity.
Qed.
Lemma crossover_zero s slow fast xs : fsub f0 f0 = f0 -> slow >= 1 -> fast >= 1 -> xs <> [] -> ok_rows s (rev xs) ->
  exists out msl mfa sf s0 sf1 s01 sf2 s02,
    call (SimpleMovingAverageCrossover (Z.of_nat slow) (Z.of_nat fast)) (tensors s xs) None true = Ok (tensors s out, sf, s0) /\
    call (SimpleMovingAverage (Z.of_nat slow)) (tensors s xs) None true = Ok (tensors s msl, sf1, s01) /\
    call (SimpleMovingAverage (Z.of_nat fast)) (tensors s xs) None true = Ok (tensors s mfa, sf2, s02) /\
    length out = length xs /\
    forall n j, n < length xs -> j < prod s ->
      number out j n = if n + 1 <? slow then f0 else fsub (number mfa j n) (number msl j n).
Proof.
  intros Z Hs Hf NE OK. pose proof (crossover_positions s slow fast xs Hs Hf NE OK) as H. rewrite Z in H. exact H.
Qed.
End Placeholders.
