(** * WrapPositions: windows, returns, momentum and correlation beyond 2^31 positions, position by position (C46). *)
From Coq Require Import List ZArith Bool Lia.
From Verif Require Import Num Py Tensor Streamable Meta Common Finance Series Formulas Positions MovingFacts ImplComp ImplWindow ImplCorr StatFacts SpecHelpers Wrap WrapFacts.
Import ListNotations.

Section WrapPositions.
Context {N : FOps}.
Lemma warm_again p n : (2147483648 <= Z.of_nat n < 4294967296)%Z -> warming_up p (Z.of_nat (S n) - 1) = true.
Proof.
  intros H. unfold warming_up. replace (Z.of_nat (S n) - 1)%Z with (Z.of_nat n) by lia. rewrite Z.mod_small by lia.
  destruct (Z.leb_spec 2147483648 (Z.of_nat n)); [apply orb_true_r|lia].
Qed.
Lemma reading_le p n : (Z.of_nat p < 2147483648)%Z -> reading p n <= S n.
Proof.
  intros Hp. unfold reading. cbv zeta. assert (Z.of_nat n mod 4294967296 <= Z.of_nat n)%Z by (apply Z.mod_le; lia).
  assert (0 <= Z.of_nat n mod 4294967296 < 4294967296)%Z by (apply Z.mod_pos_bound; lia).
  destruct (Z.ltb_spec (Z.of_nat n mod 4294967296) 2147483648); [lia|]. destruct (Z.eqb_spec (Z.of_nat n mod 4294967296) 4294967295); lia.
Qed.
Lemma reading_first p n : (Z.of_nat n < 2147483648)%Z -> reading p n = Nat.min p (S n).
Proof. intros H. unfold reading. cbv zeta. rewrite Z.mod_small by lia. destruct (Z.ltb_spec (Z.of_nat n) 2147483648); [|lia]. f_equal. lia. Qed.
Lemma reading_none p n : (2147483648 <= Z.of_nat n < 4294967296 - Z.of_nat p)%Z -> reading p n = 0.
Proof.
  intros H. unfold reading. cbv zeta. rewrite Z.mod_small by lia. destruct (Z.ltb_spec (Z.of_nat n) 2147483648); [lia|]. destruct (Z.eqb_spec (Z.of_nat n) 4294967295); [lia|]. lia.
Qed.
Theorem returns_again p op xs : p >= 1 -> op = Return (Z.of_nat p) \/ op = LogarithmicReturn (Z.of_nat p) -> xs <> [] ->
  exists out sf s0, call op (scalars xs) None true = Ok (scalars out, sf, s0) /\ length out = length xs /\
    forall n, n < length xs -> (2147483648 <= Z.of_nat n < 4294967296)%Z -> nth n out f0 = f0.
Proof.
  intros Hp Hop NE.
  assert (T : exists f, streams op (fun _ => True) scalars (fun hs => scalars (map (change_forever f p) hs))).
  { destruct Hop as [->| ->]; eexists; [now apply ret_streams_forever|now apply log_ret_streams_forever]. }
  destruct T as (f & St). destruct (scalar_positions _ _ _ _ St xs NE I) as (out & sf & s0 & E & L & H). exists out, sf, s0. split; [exact E|]. split; [exact L|].
  intros n Hn Hb. rewrite H by exact Hn. unfold change_forever. rewrite upto_length by exact Hn. now rewrite warm_again by exact Hb.
Qed.
Theorem momentum_again s p xs : p >= 1 -> xs <> [] -> shaped s (rev xs) ->
  exists out sf s0, call (Momentum (Z.of_nat p)) (tensors s xs) None true = Ok (tensors s out, sf, s0) /\ length out = length xs /\
    forall n j, n < length xs -> j < prod s -> (2147483648 <= Z.of_nat n < 4294967296)%Z -> number out j n = f0.
Proof.
  intros Hp NE OK. destruct (tensor_positions _ _ _ _ (momentum_streams_forever s p Hp) xs NE OK) as (out & sf & s0 & E & L & H). exists out, sf, s0. split; [exact E|]. split; [exact L|].
  intros n j Hn Hj Hb. rewrite H by assumption. unfold momentum_forever. rewrite upto_length by now rewrite numbers_length. now rewrite warm_again by exact Hb.
Qed.
Theorem correlation_again s p xs : p >= 1 -> xs <> [] -> shaped s (map fst (rev xs)) -> shaped s (map snd (rev xs)) ->
  exists out sf s0, call (Correlation (Z.of_nat p)) (tensor_pairs s xs) None true = Ok (tensors s out, sf, s0) /\ length out = length xs /\
    forall n j, n < length xs -> j < prod s -> (2147483648 <= Z.of_nat n < 4294967296)%Z -> number out j n = f0.
Proof.
  intros Hp NE O1 O2. destruct (pair_positions _ _ _ _ (corr_streams_forever s p Hp) xs NE (conj O1 O2)) as (out & sf & s0 & E & L & H). exists out, sf, s0. split; [exact E|]. split; [exact L|].
  intros n j Hn Hj Hb. rewrite H by assumption. unfold correlation_forever, column2. rewrite map_length, upto_length by exact Hn. now rewrite warm_again by exact Hb.
Qed.
Theorem bands_again s p k xs : p >= 1 -> xs <> [] -> shaped s (rev xs) ->
  exists lo mid up sf s0, call (BollingerBands (Z.of_nat p) k) (tensors s xs) None true = Ok (Tup [tensors s lo; tensors s mid; tensors s up], sf, s0) /\
    forall n j, n < length xs -> j < prod s -> (2147483648 <= Z.of_nat n < 4294967296)%Z ->
      number lo j n = fsub f0 (fmul f0 (num k)) /\ number mid j n = f0 /\ number up j n = fadd f0 (fmul f0 (num k)).
Proof.
  intros Hp NE OK. destruct (bollinger_streams_forever s p k Hp) as (st & H & _). eexists _, _, _, _, _. split; [now apply H|].
  intros n j Hn Hj Hb. unfold number. rewrite !nth_map_hists by exact Hn. rewrite !each_nth by exact Hj. rewrite column_upto.
  unfold sma_forever, msd_forever. rewrite upto_length by now rewrite numbers_length. now rewrite warm_again by exact Hb.
Qed.
Theorem windows_again p op f xs : p >= 1 -> (Z.of_nat p < 2147483648)%Z ->
  (op = LocalMinimum (Z.of_nat p) /\ f = frmin) \/ (op = LocalMaximum (Z.of_nat p) /\ f = frmax) \/ (op = Skewness (Z.of_nat p) /\ f = skew_of) -> xs <> [] ->
  exists out sf s0, call op (scalars xs) None true = Ok (scalars out, sf, s0) /\ length out = length xs /\
    forall n, n < length xs ->
      nth n out f0 = f (map (fun i => nth (n - i) xs f0) (seq 0 (reading p n))) /\
      ((2147483648 <= Z.of_nat n < 4294967296 - Z.of_nat p)%Z -> nth n out f0 = f []).
Proof.
  intros Hp Hb Hop NE. destruct (scalar_positions _ _ _ _ (window_streams_forever p op f Hp Hb Hop) xs NE I) as (out & sf & s0 & E & L & H).
  exists out, sf, s0. split; [exact E|]. split; [exact L|]. intros n Hn. rewrite H by exact Hn. unfold window_forever. rewrite upto_length by exact Hn.
  replace (S n - 1) with n by lia. split; [|intros B; now rewrite reading_none].
  f_equal. apply (firstn_upto (reading p n) n xs f0); [now apply reading_le|exact Hn].
Qed.
Theorem sharpe_again p xs : p >= 1 -> (Z.of_nat p < 2147483648)%Z -> xs <> [] ->
  exists out sf s0, call (SharpeRatio (Z.of_nat p)) (pairs xs) None true = Ok (scalars out, sf, s0) /\ length out = length xs /\
    forall n, n < length xs ->
      nth n out f0 = ratio (map (fun i => excess (nth (n - i) xs (f0, f0))) (seq 0 (reading p n))) /\
      ((2147483648 <= Z.of_nat n < 4294967296 - Z.of_nat p)%Z -> nth n out f0 = ratio []).
Proof.
  intros Hp Hb NE. destruct (scalar_positions _ _ _ _ (sharpe_streams_forever p Hp Hb) xs NE I) as (out & sf & s0 & E & L & H).
  exists out, sf, s0. split; [exact E|]. split; [exact L|]. intros n Hn. rewrite H by exact Hn. unfold window_forever. rewrite map_length, upto_length by exact Hn.
  replace (S n - 1) with n by lia. split; [|intros B; now rewrite reading_none].
  rewrite firstn_map, (firstn_upto (reading p n) n xs (f0, f0)) by (try apply reading_le; assumption). now rewrite map_map.
Qed.
End WrapPositions.
