(** * HaltStats: Sharpe ratio, skewness and correlations once the numbers stop moving (exact arithmetic). *)
From Coq Require Import Reals Lra Lia List ZArith Bool.
From Verif Require Import Num Py Tensor Streamable Common Finance Series Formulas Positions EvalFacts
  ImplBasic ImplComp ImplWindow ImplCorr ER RealFacts RealStats MovingFacts ReturnFacts StatFacts StatReal RealMarket RealLinear MarketReal Steady Linear Agree Halt.
Import ListNotations.
Local Open Scope R_scope.

Lemma window_halt xs n c f p m : halts xs n c -> (n + p <= m + 1)%nat -> (m < length xs)%nat -> (forall i, (i < p)%nat -> f i = nth (m - i) xs 0) ->
  constant (map f (seq 0 p)).
Proof.
  intros [Hn H] Hm Lm Hf. assert (A : forall x, In x (map f (seq 0 p)) -> x = c).
  { intros x Hx. apply in_map_iff in Hx. destruct Hx as (i & <- & Hi). apply in_seq in Hi. rewrite Hf by lia. apply (H (m - i)%nat). lia. }
  intros x y Hx Hy. now rewrite (A x Hx), (A y Hy).
Qed.
Lemma last_halt xs n c p m : halts xs n c -> (n + p <= m + 1)%nat -> (m < length xs)%nat -> constant (StatReal.last_numbers (Nat.min (m + 1) p) xs m).
Proof. intros H Hm Lm. apply (window_halt xs n c _ _ m H); [lia|exact Lm|reflexivity]. Qed.
Lemma column_number (xs : list (list R)) j n : rnumber xs j n = nth n (map (fun r => nth j r 0) xs) 0.
Proof.
  unfold rnumber. assert (Z : forall k, nth k (@nil R) 0 = 0) by (intros [|k]; reflexivity). rewrite <- (map_nth (fun r => nth j r 0) xs [] n). cbv beta. now rewrite Z.
Qed.

Lemma skewness_halt p xs n c : (1 <= p)%nat -> (Z.of_nat p < 2147483648)%Z -> countable xs -> halts xs n c ->
  exists (out : list ext) sf s0, call (Skewness (Z.of_nat p)) (reals xs) None true = Ok (@scalars ER out, sf, s0) /\ length out = length xs /\
    forall m, (n + p <= m + 1)%nat -> (m < length xs)%nat -> nth m out NaN = Fin 0.
Proof.
  intros Hp Hp' [NE Sh] H. destruct (skewness_real p xs Hp Hp' NE) as (out & sf & s0 & E & L & Q). { unfold short. rewrite rev_length. lia. }
  exists out, sf, s0. split; [exact E|]. split; [exact L|]. intros m Hm Lm. apply (Q m Lm). now apply (last_halt xs n c).
Qed.
Lemma sharpe_halt p xs n c : (1 <= p)%nat -> (Z.of_nat p < 2147483648)%Z -> xs <> [] -> (Z.of_nat (length xs) < 2147483648)%Z -> halts (map (fun x => fst x - snd x) xs) n c ->
  exists (out : list ext) sf s0, call (SharpeRatio (Z.of_nat p)) (@pairs ER (map fin_pair xs)) None true = Ok (@scalars ER out, sf, s0) /\ length out = length xs /\
    forall m, (n + p <= m + 1)%nat -> (m < length xs)%nat -> nth m out NaN = Fin 0.
Proof.
  intros Hp Hp' NE Sh H. destruct (sharpe_real p xs Hp Hp' NE) as (out & sf & s0 & E & L & Q). { unfold short. rewrite rev_length. lia. }
  exists out, sf, s0. split; [exact E|]. split; [exact L|]. intros m Hm Lm. apply (Q m Lm). apply (last_halt _ n c); [exact H|exact Hm|]. now rewrite map_length.
Qed.
Lemma correlation_halt s p xs : (1 <= p)%nat -> xs <> [] -> rpairs_ok s xs ->
  exists out sf s0, call (Correlation (Z.of_nat p)) (@tensor_pairs ER s (map fin_rows xs)) None true = Ok (@tensors ER s out, sf, s0) /\ length out = length xs /\
    forall j n c, (j < prod s)%nat -> halts (map (fun x => nth j (fst x) 0) xs) n c \/ halts (map (fun x => nth j (snd x) 0) xs) n c ->
    forall m, (n + p <= m + 1)%nat -> (p <= m < length xs)%nat -> @number ER out j m = NaN.
Proof.
  intros Hp NE OK. destruct (corr_real s p xs Hp NE OK) as (out & sf & s0 & E & L & Q). exists out, sf, s0. split; [exact E|]. split; [exact L|].
  intros j n c Hj H m Hm [Pm Lm]. destruct (Q m j Lm Hj) as [_ C]. destruct (C Pm) as [N _]. apply N.
  destruct H as [H|H]; [left|right]; (apply (window_halt _ n c _ p m H); [exact Hm|now rewrite map_length|]); intros i Hi; now rewrite column_number, map_map.
Qed.
Lemma lagged_halt s p l xs : (1 <= p)%nat -> (1 <= l)%nat -> xs <> [] -> rpairs_ok s xs ->
  exists out sf s0, call (CrossCorrelation (Z.of_nat p) (Z.of_nat l)) (@tensor_pairs ER s (map fin_rows xs)) None true = Ok (@tensors ER s out, sf, s0) /\ length out = length xs /\
    forall j n c, (j < prod s)%nat ->
      (halts (map (fun x => nth j (fst x) 0) xs) n c -> forall m, (n + p <= m + 1)%nat -> (l + p <= m < length xs)%nat -> @number ER out j m = NaN) /\
      (halts (map (fun x => nth j (snd x) 0) xs) n c -> forall m, (n + l + p <= m + 1)%nat -> (l + p <= m < length xs)%nat -> @number ER out j m = NaN).
Proof.
  intros Hp Hl NE OK. destruct (cross_real s p l xs Hp Hl NE OK) as (out & sf & s0 & E & L & Q). exists out, sf, s0. split; [exact E|]. split; [exact L|].
  intros j n c Hj. split; intros H m Hm [Pm Lm]; destruct (Q m j Lm Hj) as [_ C]; destruct (C Pm) as [N _]; apply N; [left|right].
  - apply (window_halt _ n c _ p m H); [exact Hm|now rewrite map_length|]. intros i Hi. now rewrite column_number, map_map.
  - apply (window_halt _ n c _ p (m - l)%nat H); [lia|rewrite map_length; lia|]. intros i Hi. now rewrite column_number, map_map.
Qed.
Lemma auto_halt s p l xs : (1 <= p)%nat -> (1 <= l)%nat -> xs <> [] -> rshaped s xs ->
  exists out sf s0, call (AutoCorrelation (Z.of_nat p) (Z.of_nat l)) (@tensors ER s (fins xs)) None true = Ok (@tensors ER s out, sf, s0) /\ length out = length xs /\
    forall j n c, (j < prod s)%nat -> halts (map (fun r => nth j r 0) xs) n c ->
    forall m, (n + p <= m + 1)%nat -> (l + p <= m < length xs)%nat -> @number ER out j m = NaN.
Proof.
  intros Hp Hl NE [Sx Sh]. destruct (@auto_positions ER s p l (fins xs)) as (out & sf & s0 & sf' & s0' & E & _ & L & Q); [lia|lia|now destruct xs| |].
  { split. - apply Forall_rev, Forall_map. revert Sx. apply Forall_impl. intros r Hr. now rewrite map_length.
    - unfold short, fins in *. now rewrite rev_length, map_length. }
  unfold fins in L at 1, Q. rewrite map_length in *. exists out, sf, s0. split; [exact E|]. split; [exact L|]. intros j n c Hj H m Hm [Pm Lm].
  rewrite Q by assumption. destruct (Nat.ltb_spec m (l + p)) as [K|_]; [lia|].
  assert (G : forall i, @number ER (map (map Fin) xs) j i = Fin (rnumber xs j i)).
  { intros i. unfold rnumber. change (nth j (nth i (map (map Fin) xs) []) (Fin 0) = Fin (nth j (nth i xs []) 0)).
    change (@nil ext) with (map Fin []). rewrite (map_nth (map Fin)). apply (map_nth Fin). }
  rewrite (map_ext _ (fun i => Fin (rnumber xs j (m - i)))) by (intros i; apply G).
  rewrite (map_ext (fun i => @number ER (map (map Fin) xs) j (m - l - i)) (fun i => Fin (rnumber xs j (m - l - i)))) by (intros i; apply G).
  rewrite <- (map_map (fun i => rnumber xs j (m - i)) Fin), <- (map_map (fun i => rnumber xs j (m - l - i)) Fin).
  apply corr_is; [apply window_nonempty; lia|now rewrite !window_len|]. left.
  apply (window_halt _ n c _ p m H); [exact Hm|now rewrite map_length|]. intros i Hi. apply column_number.
Qed.
