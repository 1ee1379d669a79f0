(** * StatReal: Sharpe ratio, skewness and correlations in exact arithmetic. *)
From Coq Require Import Reals Lra Lia List ZArith Bool.
From Verif Require Import Num Py Tensor Streamable Common Finance Series Formulas Positions EvalFacts
  ImplBasic ImplComp ImplWindow ImplCorr ER RealFacts RealStats MovingFacts ReturnFacts StatFacts.
Import ListNotations.
Local Open Scope R_scope.

(** Pairs of numbers and pairs of rows of numbers, as floats. *)
Definition fin_pair (x : R * R) : ext * ext := (Fin (fst x), Fin (snd x)).
Definition fin_rows (x : list R * list R) : list ext * list ext := (map Fin (fst x), map Fin (snd x)).
Definition rpairs_ok (s : list nat) (xs : list (list R * list R)) : Prop :=
  Forall (fun r => length (fst r) = prod s /\ length (snd r) = prod s) xs /\ short xs.
(** The last [k] numbers up to position [n]. *)
Definition last_numbers (k : nat) (xs : list R) (n : nat) : list R := map (fun i => nth (n - i) xs 0) (seq 0 k).

Lemma window_len {X} (f : nat -> X) k : length (map f (seq 0 k)) = k.
Proof. now rewrite map_length, seq_length. Qed.
Lemma window_nonempty {X} (f : nat -> X) k : (1 <= k)%nat -> map f (seq 0 k) <> [].
Proof. intros H Q. apply (f_equal (@length _)) in Q. rewrite window_len in Q. cbn in Q. lia. Qed.
Lemma sharpe_real p xs : (1 <= p)%nat -> (Z.of_nat p < 2147483648)%Z -> xs <> [] -> short (rev xs) ->
  exists out sf s0, call (@SharpeRatio ER (Z.of_nat p)) (@pairs ER (map fin_pair xs)) None true = Ok (scalars out, sf, s0) /\
    length out = length xs /\
    forall n, (n < length xs)%nat ->
      let w := last_numbers (Nat.min (n + 1) p) (map (fun x => fst x - snd x) xs) n in
      (constant w -> nth n out NaN = Fin 0) /\
      (~ constant w -> nth n out NaN = Fin (rmean w / sqrt (rvar w))).
Proof.
  intros Hp Hp' NE Sh. destruct (@sharpe_positions ER p (map fin_pair xs)) as (out & sf & s0 & E & L & H); [lia|exact Hp'|now destruct xs|..].
  { unfold short in *. rewrite rev_length in *. now rewrite map_length. }
  rewrite map_length in *. exists out, sf, s0. split; [exact E|]. split; [exact L|]. intros n Hn w. specialize (H n Hn). cbv zeta in H.
  assert (W : map (fun i => @fsub ER (fst (nth (n - i) (map fin_pair xs) (@f0 ER, @f0 ER))) (snd (nth (n - i) (map fin_pair xs) (@f0 ER, @f0 ER))))
          (seq 0 (Nat.min (n + 1) p)) = map Fin w).
  { unfold w, last_numbers. rewrite map_map. apply map_ext_in. intros i Hi. apply in_seq in Hi.
    rewrite (nth_indep _ _ (fin_pair (0, 0))) by (rewrite map_length; lia). rewrite map_nth.
    rewrite (nth_indep _ 0 ((fun x => fst x - snd x) (0, 0))) by (rewrite map_length; lia). rewrite (map_nth (fun x => fst x - snd x)).
    reflexivity. }
  match type of H with context [fvar ?l] => replace l with (map Fin w : list (@F ER)) in H by (symmetry; exact W) end. assert (NEw : w <> []) by (apply window_nonempty; lia).
  change (@fmean ER) with e_mean in H. rewrite sqrt_fvar, e_mean_fin in H by exact NEw.
  rewrite (nth_indep out NaN (@f0 ER)) by lia. rewrite H.
  cbn [feq ER fdiv]. unfold f0 at 1 3. cbn [f_of_Z ER e_eq]. unfold Reqb.
  pose proof (sqrt_var_zero w NEw) as Q.
  destruct (Req_EM_T (sqrt (rvar w)) 0) as [D|D].
  - split; [reflexivity|]. intros K. destruct K. now apply Q.
  - split; [intros K; destruct D; now apply Q|]. intros _. now rewrite e_div_fin.
Qed.
Lemma skewness_real p xs : (1 <= p)%nat -> (Z.of_nat p < 2147483648)%Z -> xs <> [] -> short (rev xs) ->
  exists out sf s0, call (@Skewness ER (Z.of_nat p)) (@scalars ER (map Fin xs)) None true = Ok (scalars out, sf, s0) /\
    length out = length xs /\
    forall n, (n < length xs)%nat ->
      let w := last_numbers (Nat.min (n + 1) p) xs n in
      (constant w -> nth n out NaN = Fin 0) /\
      (~ constant w -> nth n out NaN = Fin (third_moment w / sqrt (rvar w) ^ 3)).
Proof.
  intros Hp Hp' NE Sh. destruct (@skewness_positions ER p (map Fin xs)) as (out & sf & s0 & E & L & H); [lia|exact Hp'|now destruct xs|..].
  { unfold short in *. rewrite rev_length in *. now rewrite map_length. }
  rewrite map_length in *. exists out, sf, s0. split; [exact E|]. split; [exact L|]. intros n Hn w. specialize (H n Hn).
  assert (W : map (fun i => nth (n - i) (map Fin xs) (@f0 ER)) (seq 0 (Nat.min (n + 1) p)) = map Fin w).
  { unfold w, last_numbers. rewrite map_map. apply map_ext. intros i. change (@f0 ER) with (Fin 0). apply (map_nth Fin). }
  assert (NEw : w <> []) by (apply window_nonempty; lia).
  rewrite (nth_indep out NaN (@f0 ER)) by lia. rewrite H.
  match goal with |- context [skew_of ?l] => replace l with (map Fin w : list (@F ER)) by (symmetry; exact W) end. rewrite skew_fin by exact NEw.
  pose proof (sqrt_var_zero w NEw) as Q.
  destruct (Req_EM_T (sqrt (rvar w)) 0) as [D|D].
  - split; [reflexivity|]. intros K. destruct K. now apply Q.
  - split; [intros K; destruct D; now apply Q|]. reflexivity.
Qed.
Lemma fin_rows_ok s xs : rpairs_ok s xs -> @two_rows ER s (rev (map fin_rows xs)).
Proof.
  intros [H1 H2]. assert (A : forall (g : list R * list R -> list R), (forall r, In r xs -> length (g r) = prod s) ->
      forall k, (forall r, k (fin_rows r) = map Fin (g r)) -> @shaped ext s (map k (rev (map fin_rows xs)))).
  { intros g G k K. rewrite map_rev, map_map. apply Forall_rev, Forall_map, Forall_forall. intros r Hr. rewrite K, map_length. now apply G. }
  rewrite Forall_forall in H1. split; [|split].
  - apply (A fst); [intros r Hr; now apply H1|reflexivity].
  - apply (A snd); [intros r Hr; now apply H1|reflexivity].
  - unfold short in *. rewrite rev_length. now rewrite map_length.
Qed.
Lemma fin_rows_number (xs : list (list R * list R)) (g : list R * list R -> list R) k j n :
  (forall r, k (fin_rows r) = map Fin (g r)) -> @number ER (map k (map fin_rows xs)) j n = Fin (rnumber (map g xs) j n).
Proof.
  intros K. unfold rnumber. change (@number ER (map k (map fin_rows xs)) j n) with (nth j (nth n (map k (map fin_rows xs)) []) (Fin 0) : ext).
  rewrite map_map, (map_ext _ (fun r => map Fin (g r))) by exact K.
  rewrite <- (map_map g (map Fin)). change (@nil ext) with (map Fin []). rewrite (map_nth (map Fin)). apply (map_nth Fin).
Qed.
(** What a correlation output is, for the windows [u] and [v]. *)
Definition is_correlation (e : ext) (u v : list R) : Prop :=
  ((constant u \/ constant v) -> e = NaN) /\
  (~ constant u -> ~ constant v ->
     exists r, e = Fin r /\ r = rcov u v / (sqrt (rvar u) * sqrt (rvar v)) /\ -1 <= r <= 1).
Lemma corr_is u v : u <> [] -> length u = length v -> is_correlation (@corr_of ER (map Fin u) (map Fin v)) u v.
Proof.
  intros NE L. destruct (corr_fin u v NE L) as [[E C]|(r & E & B & Er & C1 & C2)].
  - split; [intros _; exact E|]. intros C1 C2. destruct C; contradiction.
  - split; [intros [C|C]; contradiction|]. intros _ _. exists r. auto.
Qed.
Definition rwin (xs : list (list R)) (j n p : nat) : list R := map (fun i => rnumber xs j (n - i)) (seq 0 p).
Lemma corr_real s p xs : (1 <= p)%nat -> xs <> [] -> rpairs_ok s xs ->
  exists out sf s0, call (@Correlation ER (Z.of_nat p)) (@tensor_pairs ER s (map fin_rows xs)) None true = Ok (tensors s out, sf, s0) /\
    length out = length xs /\
    forall n j, (n < length xs)%nat -> (j < prod s)%nat ->
      ((n < p)%nat -> number out j n = Fin 0) /\
      ((p <= n)%nat -> is_correlation (number out j n)
         (map (fun i => rnumber (map fst xs) j (n - i)) (seq 0 p)) (map (fun i => rnumber (map snd xs) j (n - i)) (seq 0 p))).
Proof.
  intros Hp NE OK. destruct (@corr_positions ER s p (map fin_rows xs)) as (out & sf & s0 & E & L & H); [lia|now destruct xs|now apply fin_rows_ok|].
  rewrite map_length in *. exists out, sf, s0. split; [exact E|]. split; [exact L|]. intros n j Hn Hj. rewrite H by assumption.
  split; intros K; destruct (Nat.ltb_spec n p); try lia; [reflexivity|].
  rewrite (map_ext _ (fun i => Fin (rnumber (map fst xs) j (n - i)))) by (intros i; now apply fin_rows_number).
  rewrite (map_ext (fun i => @number ER (map snd (map fin_rows xs)) j (n - i)) (fun i => Fin (rnumber (map snd xs) j (n - i)))) by (intros i; now apply fin_rows_number).
  rewrite <- (map_map (fun i => rnumber (map fst xs) j (n - i)) Fin), <- (map_map (fun i => rnumber (map snd xs) j (n - i)) Fin).
  apply corr_is; [apply window_nonempty; lia|now rewrite !window_len].
Qed.
Lemma cross_real s p l xs : (1 <= p)%nat -> (1 <= l)%nat -> xs <> [] -> rpairs_ok s xs ->
  exists out sf s0, call (@CrossCorrelation ER (Z.of_nat p) (Z.of_nat l)) (@tensor_pairs ER s (map fin_rows xs)) None true = Ok (tensors s out, sf, s0) /\
    length out = length xs /\
    forall n j, (n < length xs)%nat -> (j < prod s)%nat ->
      ((n < l + p)%nat -> number out j n = Fin 0) /\
      ((l + p <= n)%nat -> is_correlation (number out j n)
         (map (fun i => rnumber (map fst xs) j (n - i)) (seq 0 p)) (map (fun i => rnumber (map snd xs) j (n - l - i)) (seq 0 p))).
Proof.
  intros Hp Hl NE OK. destruct (@cross_positions ER s p l (map fin_rows xs)) as (out & sf & s0 & E & L & H); [lia|lia|now destruct xs|now apply fin_rows_ok|].
  rewrite map_length in *. exists out, sf, s0. split; [exact E|]. split; [exact L|]. intros n j Hn Hj. rewrite H by assumption.
  split; intros K; destruct (Nat.ltb_spec n (l + p)); try lia; [reflexivity|].
  rewrite (map_ext _ (fun i => Fin (rnumber (map fst xs) j (n - i)))) by (intros i; now apply fin_rows_number).
  rewrite (map_ext (fun i => @number ER (map snd (map fin_rows xs)) j (n - l - i)) (fun i => Fin (rnumber (map snd xs) j (n - l - i)))) by (intros i; now apply fin_rows_number).
  rewrite <- (map_map (fun i => rnumber (map fst xs) j (n - i)) Fin), <- (map_map (fun i => rnumber (map snd xs) j (n - l - i)) Fin).
  apply corr_is; [apply window_nonempty; lia|now rewrite !window_len].
Qed.
