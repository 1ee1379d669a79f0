(** * MovingFacts: the moving operators position by position, and in exact arithmetic. *)
From Coq Require Import Reals Lra List ZArith Bool Lia.
From Verif Require Import Num Py Tensor Streamable Common Finance Series Formulas Positions ImplBasic
  ER RealFacts RealStats.
Import ListNotations.

Section Moving.
Context {N : FOps}.
Lemma lag_positions d s p xs : p >= 1 -> xs <> [] -> shaped s (rev xs) ->
  exists out sf s0, call (Lag (Z.of_nat p)) (series_of d s xs) None true = Ok (series_of d s out, sf, s0) /\
    length out = length xs /\
    forall n, n < length xs -> nth n out [] = if n <? p then repeat (zero_of d) (prod s) else nth (n - p) xs [].
Proof.
  intros Hp NE OK. destruct (lag_streams d s p Hp) as (st & H & _). eexists _, _, _.
  split; [now apply H|]. split; [now rewrite map_length, hists_length|]. intros n Hn.
  rewrite nth_map_hists by exact Hn. destruct (Nat.ltb_spec n p).
  - apply nth_overflow. rewrite upto_length; lia.
  - rewrite nth_upto by lia. apply nth_indep. lia.
Qed.
Lemma window_upto p n xs j : p <= S n -> n < length xs ->
  firstn p (upto n (numbers xs j)) = map (fun i => number xs j (n - i)) (seq 0 p).
Proof.
  intros H1 H2. rewrite (firstn_upto p n (numbers xs j) f0) by (rewrite ?numbers_length; lia).
  apply map_ext_in. intros i Hi. apply in_seq in Hi. apply nth_numbers. lia.
Qed.
Lemma sma_positions s p xs : p >= 1 -> xs <> [] -> ok_rows s (rev xs) ->
  exists out sf s0, call (SimpleMovingAverage (Z.of_nat p)) (tensors s xs) None true = Ok (tensors s out, sf, s0) /\
    length out = length xs /\
    forall n j, n < length xs -> j < prod s ->
      number out j n = if n + 1 <? p then f0
        else fdiv (fsum (map (fun i => number xs j (n - i)) (seq 0 p))) (f_of_Z (Z.of_nat p)).
Proof.
  intros Hp NE OK. destruct (tensor_positions _ _ _ _ (sma_streams s p Hp) xs NE OK) as (out & sf & s0 & E & L & H).
  exists out, sf, s0. split; [exact E|]. split; [exact L|]. intros n j Hn Hj. rewrite H by assumption.
  unfold sma. rewrite upto_length by (now rewrite numbers_length). replace (n + 1) with (S n) by lia.
  destruct (Nat.ltb_spec (S n) p); [reflexivity|]. now rewrite window_upto by lia.
Qed.
Lemma ema_upto p n xs : p >= 1 -> n < length xs ->
  ema p (upto n xs) = if n + 1 <=? p then sma p (upto n xs)
    else fadd (fmul (nth n xs f0) (f_of_D (ema_factor p)))
              (fmul (ema p (upto (n - 1) xs)) (f_of_D (dsub (d_of_Z 1) (ema_factor p)))).
Proof.
  intros Hp Hn. pose proof (upto_length n xs Hn) as L.
  assert (E : upto n xs = nth n xs f0 :: rev (firstn n xs)) by (apply rev_firstn_S; exact Hn).
  rewrite E in *. cbn [ema]. rewrite L. replace (n + 1) with (S n) by lia.
  destruct (Nat.leb_spec (S n) p); [reflexivity|]. destruct n as [|n].
  - lia.
  - replace (S n - 1) with n by lia. reflexivity.
Qed.
Lemma rma_upto p n xs : p >= 1 -> n < length xs ->
  rma p (upto n xs) = if n + 1 <=? p then sma p (upto n xs)
    else fdiv (fadd (fmul (rma p (upto (n - 1) xs)) (f_of_Z (Z.of_nat p - 1))) (nth n xs f0)) (f_of_Z (Z.of_nat p)).
Proof.
  intros Hp Hn. pose proof (upto_length n xs Hn) as L.
  assert (E : upto n xs = nth n xs f0 :: rev (firstn n xs)) by (apply rev_firstn_S; exact Hn).
  rewrite E in *. cbn [rma]. rewrite L. replace (n + 1) with (S n) by lia.
  destruct (Nat.leb_spec (S n) p); [reflexivity|]. destruct n as [|n].
  - lia.
  - replace (S n - 1) with n by lia. reflexivity.
Qed.
(** The recurrences between positions: [avg] of the outputs, [out] of the simple average. *)
Lemma ema_positions s p xs : p >= 1 -> xs <> [] -> ok_rows s (rev xs) ->
  exists out mean sf s0 sf' s0',
    call (ExponentialMovingAverage (Z.of_nat p)) (tensors s xs) None true = Ok (tensors s out, sf, s0) /\
    call (SimpleMovingAverage (Z.of_nat p)) (tensors s xs) None true = Ok (tensors s mean, sf', s0') /\
    length out = length xs /\
    forall n j, n < length xs -> j < prod s ->
      number out j n = if n + 1 <=? p then number mean j n
        else fadd (fmul (number xs j n) (f_of_D (ema_factor p)))
                  (fmul (number out j (n - 1)) (f_of_D (dsub (d_of_Z 1) (ema_factor p)))).
Proof.
  intros Hp NE OK. destruct (tensor_positions _ _ _ _ (ema_streams s p Hp) xs NE OK) as (out & sf & s0 & E & L & H).
  destruct (tensor_positions _ _ _ _ (sma_streams s p Hp) xs NE OK) as (out' & sf' & s0' & E' & L' & H').
  exists out, out', sf, s0, sf', s0'. split; [exact E|]. split; [exact E'|]. split; [exact L|].
  intros n j Hn Hj. rewrite !H, H' by lia. rewrite ema_upto by (rewrite ?numbers_length; assumption).
  now rewrite nth_numbers by exact Hn.
Qed.
Lemma rma_positions s p xs : p >= 1 -> xs <> [] -> ok_rows s (rev xs) ->
  exists out mean sf s0 sf' s0',
    call (RollingMovingAverage (Z.of_nat p)) (tensors s xs) None true = Ok (tensors s out, sf, s0) /\
    call (SimpleMovingAverage (Z.of_nat p)) (tensors s xs) None true = Ok (tensors s mean, sf', s0') /\
    length out = length xs /\
    forall n j, n < length xs -> j < prod s ->
      number out j n = if n + 1 <=? p then number mean j n
        else fdiv (fadd (fmul (number out j (n - 1)) (f_of_Z (Z.of_nat p - 1))) (number xs j n)) (f_of_Z (Z.of_nat p)).
Proof.
  intros Hp NE OK. destruct (tensor_positions _ _ _ _ (rma_streams s p Hp) xs NE OK) as (out & sf & s0 & E & L & H).
  destruct (tensor_positions _ _ _ _ (sma_streams s p Hp) xs NE OK) as (out' & sf' & s0' & E' & L' & H').
  exists out, out', sf, s0, sf', s0'. split; [exact E|]. split; [exact E'|]. split; [exact L|].
  intros n j Hn Hj. rewrite !H, H' by lia. rewrite rma_upto by (rewrite ?numbers_length; assumption).
  now rewrite nth_numbers by exact Hn.
Qed.
Lemma msd_positions s p xs : p >= 1 -> xs <> [] -> ok_rows s (rev xs) ->
  exists out sf s0, call (MovingStandardDeviation (Z.of_nat p)) (tensors s xs) None true = Ok (tensors s out, sf, s0) /\
    length out = length xs /\
    forall n j, n < length xs -> j < prod s ->
      number out j n = if n + 1 <? p then f0
        else fsqrt (fvar (map (fun i => number xs j (n - i)) (seq 0 p))).
Proof.
  intros Hp NE OK. destruct (tensor_positions _ _ _ _ (msd_streams s p Hp) xs NE OK) as (out & sf & s0 & E & L & H).
  exists out, sf, s0. split; [exact E|]. split; [exact L|]. intros n j Hn Hj. rewrite H by assumption.
  unfold msd. rewrite upto_length by (now rewrite numbers_length). replace (n + 1) with (S n) by lia.
  destruct (Nat.ltb_spec (S n) p); [reflexivity|]. now rewrite window_upto by lia.
Qed.
Lemma bollinger_positions s n k xs : n >= 1 -> xs <> [] -> ok_rows s (rev xs) ->
  exists lower middle upper dev sf s0 sf1 s01 sf2 s02,
    call (BollingerBands (Z.of_nat n) k) (tensors s xs) None true =
      Ok (Tup [tensors s lower; tensors s middle; tensors s upper], sf, s0) /\
    call (SimpleMovingAverage (Z.of_nat n)) (tensors s xs) None true = Ok (tensors s middle, sf1, s01) /\
    call (MovingStandardDeviation (Z.of_nat n)) (tensors s xs) None true = Ok (tensors s dev, sf2, s02) /\
    length lower = length xs /\ length middle = length xs /\ length upper = length xs /\
    forall i j, i < length xs -> j < prod s ->
      number lower j i = fsub (number middle j i) (fmul (number dev j i) (num k)) /\
      number upper j i = fadd (number middle j i) (fmul (number dev j i) (num k)).
Proof.
  intros Hp NE OK. destruct (bollinger_streams s n k Hp) as (st & H & _), (sma_streams s n Hp) as (st1 & H1 & _), (msd_streams s n Hp) as (st2 & H2 & _).
  eexists _, _, _, _, _, _, _, _, _, _. split; [now apply H|]. split; [now apply H1|]. split; [now apply H2|].
  rewrite !map_length, hists_length. repeat (split; [reflexivity|]). intros i j Hi Hj. unfold number.
  rewrite !nth_map_hists by exact Hi. rewrite !each_nth by exact Hj. auto.
Qed.
End Moving.

(** ** Exact arithmetic *)
Local Open Scope R_scope.
(** Series of tensors with finite numbers. *)
Definition fins (xs : list (list R)) : list (list ext) := map (map Fin) xs.
Definition rnumber (xs : list (list R)) (j n : nat) : R := nth j (nth n xs []) 0.
Definition rnumbers (xs : list (list R)) (j : nat) : list R := map (fun r => nth j r 0) xs.
Definition rshaped (s : list nat) (xs : list (list R)) : Prop := Forall (fun r => length r = prod s) xs /\ short xs.
Lemma fins_ok s xs : rshaped s xs -> @ok_rows ER s (rev (fins xs)).
Proof.
  intros [H1 H2]. split.
  - apply Forall_rev. unfold fins. apply Forall_map. eapply Forall_impl; [|exact H1]. intros r Hr. now rewrite map_length.
  - unfold short in *. rewrite rev_length. unfold fins. now rewrite map_length.
Qed.
Lemma fins_numbers xs j : @numbers ER (fins xs) j = map Fin (rnumbers xs j).
Proof.
  unfold numbers, fins, rnumbers. rewrite !map_map. apply map_ext. intros r.
  change (@f0 ER) with (Fin 0). apply (map_nth Fin).
Qed.
Lemma upto_fins n xs j : upto n (@numbers ER (fins xs) j) = map Fin (upto n (rnumbers xs j)).
Proof. rewrite fins_numbers. unfold upto. now rewrite firstn_map, map_rev. Qed.
Lemma fins_length xs : length (fins xs) = length xs.
Proof. apply map_length. Qed.
Lemma rnumbers_length xs j : length (rnumbers xs j) = length xs.
Proof. apply map_length. Qed.
Lemma nth_rnumbers xs j n : nth n (rnumbers xs j) 0 = rnumber xs j n.
Proof.
  unfold rnumbers, rnumber. destruct (Nat.lt_ge_cases n (length xs)) as [H|H].
  - rewrite (nth_indep _ 0 ((fun r => nth j r 0) [])) by (rewrite map_length; exact H). now rewrite (map_nth (fun r => nth j r 0)).
  - rewrite !nth_overflow; [reflexivity|..]; rewrite ?map_length; cbn; try lia.
    rewrite (nth_overflow xs) by lia. cbn. lia.
Qed.
Lemma fins_ne xs : xs <> [] -> fins xs <> [].
Proof. now destruct xs. Qed.
(** All numbers seen up to position [n] are between [lo] and [hi]. *)
Definition seen_between (lo hi : R) (xs : list (list R)) (j n : nat) : Prop :=
  forall i, (i <= n)%nat -> lo <= rnumber xs j i <= hi.
Lemma seen_forall lo hi xs j n : (n < length xs)%nat -> seen_between lo hi xs j n ->
  Forall (between lo hi) (upto n (rnumbers xs j)).
Proof.
  intros Hn H. apply Forall_forall. intros x Hx. apply (upto_in n (rnumbers xs j) 0) in Hx as (i & Hi & <-).
  - rewrite nth_rnumbers. apply H. exact Hi.
  - now rewrite rnumbers_length.
Qed.
Lemma average_between (op : operator) s p (f : list F -> F) xs :
  @streams ER (list ext) op (ok_rows s) (tensors s) (fun hs => tensors s (map (each s f) hs)) ->
  (forall (h : list R) lo hi, (p <= length h)%nat -> Forall (between lo hi) h -> exists e, f (map Fin h) = Fin e /\ between lo hi e) ->
  xs <> [] -> rshaped s xs ->
  exists out sf s0, call op (tensors s (fins xs)) None true = Ok (tensors s out, sf, s0) /\
    length out = length xs /\
    forall n j lo hi, (n < length xs)%nat -> (p <= n + 1)%nat -> (j < prod s)%nat -> seen_between lo hi xs j n ->
      exists e, number out j n = Fin e /\ lo <= e <= hi.
Proof.
  intros ST B NE OK. destruct (tensor_positions _ _ _ _ ST (fins xs) (fins_ne xs NE) (fins_ok s xs OK)) as (out & sf & s0 & E & L & H).
  rewrite fins_length in *. exists out, sf, s0. split; [exact E|]. split; [exact L|].
  intros n j lo hi Hn Hp Hj S. rewrite H by assumption. rewrite upto_fins. apply B.
  - rewrite upto_length by (now rewrite rnumbers_length). lia.
  - now apply seen_forall.
Qed.
Lemma ema_between s p xs : (1 <= p)%nat -> xs <> [] -> rshaped s xs ->
  exists out sf s0, call (@ExponentialMovingAverage ER (Z.of_nat p)) (tensors s (fins xs)) None true = Ok (tensors s out, sf, s0) /\
    length out = length xs /\
    forall n j lo hi, (n < length xs)%nat -> (p <= n + 1)%nat -> (j < prod s)%nat -> seen_between lo hi xs j n ->
      exists e, number out j n = Fin e /\ lo <= e <= hi.
Proof.
  intros Hp NE OK. apply (average_between _ s p (@ema ER p) xs (@ema_streams ER s p Hp)); auto. intros h lo hi L B. apply ema_bounds; [lia|exact B].
Qed.
Lemma rma_between s p xs : (1 <= p)%nat -> xs <> [] -> rshaped s xs ->
  exists out sf s0, call (@RollingMovingAverage ER (Z.of_nat p)) (tensors s (fins xs)) None true = Ok (tensors s out, sf, s0) /\
    length out = length xs /\
    forall n j lo hi, (n < length xs)%nat -> (p <= n + 1)%nat -> (j < prod s)%nat -> seen_between lo hi xs j n ->
      exists e, number out j n = Fin e /\ lo <= e <= hi.
Proof.
  intros Hp NE OK. apply (average_between _ s p (@rma ER p) xs (@rma_streams ER s p Hp)); auto. intros h lo hi L B. apply rma_bounds; [lia|exact B].
Qed.
Lemma sma_between s p xs : (1 <= p)%nat -> xs <> [] -> rshaped s xs ->
  exists out sf s0, call (@SimpleMovingAverage ER (Z.of_nat p)) (tensors s (fins xs)) None true = Ok (tensors s out, sf, s0) /\
    length out = length xs /\
    forall n j lo hi, (n < length xs)%nat -> (p <= n + 1)%nat -> (j < prod s)%nat -> seen_between lo hi xs j n ->
      exists e, number out j n = Fin e /\ lo <= e <= hi.
Proof.
  intros Hp NE OK. apply (average_between _ s p (@sma ER p) xs (@sma_streams ER s p Hp)); auto. intros h lo hi L B. apply sma_bounds; [lia|exact B].
Qed.
Lemma rma_never_negative s p xs : (1 <= p)%nat -> xs <> [] -> rshaped s xs ->
  (forall i j, 0 <= rnumber xs j i) ->
  exists out sf s0, call (@RollingMovingAverage ER (Z.of_nat p)) (tensors s (fins xs)) None true = Ok (tensors s out, sf, s0) /\
    length out = length xs /\
    forall n j, (n < length xs)%nat -> (j < prod s)%nat -> exists e, number out j n = Fin e /\ 0 <= e.
Proof.
  intros Hp NE OK NN. destruct (@tensor_positions ER _ _ _ _ (@rma_streams ER s p Hp) (fins xs) (fins_ne xs NE) (fins_ok s xs OK)) as (out & sf & s0 & E & L & H).
  rewrite fins_length in *. exists out, sf, s0. split; [exact E|]. split; [exact L|].
  intros n j Hn Hj. rewrite H by assumption. rewrite upto_fins. apply rma_nonneg; [exact Hp|].
  apply Forall_forall. intros x Hx. apply (upto_in n (rnumbers xs j) 0) in Hx as (i & Hi & <-).
  - rewrite nth_rnumbers. apply NN.
  - now rewrite rnumbers_length.
Qed.
(** Standard deviation. *)
Definition shifted (c : R) (xs : list (list R)) : list (list R) := map (map (fun x => x + c)) xs.
Definition rwindow (p : nat) (xs : list (list R)) (j n : nat) : list R := map (fun i => rnumber xs j (n - i)) (seq 0 p).
Lemma rwindow_upto p n xs j : (p <= S n)%nat -> (n < length xs)%nat -> firstn p (upto n (rnumbers xs j)) = rwindow p xs j n.
Proof.
  intros H1 H2. rewrite (firstn_upto p n (rnumbers xs j) 0) by (rewrite ?rnumbers_length; lia).
  apply map_ext. intros i. apply nth_rnumbers.
Qed.
Lemma msd_laws s p xs : (1 <= p)%nat -> xs <> [] -> rshaped s xs ->
  exists out sf s0, call (@MovingStandardDeviation ER (Z.of_nat p)) (tensors s (fins xs)) None true = Ok (tensors s out, sf, s0) /\
    length out = length xs /\
    forall n j, (n < length xs)%nat -> (j < prod s)%nat ->
      exists e, number out j n = Fin e /\ 0 <= e /\ 
        ((n + 1 < p)%nat -> e = 0) /\
        ((p <= n + 1)%nat -> e = sqrt (rvar (rwindow p xs j n))) /\
        ((p <= n + 1)%nat -> e = 0 <-> constant (rwindow p xs j n)).
Proof.
  intros Hp NE OK. destruct (@tensor_positions ER _ _ _ _ (@msd_streams ER s p Hp) (fins xs) (fins_ne xs NE) (fins_ok s xs OK)) as (out & sf & s0 & E & L & H).
  rewrite fins_length in *. exists out, sf, s0. split; [exact E|]. split; [exact L|].
  intros n j Hn Hj. rewrite H by assumption. rewrite upto_fins.
  destruct (msd_nonneg p (upto n (rnumbers xs j)) Hp) as (e' & E' & P').
  exists e'. rewrite E'. split; [reflexivity|]. split; [exact P'|].
  pose proof (upto_length n (rnumbers xs j)) as U. rewrite rnumbers_length in U. specialize (U Hn). split; [|split].
  - intros K. rewrite msd_early in E' by lia. now injection E'.
  - intros K. rewrite msd_fin in E' by lia. injection E' as <-. now rewrite rwindow_upto by lia.
  - intros K. rewrite <- (rwindow_upto p n xs j) by lia. rewrite <- msd_zero by lia. rewrite E'. split; [now intros ->|now injection 1].
Qed.
(** Adding a constant to the whole series changes no output. *)
Lemma rnumbers_shifted c xs j s : Forall (fun r => length r = prod s) xs -> (j < prod s)%nat ->
  rnumbers (shifted c xs) j = map (fun x => x + c) (rnumbers xs j).
Proof.
  intros H Hj. unfold rnumbers, shifted. rewrite !map_map. apply map_ext_in. intros r Hr.
  rewrite Forall_forall in H. specialize (H r Hr).
  rewrite (nth_indep _ 0 (0 + c)) by (rewrite map_length; lia). apply (map_nth (fun x => x + c)).
Qed.
Lemma shifted_ok s c xs : rshaped s xs -> rshaped s (shifted c xs).
Proof.
  intros [H1 H2]. unfold shifted. split.
  - apply Forall_map. eapply Forall_impl; [|exact H1]. intros r Hr. now rewrite map_length.
  - unfold short in *. now rewrite map_length.
Qed.
Lemma msd_invariant s p c xs : (1 <= p)%nat -> xs <> [] -> rshaped s xs ->
  exists out sf s0 sf' s0',
    call (@MovingStandardDeviation ER (Z.of_nat p)) (tensors s (fins xs)) None true = Ok (tensors s out, sf, s0) /\
    call (@MovingStandardDeviation ER (Z.of_nat p)) (tensors s (fins (shifted c xs))) None true = Ok (tensors s out, sf', s0').
Proof.
  intros Hp NE OK. assert (OK' := shifted_ok s c xs OK). assert (NE' : shifted c xs <> []) by (now destruct xs).
  destruct (@msd_streams ER s p Hp) as (st & H & _).
  exists (map (each s (@msd ER p)) (hists [] (fins xs))). eexists _, _, _, _.
  split; [apply H; [now apply fins_ne|now apply fins_ok]|].
  etransitivity; [apply H; [now apply fins_ne|now apply fins_ok]|]. do 4 f_equal.
  apply (nth_ext _ _ [] []); [rewrite !map_length, !hists_length; unfold fins, shifted; now rewrite !map_length|].
  intros n Hn. rewrite map_length, hists_length, fins_length in Hn. unfold shifted in Hn. rewrite map_length in Hn.
  assert (Ln : (n < length (fins (shifted c xs)))%nat) by (unfold fins, shifted; now rewrite !map_length).
  rewrite !nth_map_hists by (rewrite ?fins_length in *; assumption). unfold each. apply map_ext_in. intros j Hj. apply in_seq in Hj.
  rewrite !column_upto, !upto_fins. rewrite (rnumbers_shifted c xs j s) by (try apply OK; lia).
  replace (upto n (map (fun x => x + c) (rnumbers xs j))) with (map (fun x => x + c) (upto n (rnumbers xs j))) by (unfold upto; now rewrite firstn_map, map_rev).
  now apply msd_shift.
Qed.
Lemma bollinger_order s p k xs : (1 <= p)%nat -> 0 <= k -> xs <> [] -> rshaped s xs ->
  exists lower middle upper sf s0,
    call (@BollingerBands ER (Z.of_nat p) (@PyFloat ER k)) (tensors s (fins xs)) None true =
      Ok (Tup [tensors s lower; tensors s middle; tensors s upper], sf, s0) /\
    length lower = length xs /\ length middle = length xs /\ length upper = length xs /\
    forall n j, (n < length xs)%nat -> (j < prod s)%nat ->
      exists l m u, number lower j n = Fin l /\ number middle j n = Fin m /\ number upper j n = Fin u /\ l <= m <= u.
Proof.
  intros Hp Hk NE OK. destruct (@bollinger_streams ER s p (@PyFloat ER k) Hp) as (st & H & _).
  eexists _, _, _, _, _. split; [apply H; [now apply fins_ne|now apply fins_ok]|].
  rewrite !map_length, hists_length, fins_length. repeat (split; [reflexivity|]). intros n j Hn Hj. unfold number.
  rewrite !nth_map_hists by (now rewrite fins_length). rewrite !each_nth by exact Hj. rewrite column_upto, upto_fins.
  apply bands; assumption.
Qed.
