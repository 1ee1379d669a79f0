(** * Compound: proofs of C62 — changes over several periods are made of the changes of one period (exact arithmetic). *)
From Coq Require Import Reals Lra Lia List ZArith Bool.
From Verif Require Import Num Py Tensor Streamable Meta Common Finance Series Formulas Positions B32 ER Linear MovingFacts ReturnFacts ZeroFacts SignPos.
Import ListNotations.
Local Open Scope R_scope.

Definition product (l : list R) : R := fold_right Rmult 1 l.
Definition total (l : list R) : R := fold_right Rplus 0 l.

Section S.
Context (xs : list R).
Let x n := nth n xs 0.
Lemma nth_fin n : (n < length xs)%nat -> nth n (map Fin xs) (Fin 0) = Fin (x n).
Proof. intros H. unfold x. change (Fin 0) with (Fin 0). now rewrite map_nth. Qed.

Definition change_at (g : R -> R) (p n : nat) : R := if (n <? p)%nat then 0 else g (x n / x (n - p)).
Definition changes (g : R -> R) (p : nat) : list R := map (change_at g p) (seq 0 (length xs)).
Lemma changes_length g p : length (changes g p) = length xs.
Proof. unfold changes. now rewrite map_length, seq_length. Qed.
Lemma changes_nth g p n : (n < length xs)%nat -> nth n (changes g p) 0 = change_at g p n.
Proof.
  intros H. unfold changes. rewrite (nth_indep _ 0 (change_at g p 0)) by (rewrite map_length, seq_length; lia).
  rewrite map_nth, seq_nth by lia. reflexivity.
Qed.
Lemma prices n : Forall (fun r => r <> 0) xs -> (n < length xs)%nat -> x n <> 0.
Proof. intros H Hn. rewrite Forall_forall in H. apply H, nth_In. exact Hn. Qed.

Lemma return_reals p : (1 <= p)%nat -> xs <> [] -> short xs -> Forall (fun r => r <> 0) xs ->
  exists sf s0, call (@Return ER (Z.of_nat p)) (reals xs) None true = Ok (reals (changes (fun q => q - 1) p), sf, s0).
Proof.
  intros Hp NE Sh Nz. destruct zero_facts as [_ [Z0 _]].
  destruct (@ret_positions ER p (map Fin xs)) as (out & sf & s0 & E & L & H);
    [exact Hp|exact Z0|intros E; apply NE; destruct xs; [reflexivity|discriminate]|unfold short in *; rewrite rev_length, map_length; exact Sh|].
  exists sf, s0. unfold reals. rewrite E. repeat f_equal. rewrite map_length in L. apply (nth_ext _ _ (Fin 0) (Fin 0)); [rewrite map_length, changes_length; exact L|].
  intros n Hn0. assert (Hn : (n < length xs)%nat) by (rewrite <- L; exact Hn0). specialize (H n). rewrite map_length in H. specialize (H Hn).
  transitivity (@nth ext n out (Fin 0)); [reflexivity|]. etransitivity; [exact H|].
  rewrite (map_nth Fin), changes_nth by exact Hn. unfold change_at. destruct (Nat.ltb_spec n p) as [Hlt|Hge]; [reflexivity|].
  cbn [orb]. change (@f0 ER) with (Fin 0). rewrite !nth_fin by lia. assert (P : x (n - p) <> 0) by (apply prices; [exact Nz|lia]).
  cbn [feq ER e_eq fsub fdiv f1]. unfold e_eq, e_div.
  destruct (Req_EM_T (x (n - p)) 0) as [F|_]; [contradiction|].
  unfold Reqb. destruct (Req_EM_T (x (n - p)) 0) as [F|_]; [contradiction|]. reflexivity.
Qed.
Lemma log_return_reals p : (1 <= p)%nat -> xs <> [] -> short xs -> Forall (fun r => 0 < r) xs ->
  exists sf s0, call (@LogarithmicReturn ER (Z.of_nat p)) (reals xs) None true = Ok (reals (changes ln p), sf, s0).
Proof.
  intros Hp NE Sh Nz. destruct zero_facts as [_ [Z0 _]].
  destruct (@log_ret_positions ER p (map Fin xs)) as (out & sf & s0 & E & L & H);
    [exact Hp|exact Z0|intros E; apply NE; destruct xs; [reflexivity|discriminate]|unfold short in *; rewrite rev_length, map_length; exact Sh|].
  exists sf, s0. unfold reals. rewrite E. repeat f_equal. rewrite map_length in L. apply (nth_ext _ _ (Fin 0) (Fin 0)); [rewrite map_length, changes_length; exact L|].
  intros n Hn0. assert (Hn : (n < length xs)%nat) by (rewrite <- L; exact Hn0). specialize (H n). rewrite map_length in H. specialize (H Hn).
  transitivity (@nth ext n out (Fin 0)); [reflexivity|]. etransitivity; [exact H|].
  rewrite (map_nth Fin), changes_nth by exact Hn. unfold change_at. destruct (Nat.ltb_spec n p) as [Hlt|Hge]; [reflexivity|].
  cbn [orb]. change (@f0 ER) with (Fin 0). rewrite !nth_fin by lia.
  assert (P : 0 < x (n - p)) by (rewrite Forall_forall in Nz; apply Nz, nth_In; lia).
  assert (Q : 0 < x n) by (rewrite Forall_forall in Nz; apply Nz, nth_In; lia).
  cbn [feq ER e_eq fdiv flog]. unfold e_eq, e_div.
  destruct (Req_EM_T (x (n - p)) 0) as [F|_]; [lra|].
  unfold Reqb. destruct (Req_EM_T (x (n - p)) 0) as [F|_]; [lra|]. unfold e_log.
  destruct (Rlt_dec 0 (x n / x (n - p))) as [_|F]; [reflexivity|]. exfalso. apply F. apply Rdiv_lt_0_compat; assumption.
Qed.
End S.

Lemma ln_quot a b : 0 < a -> 0 < b -> ln (a / b) = ln a - ln b.
Proof. intros A B. unfold Rdiv. rewrite ln_mult; [|exact A|now apply Rinv_0_lt_compat]. rewrite ln_Rinv by exact B. lra. Qed.
(** Quotients of neighbours multiply to the quotient over [p] places. *)
Lemma quotients x n p : (p <= n)%nat -> (forall i, (i <= n)%nat -> x i <> 0) ->
  product (map (fun i => x (n - i)%nat / x (n - i - 1)%nat) (seq 0 p)) = x n / x (n - p)%nat.
Proof.
  intros Hp Nz. induction p as [|p IH].
  - cbn. replace (n - 0)%nat with n by lia. field. now apply Nz.
  - rewrite seq_S, map_app. cbn [map]. unfold product. rewrite fold_right_app. cbn [fold_right Nat.add].
    assert (G : forall l a, fold_right Rmult a l = fold_right Rmult 1 l * a).
    { induction l as [|y l IHl]; intros a; cbn; [lra|]. rewrite IHl. lra. }
    rewrite G. unfold product in IH. rewrite IH by lia. replace (n - S p)%nat with (n - p - 1)%nat by lia.
    field. split; apply Nz; lia.
Qed.
Lemma differences x n p : (p <= n)%nat -> total (map (fun i => x (n - i)%nat - x (n - i - 1)%nat) (seq 0 p)) = x n - x (n - p)%nat.
Proof.
  intros Hp. induction p as [|p IH].
  - cbn. replace (n - 0)%nat with n by lia. lra.
  - rewrite seq_S, map_app. cbn [map]. unfold total. rewrite fold_right_app. cbn [fold_right Nat.add].
    assert (G : forall l a, fold_right Rplus a l = fold_right Rplus 0 l + a).
    { induction l as [|y l IHl]; intros a; cbn; [lra|]. rewrite IHl. lra. }
    rewrite G. unfold total in IH. rewrite IH by lia. replace (n - S p)%nat with (n - p - 1)%nat by lia. lra.
Qed.

Theorem returns_compound p xs : (1 <= p)%nat -> xs <> [] -> short xs -> Forall (fun r => r <> 0) xs ->
  exists rp r1 sf s0 sf' s0',
    call (@Return ER (Z.of_nat p)) (reals xs) None true = Ok (reals rp, sf, s0) /\
    call (@Return ER 1) (reals xs) None true = Ok (reals r1, sf', s0') /\ length rp = length xs /\ length r1 = length xs /\
    forall n, (n < length xs)%nat ->
      nth n xs 0 = nth 0 xs 0 * product (map (fun i => 1 + nth (n - i) r1 0) (seq 0 n)) /\
      (if (n <? p)%nat then nth n rp 0 = 0 else 1 + nth n rp 0 = product (map (fun i => 1 + nth (n - i) r1 0) (seq 0 p))).
Proof.
  intros Hp NE Sh Nz. destruct (return_reals xs p Hp NE Sh Nz) as (sf & s0 & E). destruct (return_reals xs 1 (le_n 1) NE Sh Nz) as (sf' & s0' & E').
  exists (changes xs (fun q => q - 1) p), (changes xs (fun q => q - 1) 1), sf, s0, sf', s0'.
  split; [exact E|]. split; [exact E'|]. split; [apply changes_length|]. split; [apply changes_length|]. intros n Hn.
  assert (Q : forall q, (q <= n)%nat -> product (map (fun i => 1 + nth (n - i) (changes xs (fun q => q - 1) 1) 0) (seq 0 q)) = nth n xs 0 / nth (n - q) xs 0).
  { intros q Hq. rewrite <- (quotients (fun i => nth i xs 0) n q Hq) by (intros i Hi; apply prices; [exact Nz|lia]).
    f_equal. apply map_ext_in. intros i Hi. apply in_seq in Hi. rewrite changes_nth by lia. unfold change_at.
    destruct (Nat.ltb_spec (n - i) 1); [lia|]. lra. }
  split.
  - rewrite Q by lia. replace (n - n)%nat with 0%nat by lia. field. apply prices; [exact Nz|lia].
  - rewrite changes_nth by exact Hn. unfold change_at. destruct (Nat.ltb_spec n p); [reflexivity|]. rewrite Q by lia. lra.
Qed.
Theorem log_returns_add p xs : (1 <= p)%nat -> xs <> [] -> short xs -> Forall (fun r => 0 < r) xs ->
  exists lp l1 rp sf s0 sf' s0' sf'' s0'',
    call (@LogarithmicReturn ER (Z.of_nat p)) (reals xs) None true = Ok (reals lp, sf, s0) /\
    call (@LogarithmicReturn ER 1) (reals xs) None true = Ok (reals l1, sf', s0') /\
    call (@Return ER (Z.of_nat p)) (reals xs) None true = Ok (reals rp, sf'', s0'') /\
    length lp = length xs /\ length l1 = length xs /\ length rp = length xs /\
    forall n, (n < length xs)%nat -> 1 + nth n rp 0 = exp (nth n lp 0) /\
      (if (n <? p)%nat then nth n lp 0 = 0 else nth n lp 0 = total (map (fun i => nth (n - i) l1 0) (seq 0 p))).
Proof.
  intros Hp NE Sh Nz. assert (Nz' : Forall (fun r => r <> 0) xs) by (eapply Forall_impl; [|exact Nz]; cbn; intros; lra).
  destruct (log_return_reals xs p Hp NE Sh Nz) as (sf & s0 & E). destruct (log_return_reals xs 1 (le_n 1) NE Sh Nz) as (sf' & s0' & E').
  destruct (return_reals xs p Hp NE Sh Nz') as (sf'' & s0'' & E'').
  exists (changes xs ln p), (changes xs ln 1), (changes xs (fun q => q - 1) p), sf, s0, sf', s0', sf'', s0''.
  split; [exact E|]. split; [exact E'|]. split; [exact E''|]. split; [apply changes_length|]. split; [apply changes_length|]. split; [apply changes_length|].
  intros n Hn. assert (P : forall i, (i <= n)%nat -> 0 < nth i xs 0) by (intros i Hi; rewrite Forall_forall in Nz; apply Nz, nth_In; lia).
  rewrite !changes_nth by exact Hn. unfold change_at. destruct (Nat.ltb_spec n p) as [Hlt|Hge].
  - split; [rewrite exp_0; lra|reflexivity].
  - assert (Pn := P n (le_n n)). assert (Pp := P (n - p)%nat ltac:(lia)). split.
    + rewrite exp_ln by (apply Rdiv_lt_0_compat; assumption). lra.
    + rewrite ln_quot by assumption. rewrite <- (differences (fun i => ln (nth i xs 0)) n p Hge). f_equal. apply map_ext_in. intros i Hi.
      apply in_seq in Hi. rewrite changes_nth by lia. unfold change_at. destruct (Nat.ltb_spec (n - i) 1); [lia|]. rewrite ln_quot by (apply P; lia). reflexivity.
Qed.
Theorem momentum_adds s p xs : (1 <= p)%nat -> xs <> [] -> rshaped s xs ->
  exists mp m1 sf s0 sf' s0',
    call (@Momentum ER (Z.of_nat p)) (tensors s (fins xs)) None true = Ok (tensors s mp, sf, s0) /\
    call (@Momentum ER 1) (tensors s (fins xs)) None true = Ok (tensors s m1, sf', s0') /\ length mp = length xs /\ length m1 = length xs /\
    forall n j, (n < length xs)%nat -> (j < prod s)%nat -> exists v w,
      number mp j n = Fin v /\ (forall i, (i < length xs)%nat -> number m1 j i = Fin (w i)) /\
      (if (n <? p)%nat then v = 0 else v = total (map (fun i => w (n - i)%nat) (seq 0 p))).
Proof.
  intros Hp NE OK.
  assert (NE' : fins xs <> []) by (intros E; apply NE; destruct xs; [reflexivity|discriminate]).
  assert (LF : length (fins xs) = length xs) by (unfold fins; apply map_length).
  destruct (@momentum_positions ER s p (fins xs) Hp NE' (fins_ok s xs OK)) as (mp & sf & s0 & E & L & H).
  destruct (@momentum_positions ER s 1 (fins xs) (le_n 1) NE' (fins_ok s xs OK)) as (m1 & sf' & s0' & E' & L' & H').
  assert (V : forall j i, (i < length xs)%nat -> (j < prod s)%nat -> @number ER (fins xs) j i = Fin (rnumber xs j i)).
  { intros j i Hi Hj. destruct OK as [O _]. unfold number, rnumber, fins. rewrite (nth_indep _ _ (map Fin [])) by (rewrite map_length; lia).
    rewrite (map_nth (map Fin)). rewrite (nth_indep _ _ (Fin 0)); [apply map_nth|]. rewrite map_length.
    rewrite Forall_forall in O. rewrite (O (nth i xs [])); [exact Hj|]. apply nth_In. exact Hi. }
  exists mp, m1, sf, s0, sf', s0'. split; [exact E|]. split; [exact E'|]. split; [rewrite L; exact LF|]. split; [rewrite L'; exact LF|].
  intros n j Hn Hj. assert (K : forall i, (i < length xs)%nat -> (i < length (fins xs))%nat) by (intros i Hi; rewrite LF; exact Hi).
  exists (if (n <? p)%nat then 0 else rnumber xs j n - rnumber xs j (n - p)), (fun i => if (i <? 1)%nat then 0 else rnumber xs j i - rnumber xs j (i - 1)).
  split; [|split].
  - rewrite (H n j (K n Hn) Hj). destruct (Nat.ltb_spec n p); [reflexivity|]. rewrite !V by lia. reflexivity.
  - intros i Hi. rewrite (H' i j (K i Hi) Hj). destruct (Nat.ltb_spec i 1); [reflexivity|]. rewrite !V by lia. reflexivity.
  - destruct (Nat.ltb_spec n p) as [Hlt|Hge]; [reflexivity|]. rewrite <- (differences (fun i => rnumber xs j i) n p Hge). f_equal.
    apply map_ext_in. intros i Hi. apply in_seq in Hi. destruct (Nat.ltb_spec (n - i) 1); [lia|reflexivity].
Qed.

Lemma momenta_do_not_add log32 : let N := B32 log32 in let xs := [b32_of_Z 0; b32_of_Z 1; b32_of_Z 16777218] in
  exists m2 m1 sf s0 sf' s0',
    @call N (@Momentum N 2) (@scalars N xs) None true = Ok (@scalars N m2, sf, s0) /\
    @call N (@Momentum N 1) (@scalars N xs) None true = Ok (@scalars N m1, sf', s0') /\
    nth 2 m2 (b32_of_Z 0) = b32_of_Z 16777218 /\ @fadd N (nth 2 m1 (b32_of_Z 0)) (nth 1 m1 (b32_of_Z 0)) = b32_of_Z 16777216.
Proof.
  cbv zeta. exists [b32_of_Z 0; b32_of_Z 0; b32_of_Z 16777218], [b32_of_Z 0; b32_of_Z 1; b32_of_Z 16777216].
  set (r2 := @call _ (@Momentum _ 2) _ _ _). set (r1 := @call _ (@Momentum _ 1) _ _ _).
  exists (state_of r2), (start_of r2), (state_of r1), (start_of r1).
  split; [vm_cast_no_check (@eq_refl _ r2)|]. split; [vm_cast_no_check (@eq_refl _ r1)|]. split; reflexivity.
Qed.
