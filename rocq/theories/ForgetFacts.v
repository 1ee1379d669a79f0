(** * ForgetFacts: the operators that never forget (C83). *)
From Coq Require Import Reals Lra List ZArith Bool Lia.
From Verif Require Import Num Py Tensor Streamable Common Finance Series Formulas Positions ER Linear RealFacts RealMarket RealLinear MarketReal Steady
  Agree AgreeFacts Halt HaltFacts HaltMarket Rise RiseFacts FallFacts Fading.
Import ListNotations.
Local Open Scope R_scope.

(** [p] numbers [a], then [k] numbers [b]. *)
Definition stair (a b : R) (p k : nat) : list R := repeat a p ++ repeat b k.
Lemma stair_at a b p k i : (i < p + k)%nat -> at_pos (stair a b p k) i = if (i <? p)%nat then a else b.
Proof.
  intros H. unfold at_pos, stair. destruct (Nat.ltb_spec i p) as [L|L].
  - rewrite app_nth1 by (rewrite repeat_length; exact L). rewrite (nth_indep _ 0 a) by (rewrite repeat_length; exact L). apply nth_repeat.
  - rewrite app_nth2 by (rewrite repeat_length; exact L). rewrite repeat_length. rewrite (nth_indep _ 0 b) by (rewrite repeat_length; lia). apply nth_repeat.
Qed.
Lemma stair_length a b p k : length (stair a b p k) = (p + k)%nat.
Proof. unfold stair. now rewrite app_length, !repeat_length. Qed.
Lemma stair_countable a b p k : (1 <= p)%nat -> (Z.of_nat (p + k) < 2147483648)%Z -> countable (stair a b p k).
Proof. intros Hp H. split; [|now rewrite stair_length]. unfold stair. destruct p; [lia|discriminate]. Qed.
Lemma stair_bounded M a b p k : Rabs a <= M -> Rabs b <= M -> bounded M (stair a b p k).
Proof. intros A B. apply Forall_app. split; apply Forall_forall; intros x Hx; apply repeat_spec in Hx; now rewrite Hx. Qed.
Lemma stair_rising a b p k : a <= b -> rising (stair a b p k).
Proof. intros H n L. rewrite stair_length in L. rewrite !stair_at by lia. destruct (Nat.ltb_spec n p), (Nat.ltb_spec (S n) p); lra || lia. Qed.
Lemma stair_falling a b p k : b <= a -> falling (stair a b p k).
Proof. intros H n L. rewrite stair_length in L. rewrite !stair_at by lia. destruct (Nat.ltb_spec n p), (Nat.ltb_spec (S n) p); lra || lia. Qed.

Ltac small := unfold Rabs; destruct (Rcase_abs _); lra.
Theorem strength_remembers p K : (2 <= p)%nat -> (Z.of_nat (p + S K) < 2147483648)%Z ->
  exists xs ys zs (index index' : list ext) sf s0 sf' s0', bounded 2 (xs ++ zs) /\ bounded 2 (ys ++ zs) /\ length zs = S K /\
    call (RelativeStrengthIndex (Z.of_nat p)) (reals (xs ++ zs)) None true = Ok (@scalars ER index, sf, s0) /\
    call (RelativeStrengthIndex (Z.of_nat p)) (reals (ys ++ zs)) None true = Ok (@scalars ER index', sf', s0') /\
    nth (length xs + K) index NaN = Fin 100 /\ nth (length ys + K) index' NaN = Fin 0.
Proof.
  intros Hp Hb. exists (repeat 0 p), (repeat 2 p), (repeat 1 (S K)).
  destruct (strength_rise p (stair 0 1 p (S K)) Hp) as (i1 & sf & s0 & E & L & H); [apply stair_countable; [lia|exact Hb]|apply stair_rising; lra|].
  destruct (strength_fall p (stair 2 1 p (S K)) Hp) as (i2 & sf' & s0' & E' & L' & H'); [apply stair_countable; [lia|exact Hb]|apply stair_falling; lra|].
  exists i1, i2, sf, s0, sf', s0'. split; [apply (stair_bounded 2 0 1); small|]. split; [apply (stair_bounded 2 2 1); small|]. split; [apply repeat_length|].
  split; [exact E|]. split; [exact E'|]. rewrite !repeat_length. rewrite stair_length in H, H'. clear E E' Hb. split.
  - rewrite H by lia. rewrite !stair_at by lia. destruct (Nat.ltb_spec 0 p); [|lia]. destruct (Nat.ltb_spec (p + K) p); [lia|]. destruct (Rlt_dec 0 1); [reflexivity|lra].
  - rewrite H' by lia. rewrite !stair_at by lia. destruct (Nat.ltb_spec 0 p); [|lia]. destruct (Nat.ltb_spec (p + K) p); [lia|]. destruct (Rlt_dec 1 2); [reflexivity|lra].
Qed.
Theorem drawdown_remembers K : (Z.of_nat (1 + S K) < 2147483648)%Z ->
  exists xs ys zs depths depths' sf s0 sf' s0', bounded 2 (xs ++ zs) /\ bounded 2 (ys ++ zs) /\ length zs = S K /\
    call Drawdown (reals (xs ++ zs)) None true = Ok (drawdown_reals depths, sf, s0) /\
    call Drawdown (reals (ys ++ zs)) None true = Ok (drawdown_reals depths', sf', s0') /\
    fst (nth (length xs + K) depths (0, 0%Z)) = - (1 / 2) /\ fst (nth (length ys + K) depths' (0, 0%Z)) = 0.
Proof.
  intros Hb. exists (repeat 2 1), (repeat 1 1), (repeat 1 (S K)).
  destruct (drawdown_fall (stair 2 1 1 (S K))) as (i1 & sf & s0 & E & L & H); [apply stair_countable; [lia|exact Hb]|apply stair_falling; lra|rewrite stair_at by lia; cbn; lra|].
  destruct (drawdown_fall (stair 1 1 1 (S K))) as (i2 & sf' & s0' & E' & L' & H'); [apply stair_countable; [lia|exact Hb]|apply stair_falling; lra|rewrite stair_at by lia; cbn; lra|].
  exists i1, i2, sf, s0, sf', s0'. split; [apply (stair_bounded 2 2 1); small|]. split; [apply (stair_bounded 2 1 1); small|]. split; [apply repeat_length|].
  split; [exact E|]. split; [exact E'|]. rewrite !repeat_length. rewrite stair_length in H, H'. clear E E' Hb. split.
  - rewrite H by lia. rewrite !stair_at by lia. destruct (Nat.ltb_spec 0 1); [|lia]. destruct (Nat.ltb_spec (1 + K) 1); [lia|]. cbn [fst]. field.
  - rewrite H' by lia. rewrite !stair_at by lia. destruct (Nat.ltb_spec 0 1); [|lia]. destruct (Nat.ltb_spec (1 + K) 1); [lia|]. cbn [fst]. field.
Qed.
Theorem extrema_remember K : (Z.of_nat (1 + S K) < 2147483648)%Z ->
  exists xs ys zs low low' high high', bounded 2 (xs ++ zs) /\ bounded 2 (ys ++ zs) /\ length zs = S K /\
    outputs GlobalMinimum (xs ++ zs) low /\ outputs GlobalMinimum (ys ++ zs) low' /\ outputs GlobalMaximum (xs ++ zs) high /\ outputs GlobalMaximum (ys ++ zs) high' /\
    at_pos low (length xs + K) = 0 /\ at_pos low' (length ys + K) = 1 /\ at_pos high (length xs + K) = 1 /\ at_pos high' (length ys + K) = 2.
Proof.
  intros Hb. exists (repeat 0 1), (repeat 2 1), (repeat 1 (S K)).
  destruct (extrema_rise 1 (stair 0 1 1 (S K))) as (g1 & g2 & l1 & l2 & mo & E1 & E2 & _ & _ & _ & H); [lia|reflexivity|apply stair_countable; [lia|exact Hb]|apply stair_rising; lra|].
  destruct (extrema_fall 1 (stair 2 1 1 (S K))) as (g3 & g4 & l3 & l4 & mo2 & E3 & E4 & _ & _ & _ & H'); [lia|reflexivity|apply stair_countable; [lia|exact Hb]|apply stair_falling; lra|].
  exists g1, g3, g2, g4. split; [apply (stair_bounded 2 0 1); small|]. split; [apply (stair_bounded 2 2 1); small|]. split; [apply repeat_length|].
  split; [exact E1|]. split; [exact E3|]. split; [exact E2|]. split; [exact E4|]. rewrite !repeat_length. rewrite stair_length in H, H'. clear E1 E2 E3 E4 Hb.
  destruct (H (1 + K)%nat) as (A & B & _); [lia|]. destruct (H' (1 + K)%nat) as (C & D & _); [lia|]. rewrite !stair_at in A, B, C, D by lia.
  destruct (Nat.ltb_spec 0 1); [|lia]. destruct (Nat.ltb_spec (1 + K) 1); [lia|]. auto.
Qed.
