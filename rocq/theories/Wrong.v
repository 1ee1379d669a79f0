(** * Wrong: vocabulary of property C84 (what one wrong number does, exact arithmetic).  Nothing here models code of /repo. *)
From Coq Require Import Reals List ZArith Bool.
From Verif Require Import Num ER Agree.
Import ListNotations.
Local Open Scope R_scope.

(** [ys] is [xs] but for the number at position [n], which is off by [e]. *)
Definition one_wrong (xs ys : list R) (n : nat) (e : R) : Prop :=
  length ys = length xs /\ (n < length xs)%nat /\ forall i, (i < length xs)%nat -> at_pos ys i = at_pos xs i + if (i =? n)%nat then e else 0.
(** The error at position [m] of an exponential average of [p] numbers when the number at position [n] is off by [e]: none before the wrong number and before the average starts;
    2 e / (p + 1) at position [n] and (p - 1) / (p + 1) of the previous error from then on; if [n] is among the first [p] numbers, e / p at position [p - 1] to begin with. *)
Definition ema_error (p n : nat) (e : R) (m : nat) : R :=
  if ((m <? n) || (m + 1 <? p))%nat then 0 else
  if (n <? p)%nat then ((INR p - 1) / (INR p + 1)) ^ (m + 1 - p) * (e / INR p) else ((INR p - 1) / (INR p + 1)) ^ (m - n) * (2 * e / (INR p + 1)).
