(** * Halt: vocabulary of property C78 (what the indicators say once the prices stop moving, exact arithmetic).  Nothing here models code of /repo. *)
From Coq Require Import Reals List ZArith.
From Verif Require Import Num ER RealMarket Agree.
Import ListNotations.
Local Open Scope R_scope.

(** From position [n] on, all numbers of the series are [c]. *)
Definition halts (xs : list R) (n : nat) (c : R) : Prop := (n < length xs)%nat /\ forall i, (n <= i < length xs)%nat -> at_pos xs i = c.
(** From position [n] on, nothing is traded at another price than [c] (the opening prices do not matter). *)
Definition bars_halt (xs : list rcandle) (n : nat) (c : R) : Prop :=
  (n < length xs)%nat /\ forall i b, (n <= i)%nat -> nth_error xs i = Some b -> r_high b = c /\ r_low b = c /\ r_close b = c.
