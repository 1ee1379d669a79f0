(** * Rise: vocabulary of properties C80 and C82 (what the indicators say while the prices only rise, or only fall, exact arithmetic).  Nothing here models code of /repo. *)
From Coq Require Import Reals List ZArith.
From Verif Require Import Num ER Agree.
Import ListNotations.
Local Open Scope R_scope.

(** No number is below the one before it. *)
Definition rising (xs : list R) : Prop := forall n, (S n < length xs)%nat -> at_pos xs n <= at_pos xs (S n).
(** No number is above the one before it. *)
Definition falling (xs : list R) : Prop := forall n, (S n < length xs)%nat -> at_pos xs (S n) <= at_pos xs n.
