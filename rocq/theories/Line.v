(** * Line: vocabulary of property C74 (the readings on straight lines and on geometric series, exact arithmetic).  Nothing here models code of /repo. *)
From Coq Require Import Reals List ZArith.
From Verif Require Import Num ER.
Import ListNotations.
Local Open Scope R_scope.

(** [len] numbers that start at [a] and rise by [b] at every step. *)
Definition line (a b : R) (len : nat) : list R := map (fun i => a + b * INR i) (seq 0 len).
(** [len] numbers that start at [c] and are multiplied by [q] at every step. *)
Definition ladder (c q : R) (len : nat) : list R := map (fun i => c * q ^ i) (seq 0 len).
(** A number of elements the operators can count. *)
Definition countably (len : nat) : Prop := (1 <= len)%nat /\ (Z.of_nat len < 2147483648)%Z.
