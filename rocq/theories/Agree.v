(** * Agree: vocabulary of property C68 (what the indicators of one series say agrees, exact arithmetic).  Nothing here models code of /repo. *)
From Coq Require Import Reals List ZArith Bool.
From Verif Require Import Num Py Tensor Streamable Series ER Linear RealMarket Formulas.
Import ListNotations.
Local Open Scope R_scope.

(** Streaming [op] over the numbers [xs] gives the numbers [out], one for each. *)
Definition outputs (op : @operator ER) (xs out : list R) : Prop :=
  length out = length xs /\ exists sf s0, call op (reals xs) None true = Ok (reals out, sf, s0).
(** A series of numbers of a length the operators can count. *)
Definition countable (xs : list R) : Prop := xs <> [] /\ (Z.of_nat (length xs) < 2147483648)%Z.
(** The number at position [n]; the numbers at positions [n - p + 1] to [n]. *)
Definition at_pos (l : list R) (n : nat) : R := nth n l 0.
Definition last_numbers (p n : nat) (xs : list R) : list R := firstn p (skipn (n + 1 - p) xs).
(** How many of the numbers [l] lie below [lo] or above [hi]. *)
Definition outside (lo hi : R) (l : list R) : nat :=
  length (filter (fun x => if Rlt_dec x lo then true else if Rlt_dec hi x then true else false) l).
