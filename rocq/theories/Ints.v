(** * Ints: vocabulary for C70 — series of whole numbers (int32). *)
From Coq Require Import List ZArith Bool.
From Verif Require Import Num Py Tensor Streamable Spec Series Shapes Vectors.
Import ListNotations.
Local Open Scope Z_scope.

(** The whole numbers of an int32. *)
Definition int32 (z : Z) : Prop := -2 ^ 31 <= z < 2 ^ 31.
(** [v] is the least, resp. the greatest, of elements [a] to [n] of [xs]. *)
Definition least_of (xs : list Z) (a n : nat) (v : Z) : Prop :=
  (exists i, (a <= i <= n)%nat /\ nth i xs 0 = v) /\ forall i, (a <= i <= n)%nat -> v <= nth i xs 0.
Definition greatest_of (xs : list Z) (a n : nat) (v : Z) : Prop :=
  (exists i, (a <= i <= n)%nat /\ nth i xs 0 = v) /\ forall i, (a <= i <= n)%nat -> nth i xs 0 <= v.
(** [out] is the series of [f] of the elements of [a] and [b] at the same place: exact if that is an int32, and otherwise the int32 that differs
    from it by a multiple of 2^32. *)
Definition int_result (f : Z -> Z -> Z) (a b out : list Z) : Prop :=
  length out = length a /\ forall i, (i < length a)%nat -> let exact := f (nth i a 0) (nth i b 0) in
    int32 (nth i out 0) /\ (exists k, nth i out 0 = exact + k * 2 ^ 32) /\ (int32 exact -> nth i out 0 = exact).
(** One of the tensors is not of floats. *)
Definition not_floats (zs : list (list nat * dtype)) : Prop := exists s d, In (s, d) zs /\ d <> F32.
