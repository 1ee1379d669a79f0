(** * Keep: what "the state keeps its shapes" means (C06).  A small specification, used
    by PropsStream.v. *)
From Coq Require Import List.
From Verif Require Import Num Py Tensor Streamable.

Section Keep.
Context {N : FOps}.
(** Python's [==] on the nested shapes of two values: same tuples and lists with the same
    lengths, same dictionary keys, and the same shape at every leaf. *)
Definition same_shapes (a b : val) : bool := pv_eqb shape_eqb (vmap sh a) (vmap sh b).
End Keep.
