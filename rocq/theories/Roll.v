(** * Roll: vocabulary for C72 — windows kept with [roll] and [shift]. *)
From Coq Require Import List ZArith Bool.
From Verif Require Import Num Py Tensor Streamable Common.
Import ListNotations.

Section Roll.
Context {N : FOps}.
(** A tensor of shape [s] and dtype [d] with as many elements as its shape says. *)
Definition tensor_of (s : list nat) (d : dtype) (t : tensor) : Prop := wf t /\ sh t = s /\ dtype_of t = d.
(** [x[k]] of a tensor is [v]. *)
Definition row_is (t : tensor) (k : nat) (v : tensor) : Prop := index0 t (Z.of_nat k) = Ok v.
(** The values [vs], first to last, are pushed into [window] with [push]. *)
Fixpoint push_all (push : tensor -> tensor -> res tensor) (vs : list tensor) (window : tensor) : res tensor :=
  match vs with [] => Ok window | v :: r => let* w := push v window in push_all push r w end.
End Roll.
