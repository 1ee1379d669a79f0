(** * Periods: vocabulary for C71 — windows and lags of no element, or of less. *)
From Coq Require Import List ZArith Bool.
From Verif Require Import Num Py PyFacts Tensor Streamable Spec Series Shapes.
Import ListNotations.

Section Periods.
Context {N : FOps}.
(** No series of elements of the shapes and dtypes [zx] can be streamed into [op]. *)
Definition never_streams (op : operator) (zx : ztype) : Prop :=
  forall n v, n > 0 -> genuine v -> sig v = wide n zx -> exists e, call op v None true = Err e.
(** Every output is [g] of the output before (at first [previous]) and the input. *)
Fixpoint feedback (g : F -> F -> F) (previous : F) (xs : list F) : list F :=
  match xs with [] => [] | x :: r => let y := g previous x in y :: feedback g y r end.
End Periods.
