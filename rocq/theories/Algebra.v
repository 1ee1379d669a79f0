(** * Algebra: vocabulary of property C54 (equivalent operators).  Nothing here models code of /repo. *)
From Coq Require Import List ZArith Bool.
From Verif Require Import Num Py PyFacts Tensor Streamable Spec SpecMeta Meta Shapes.
Import ListNotations.

Section Algebra.
Context {N : FOps}.
(** Streaming [op] over [v], without a state, gives the outputs [o]. *)
Definition gives (op : operator) (v o : val) : Prop := exists s i, call op v None true = Ok (o, s, i).
(** [a] and [b] stream over every series of elements of shapes and dtypes [zx], and give the same outputs. *)
Definition agree (a b : operator) (zx : ztype) : Prop :=
  forall n v, n > 0 -> genuine v -> sig v = wide n zx -> exists o, gives a v o /\ gives b v o.
(** [op] can be used on elements of shapes [zx] (with at least one tensor) and gives elements of shapes [zo] (Shapes.v). *)
Definition fits (op : operator) (zx zo : ztype) : Prop := leaves zx <> [] /\ exists zs, well_shaped op zx zo zs.
(** Operators used one after the other, in this order (Compose takes them in the reverse order). *)
Inductive fit_in_turn : list operator -> ztype -> ztype -> Prop :=
| fit_last op zx zo : fits op zx zo -> fit_in_turn [op] zx zo
| fit_next op ops zx zm zo : fits op zx zm -> fit_in_turn ops zm zo -> fit_in_turn (op :: ops) zx zo.
(** Operators used side by side. *)
Inductive fit_each : list operator -> list ztype -> list ztype -> Prop :=
| fit_none : fit_each [] [] []
| fit_more op ops zx zxs zo zos : fits op zx zo -> fit_each ops zxs zos -> fit_each (op :: ops) (zx :: zxs) (zo :: zos).
Inductive agree_each : list operator -> list operator -> list ztype -> Prop :=
| agree_none : agree_each [] [] []
| agree_more a b az bz zx zxs : agree a b zx -> agree_each az bz zxs -> agree_each (a :: az) (b :: bz) (zx :: zxs).
(** [op] can be forward-filled on elements of shapes [zx] (the conditions of [ws_ffill], Shapes.v). *)
Definition fills (op : operator) (zx zo : ztype) : Prop :=
  leaves zx <> [] /\ Forall (fun z => snd z = F32) (leaves zx) /\ plural zo /\ exists zs, well_shaped op zx zo zs /\ (plural zs \/ zs = Tup []).
(** Map over [n] columns is the same as streaming over the [n] columns at once, for up to 2^31 elements. *)
Definition vectorised (op : operator) (n : nat) (zx : ztype) : Prop :=
  forall T v, T > 0 -> (Z.of_nat T <= 2147483648)%Z -> genuine v -> sig v = wide T (wide n zx) -> exists o, gives (Map op n) v o /\ gives op v o.
(** The same for every operator of a pipeline, in order of use. *)
Inductive vectorised_in_turn (n : nat) : list operator -> ztype -> ztype -> Prop :=
| vec_last op zx zo : fits op zx zo -> fits op (wide n zx) (wide n zo) -> vectorised op n zx -> vectorised_in_turn n [op] zx zo
| vec_next op ops zx zm zo : fits op zx zm -> fits op (wide n zx) (wide n zm) -> vectorised op n zx ->
    vectorised_in_turn n ops zm zo -> vectorised_in_turn n (op :: ops) zx zo.
End Algebra.
