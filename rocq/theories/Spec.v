(** * Spec: vocabulary in which the properties are stated.

    Nothing here models code of /repo; these are the notions a user of the
    library reasons with. *)
From Coq Require Import String List ZArith Bool.
From Verif Require Import Num Py PyFacts Tensor Streamable.
Import ListNotations.

Section Spec.
Context {N : FOps}.

(** A genuine Python value: dict keys are distinct, there is no generator, and
    every tensor holds as many elements as its shape says. *)
Definition genuine (v : val) : Prop := pyok v /\ Forall wf (leaves v).
Definition genuine_opt (s : option val) : Prop :=
  match s with Some v => genuine v | None => True end.
(** An operator that computes genuine values from genuine values. *)
Definition genuine_op (op : operator) : Prop :=
  forall x st o s' s0, genuine x -> genuine_opt st ->
    forward_step op x st = Ok (o, s', s0) -> genuine o /\ genuine s' /\ genuine s0.

(** Nested structure without the tensors is [sk]; with their shapes and dtypes: *)
Definition tsig (t : tensor) : list nat * dtype := (sh t, dtype_of t).
Definition sig (v : val) : pyval (list nat * dtype) := vmap tsig v.

(** [t[i]] and [inputs[i]] in every leaf: the i-th element of a series. *)
Definition trow (i : nat) (t : tensor) : tensor :=
  let s := tl (sh t) in mkT s (dslice (i * prod s) (prod s) (dat t)).
Definition row (i : nat) (v : val) : val := vmap (trow i) v.
Definition rows (n : nat) (v : val) : list val := map (fun i => row i v) (seq 0 n).
(** [v] is a series of [n] elements: there is a tensor in it, and every tensor has
    [n] as its first dimension. *)
Definition is_series (n : nat) (v : val) : Prop :=
  leaves v <> [] /\ Forall (fun t => exists s, sh t = n :: s) (leaves v).
(** [v] is the series [a] followed by the series [b]. *)
Definition is_concat (n m : nat) (a b v : val) : Prop :=
  is_series n a /\ is_series m b /\ is_series (n + m) v /\
  (forall i, i < n -> row i v = row i a) /\ (forall i, i < m -> row (n + i) v = row i b).

(** The loop a user would write: one call with [streamable=False] per element,
    each with the state left by the previous one. *)
Fixpoint steps (op : operator) (s : val) (xs : list val) : res (list val * val) :=
  match xs with
  | [] => Ok ([], s)
  | x :: r =>
      let* (o, s', _) := call op x (Some s) false in
      let* (os, sf) := steps op s' r in
      Ok (o :: os, sf)
  end.
(** The state the first of these calls starts from: the provided one, or the
    initial state that a call without state reports. *)
Definition starts_from (op : operator) (st : option val) (x0 s0 : val) : Prop :=
  match st with
  | Some s => s0 = s
  | None => exists o s', call op x0 None false = Ok (o, s', s0)
  end.
(** All outputs along the run over the [n] elements of [v] have the same structure
    ([measure := sk]), resp. the same structure, shapes and dtypes
    ([measure := sig]).  In TensorFlow the body of the loop is traced once, so a
    graph operator always has outputs of one structure. *)
Definition uniform {A} (measure : val -> A) (op : operator) (st : option val) (v : val) (n : nat)
  : Prop :=
  exists z,
    (forall o s' i, call op (row 0 v) st false = Ok (o, s', i) -> measure o = z) /\
    (forall s0 os sf, starts_from op st (row 0 v) s0 -> steps op s0 (rows n v) = Ok (os, sf) ->
       Forall (fun o => measure o = z) os).
(** All states along the run have the structure, shapes and dtypes of the first. *)
Definition steady_state (op : operator) (s0 : val) (xs : list val) : Prop :=
  forall k os s, k <= length xs -> steps op s0 (firstn k xs) = Ok (os, s) -> sig s = sig s0.
(** Python's [==] on the nested dtypes of two values. *)
Definition same_types (a b : val) : bool := pv_eqb dtype_eqb (vmap dtype_of a) (vmap dtype_of b).
End Spec.
