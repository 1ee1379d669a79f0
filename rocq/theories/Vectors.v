(** * Vectors: vocabulary for C59 — candles of several assets at once. *)
From Coq Require Import List ZArith Bool.
From Verif Require Import Num Py PyFacts Tensor Streamable Spec Series Formulas Shapes.
Import ListNotations.

Section Vectors.
Context {N : FOps}.
(** A series of rows of candles, one candle per element of a tensor of shape [s]: close, low and high. *)
Definition wide_bars (s : list nat) (xs : list (list candle)) : val :=
  Tup [tensors s (map (map c_close) xs); tensors s (map (map c_low) xs); tensors s (map (map c_high) xs)].
(** The closes of the row before the [n]-th one; 0 (unknown) at the start. *)
Definition closes_before (m : nat) (xs : list (list candle)) (n : nat) : list F :=
  if n =? 0 then repeat f0 m else map c_close (nth (n - 1) xs []).
(** The largest of all the ranges of all the candles of the [n]-th row. *)
Definition largest_range (m : nat) (xs : list (list candle)) (n : nat) : F :=
  let row := nth n xs [] in
  let prev := closes_before m xs n in
  frmax (map (fun c => fsub (c_high c) (c_low c)) row ++
         map (fun qc => if feq (fst qc) f0 then f0 else fabs (fsub (c_high (snd qc)) (fst qc))) (combine prev row) ++
         map (fun qc => if feq (fst qc) f0 then f0 else fabs (fsub (c_low (snd qc)) (fst qc))) (combine prev row)).
(** The same of a history, the newest row first. *)
Definition wide_range (prev : list F) (row : list candle) : F :=
  frmax (map (fun c => fsub (c_high c) (c_low c)) row ++
         map (fun qc => if feq (fst qc) f0 then f0 else fabs (fsub (c_high (snd qc)) (fst qc))) (combine prev row) ++
         map (fun qc => if feq (fst qc) f0 then f0 else fabs (fsub (c_low (snd qc)) (fst qc))) (combine prev row)).
Definition closes (m : nat) (h : list (list candle)) : list F :=
  match h with [] => repeat f0 m | x :: _ => map c_close x end.
Fixpoint wide_ranges (m : nat) (h : list (list candle)) : list F :=
  match h with [] => [] | x :: r => wide_range (closes m r) x :: wide_ranges m r end.
Definition even_rows (m : nat) (h : list (list candle)) : Prop := short h /\ Forall (fun x => length x = m) h.
(** Given anything of the shapes and dtypes [zx], alone or as a series, [op] fails at the first element. *)
Definition rejects (op : operator) (zx : ztype) : Prop :=
  (forall x, genuine x -> sig x = zx -> exists e, call op x None false = Err e) /\
  (forall n v, n > 0 -> genuine v -> sig v = wide n zx -> exists e, call op v None true = Err e).
End Vectors.
