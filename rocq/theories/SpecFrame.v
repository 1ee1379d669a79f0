(** * SpecFrame: vocabulary of C61 (tables of several products regrouped by column). *)
From Coq Require Import List ZArith String Sorted.
From Verif Require Import Py Frame.
Import ListNotations.

(** A table: every row label once, every column name once, every column as long as the labels. *)
Definition table {A} (t : frame A) : Prop :=
  NoDup (labels t) /\ NoDup (map fst (columns t)) /\
  Forall (fun c => List.length (snd c) = List.length (labels t)) (columns t).
(** Cell [v] stands in column [c] and row [l] of [t]. *)
Definition holds {A} (t : frame A) (c : string) (l : Z) (v : A) : Prop :=
  exists vs k, In (c, vs) (columns t) /\ nth_error (labels t) k = Some l /\ nth_error vs k = Some v.
(** The same cell by the place of the column. *)
Definition holds_at {A} (t : frame A) (i : nat) (l : Z) (v : A) : Prop :=
  exists c vs k, nth_error (columns t) i = Some (c, vs) /\ nth_error (labels t) k = Some l /\ nth_error vs k = Some v.
Definition names {A} (t : frame A) : list string := map fst (columns t).
(** The table of one field: one column per product, all under the name of the field. *)
Definition regrouped {A} (nan : A) (products : list (frame A)) (c : string) (t : frame A) : Prop :=
  names t = repeat c (List.length products) /\
  Forall (fun col => List.length (snd col) = List.length (labels t)) (columns t) /\
  NoDup (labels t) /\
  (forall l, In l (labels t) <-> exists p, In p products /\ In l (labels p)) /\
  (forall i p l v, nth_error products i = Some p -> holds p c l v -> holds_at t i l v) /\
  (forall i p l, nth_error products i = Some p -> In l (labels t) -> ~ In l (labels p) -> holds_at t i l nan).
