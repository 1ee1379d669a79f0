(** * PropsRoll: property C72 — the windows kept with [roll] and [shift], and what the helpers refuse.
    Vocabulary: Roll.v ([tensor_of s d t]: [t] is a tensor of shape [s] and dtype [d]; [row_is t k v]: t[k] is [v];
    [push_all push vs w]: the values [vs], first to last, are pushed into [w]); Spec.v ([genuine]); SpecHelpers.v ([all_floats]). *)
From Coq Require Import List ZArith Bool.
From Verif Require Import Num Py Tensor Streamable Meta Common Spec SpecHelpers Roll RollFacts Witness.
Import ListNotations.

(** One value: it comes first, every row moves back by one, the last is dropped. *)
Theorem C72_roll {N : FOps} s d n v t : tensor_of s d v -> tensor_of (S n :: s) d t ->
  exists r, roll v t = Ok r /\ tensor_of (S n :: s) d r /\ row_is r 0 v /\ forall k, k < n -> exists x, row_is r (S k) x /\ row_is t k x.
Proof. exact (roll_law s d n v t). Qed.
Print Assumptions C72_roll.
(** Any number of values: the window holds the latest, newest first, then what it held before. *)
Theorem C72_window {N : FOps} s d n vs t : Forall (tensor_of s d) vs -> tensor_of (S n :: s) d t ->
  exists r, push_all roll vs t = Ok r /\ tensor_of (S n :: s) d r /\
    (forall k v, k <= n -> nth_error (rev vs) k = Some v -> row_is r k v) /\
    (forall k, length vs + k <= n -> exists x, row_is r (length vs + k) x /\ row_is t k x).
Proof. exact (push_law s d n vs t). Qed.
Print Assumptions C72_window.
(** A window of no rows does not stay one. *)
Theorem C72_empty_refuted {N : FOps} s d v t : tensor_of s d v -> tensor_of (0 :: s) d t -> exists r, roll v t = Ok r /\ tensor_of (1 :: s) d r /\ row_is r 0 v.
Proof. exact (roll_empty s d v t). Qed.
Print Assumptions C72_empty_refuted.
(** A value of another shape or dtype than the rows is refused, and so is a scalar as a window. *)
Theorem C72_refused {N : FOps} v t :
  (forall n s d, tensor_of (n :: s) d t -> sh v <> s \/ dtype_of v <> d -> exists e, roll v t = Err e) /\ (sh t = [] -> exists e, roll v t = Err e).
Proof. split; [intros n s d; exact (roll_rejects v t n s d)|exact (roll_scalar v t)]. Qed.
Print Assumptions C72_refused.
(** [shift] does the same to vectors and takes nothing else. *)
Theorem C72_shift {N : FOps} v t :
  (forall n d, tensor_of [n] d t -> shift v t = roll v t) /\ (length (sh t) <> 1 -> exists e, shift v t = Err e).
Proof. split; [intros n d; exact (shift_is_roll v t n d)|exact (shift_vectors_only v t)]. Qed.
Print Assumptions C72_shift.
(** any_value and any_nan only look into floats: any other tensor in the structure is refused. *)
Theorem C72_floats_only {N : FOps} v : genuine v -> ~ all_floats v -> (forall x, exists e, any_value v x = Err e) /\ (exists e, any_nan v = Err e).
Proof. exact (any_floats_only v). Qed.
Print Assumptions C72_floats_only.

(** A window of two rows of three numbers, and three new rows. *)
Definition some_window : tensor := mkT [2; 3] (DI [1; 2; 3; 4; 5; 6]%Z).
Definition some_rows : list tensor := [mkT [3] (DI [7; 8; 9]%Z); mkT [3] (DI [10; 11; 12]%Z); mkT [3] (DI [13; 14; 15]%Z)].
Definition int_value : val := Tup [Leaf (mkT [] (DF [f0])); Leaf some_window].
Example C72_met : Forall (tensor_of [3] I32) some_rows /\ tensor_of [2; 3] I32 some_window /\
  push_all roll some_rows some_window = Ok (mkT [2; 3] (DI [13; 14; 15; 10; 11; 12]%Z)) /\
  roll (mkT [3] (DI [7; 8; 9]%Z)) some_window = Ok (mkT [2; 3] (DI [7; 8; 9; 1; 2; 3]%Z)) /\
  (exists e, roll (isc 7) some_window = Err e) /\ (exists e, shift (isc 7) some_window = Err e) /\
  shift (isc 7) (mkT [2] (DI [1; 2]%Z)) = Ok (mkT [2] (DI [7; 1]%Z)) /\ genuine int_value /\ ~ all_floats int_value.
Proof.
  split; [repeat (constructor; [split; [reflexivity|split; reflexivity]|]); constructor|]. split; [split; [reflexivity|split; reflexivity]|].
  split; [reflexivity|]. split; [reflexivity|]. split; [eexists; reflexivity|]. split; [eexists; reflexivity|]. split; [reflexivity|].
  split; [apply genuineb_ok; reflexivity|]. intros H. apply Forall_inv_tail, Forall_inv in H. discriminate H.
Qed.
