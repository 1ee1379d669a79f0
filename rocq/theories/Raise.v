(** * Raise: what it means for a call to raise (C79).  A small specification. *)
From Coq Require Import List.
From Verif Require Import Num Py PyFacts Tensor Streamable.

Section Raise.
Context {N : FOps}.
(** The call raises; it returns nothing. *)
Definition raises {A} (r : res A) : Prop := exists e, r = Err e.
(** An operator that cannot answer: whatever the inputs, whatever the state (or none), one
    element or a whole series, the call raises. *)
Definition never_answers (op : operator) : Prop :=
  forall inputs state streamable, raises (call op inputs state streamable).
(** No state, or one state for each of the [n] operators put together. *)
Definition states_for (n : nat) (st : option val) : Prop :=
  match st with
  | None => True
  | Some s => pyok s /\ exists l, s = Tup l /\ length l = n
  end.
End Raise.
