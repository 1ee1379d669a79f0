(** * Memory: vocabulary of property C51.  Nothing here models code of /repo. *)
From Coq Require Import List ZArith Bool.
From Verif Require Import Num Py Tensor Streamable Spec Series.
Import ListNotations.

(** [forgets op ok inp k]: whatever came before a series [zs] ([xs] or [ys], of any lengths, possibly none), [op] streams
    and its outputs from element [k] of [zs] on (counted from 1) are the same: an output only depends on the last
    [k] elements.  [ok] says which series are meant (the newest element first) and [inp] how they are given. *)
Definition forgets {N : FOps} {X} (op : operator) (ok : list X -> Prop) (inp : list X -> val) (k : nat) : Prop :=
  forall xs ys zs, zs <> [] -> ok (rev (xs ++ zs)) -> ok (rev (ys ++ zs)) ->
  exists o s i o' s' i',
    call op (inp (xs ++ zs)) None true = Ok (o, s, i) /\
    call op (inp (ys ++ zs)) None true = Ok (o', s', i') /\
    forall n, k <= n + 1 -> n < length zs -> row (length xs + n) o = row (length ys + n) o'.
