(** * Series: vocabulary in which the closed forms of the operators are stated.

    Nothing here models code of /repo. *)
From Coq Require Import List ZArith Bool.
From Verif Require Import Num Py Tensor Streamable.
Import ListNotations.

(** The elements that have arrived so far, the newest first, after each element of
    [xs] when those of [h] have arrived before: [hists [] [a; b; c]] is
    [[a]; [b; a]; [c; b; a]]. *)
Fixpoint hists {X} (h : list X) (xs : list X) : list (list X) :=
  match xs with [] => [] | x :: r => (x :: h) :: hists (x :: h) r end.
(** [f] of the history at every element of [h], the newest first. *)
Fixpoint trail {X Y} (f : list X -> Y) (h : list X) : list Y :=
  match h with [] => [] | x :: r => f h :: trail f r end.

(** A history of at most 2^31 elements (the counters of the library are int32). *)
Definition short {X} (h : list X) : Prop := (Z.of_nat (length h) <= 2147483648)%Z.

Section Series.
Context {N : FOps}.

(** The elements of a tensor of dtype [d]. *)
Definition elt (d : dtype) : Type := match d with F32 => F | I32 => Z | BOOL => bool end.
Definition mkD (d : dtype) : list (elt d) -> tdata :=
  match d with F32 => DF | I32 => DI | BOOL => DB end.
Definition zero_of (d : dtype) : elt d :=
  match d with F32 => f0 | I32 => 0%Z | BOOL => false end.

(** Series of tensors of shape [s], each given by its elements. *)
Definition series_of (d : dtype) (s : list nat) (rows : list (list (elt d))) : val :=
  Leaf (mkT (length rows :: s) (mkD d (concat rows))).
Definition tensors (s : list nat) (rows : list (list F)) : val :=
  Leaf (mkT (length rows :: s) (DF (concat rows))).
(** Series of scalars. *)
Definition scalars (l : list F) : val := Leaf (mkT [length l] (DF l)).
Definition ints (l : list Z) : val := Leaf (mkT [length l] (DI l)).
(** Every element of the history has as many numbers as a tensor of shape [s]. *)
Definition shaped {A} (s : list nat) (h : list (list A)) : Prop :=
  Forall (fun r => length r = prod s) h.

(** A function of the history of one number, applied at every position of tensors
    of shape [s]. *)
Definition column {A} (d : A) (j : nat) (h : list (list A)) : list A := map (fun r => nth j r d) h.
Definition each {B} (s : list nat) (f : list F -> B) (h : list (list F)) : list B :=
  map (fun j => f (column f0 j h)) (seq 0 (prod s)).

(** [streams op ok inp out]: streaming [op] over the elements [xs], without state, gives
    [out] of the successive histories; and streaming it over further elements from the
    state left by any history [h] gives [out] of the histories that continue [h].
    [ok] says which histories are meant and [inp] how the elements are given. *)
Definition streams {X} (op : operator) (ok : list X -> Prop) (inp : list X -> val)
  (out : list (list X) -> val) : Prop :=
  exists st : list X -> val,
    (forall xs, xs <> [] -> ok (rev xs) ->
       call op (inp xs) None true = Ok (out (hists [] xs), st (rev xs), st [])) /\
    (forall h xs, xs <> [] -> ok (rev xs ++ h) ->
       call op (inp xs) (Some (st h)) true = Ok (out (hists h xs), st (rev xs ++ h), st h)).
(** Most often the outputs are series of numbers computed from the history. *)
Definition ok_rows (s : list nat) (h : list (list F)) : Prop := shaped s h /\ short h.

(** A number given to a constructor, as a float32. *)
Definition num (x : pynum) : F :=
  match x with PyInt z => f_of_Z z | PyFloat d => f_of_D d end.
End Series.
