(** * Py: Python values, exceptions as values, and the structure helpers
    tensorstream/helpers/map_fn.py and tensorstream/helpers/flatten.py. *)
From Coq Require Import List ZArith Bool String.
Import ListNotations.

(** Exceptions.  One constructor per kind of failure; the message is not
    modelled. *)
Inductive err :=
| EArity          (* TypeError: wrong number of positional arguments *)
| EType           (* wrong Python type / dtype mismatch in a TensorFlow op *)
| EShape          (* incompatible shapes *)
| EIndex          (* index out of range *)
| EKey            (* KeyError *)
| EValue          (* ValueError: e.g. tf.cond branches returning nothing *)
| ESizes          (* InvalidArgumentError "inputs have different sizes." *)
| EStateType      (* Exception "Provided state and model state has different types" *)
| EStructure      (* nested structures differ (tf.while_loop, tf.cond, tf.map_fn) *)
| EAssert         (* InvalidArgumentError: tf.case(exclusive=True) with two true predicates *)
| ETensorArray    (* TensorArray: double write, index out of range, unwritten element *)
| EUnbound        (* UnboundLocalError *)
| ENotImpl        (* Exception "Not implemented." *)
| EFuel.          (* model artefact: while loop ran out of fuel *)

Inductive res (A : Type) := Ok (a : A) | Err (e : err).
Arguments Ok {A} a.
Arguments Err {A} e.

Definition bind {A B} (r : res A) (k : A -> res B) : res B :=
  match r with Ok a => k a | Err e => Err e end.
Notation "'let*' x ':=' e 'in' k" := (bind e (fun x => k))
  (at level 200, x pattern, e at level 100, k at level 200, right associativity).

Definition mapM {A B} (f : A -> res B) : list A -> res (list B) :=
  fix go (l : list A) : res (list B) :=
  match l with
  | [] => Ok []
  | x :: r => let* y := f x in let* ys := go r in Ok (y :: ys)
  end.

(** Nested Python structures with leaves in [A].  [Gen] is a generator object
    (produced by common.py:27); it is neither dict, list nor tuple for
    [isinstance].  A dict is the list of its items in insertion order. *)
Inductive pyval (A : Type) :=
| Leaf (a : A)
| Tup (l : list (pyval A))
| Lst (l : list (pyval A))
| Dct (l : list (string * pyval A))
| Gen (l : list (pyval A)).
Arguments Leaf {A} a.
Arguments Tup {A} l.
Arguments Lst {A} l.
Arguments Dct {A} l.
Arguments Gen {A} l.

Fixpoint assoc {A} (k : string) (l : list (string * A)) : option A :=
  match l with
  | [] => None
  | (k', v) :: r => if String.eqb k k' then Some v else assoc k r
  end.

(** [x[key]] with a string key (map_fn.py:4). *)
Definition getkey {A} (k : string) (v : pyval A) : res (pyval A) :=
  match v with
  | Dct l => match assoc k l with Some x => Ok x | None => Err EKey end
  | _ => Err EType
  end.

(** Python iteration over a value, as done by [zip] (map_fn.py:6,8,
    compose.py:15, join.py:15) and by [*inputs].  A graph-mode tensor is not
    iterable.  Simplification: iterating a dict yields its keys (strings), which
    are not values of the model, so it is an error here. *)
Definition iter {A} (v : pyval A) : res (list (pyval A)) :=
  match v with
  | Tup l | Lst l | Gen l => Ok l
  | Leaf _ | Dct _ => Err EType
  end.

(** One row of [zip]: the heads and tails of all lists, or None as soon as one
    is exhausted. *)
Fixpoint heads {A} (ls : list (list A)) : option (list A * list (list A)) :=
  match ls with
  | [] => Some ([], [])
  | [] :: _ => None
  | (x :: r) :: ls' =>
      match heads ls' with
      | Some (hs, ts) => Some (x :: hs, r :: ts)
      | None => None
      end
  end.

(** helpers/map_fn.py:2-10.  [obj] drives the recursion, [objs] are the values
    handed to [apply_fn].  Lines 6 and 8 zip [obj] with the [objs] and stop at the
    shortest. *)
Fixpoint map_fn {A B} (apply_fn : list (pyval A) -> res (pyval B))
         (obj : pyval A) (objs : list (pyval A)) {struct obj} : res (pyval B) :=
  match obj with
  | Dct kvs =>
      let* r := (fix go (kvs : list (string * pyval A)) : res (list (string * pyval B)) :=
        match kvs with
        | [] => Ok []
        | (k, v) :: rest =>
            let* os := mapM (getkey k) objs in
            let* v' := map_fn apply_fn v os in
            let* r' := go rest in
            Ok ((k, v') :: r')
        end) kvs in
      Ok (Dct r)
  | Lst l =>
      let* its := mapM iter objs in
      let* r := (fix go (l : list (pyval A)) (its : list (list (pyval A)))
                 : res (list (pyval B)) :=
        match l with
        | [] => Ok []
        | v :: rest =>
            match heads its with
            | None => Ok []
            | Some (hs, ts) =>
                let* v' := map_fn apply_fn v hs in
                let* r' := go rest ts in
                Ok (v' :: r')
            end
        end) l its in
      Ok (Lst r)
  | Tup l =>
      let* its := mapM iter objs in
      let* r := (fix go (l : list (pyval A)) (its : list (list (pyval A)))
                 : res (list (pyval B)) :=
        match l with
        | [] => Ok []
        | v :: rest =>
            match heads its with
            | None => Ok []
            | Some (hs, ts) =>
                let* v' := map_fn apply_fn v hs in
                let* r' := go rest ts in
                Ok (v' :: r')
            end
        end) l its in
      Ok (Tup r)
  | Leaf _ | Gen _ => apply_fn objs
  end.

(** helpers/flatten.py:2-12. *)
Fixpoint flatten {A} (elems : pyval A) : list (pyval A) :=
  match elems with
  | Tup l | Lst l =>
      (fix go (l : list (pyval A)) :=
         match l with [] => [] | x :: r => flatten x ++ go r end) l
  | Dct l =>
      (fix go (l : list (string * pyval A)) :=
         match l with [] => [] | (_, x) :: r => flatten x ++ go r end) l
  | Leaf _ | Gen _ => [elems]
  end.

(** Total map over the leaves (used to inject leaves into a sum type when a
    Python call mixes tensors and TensorArrays, and by specifications). *)
Fixpoint vmap {A B} (f : A -> B) (v : pyval A) : pyval B :=
  match v with
  | Leaf a => Leaf (f a)
  | Tup l => Tup (map (vmap f) l)
  | Lst l => Lst (map (vmap f) l)
  | Dct l => Dct (map (fun kv => (fst kv, vmap f (snd kv))) l)
  | Gen l => Gen (map (vmap f) l)
  end.

(** Structural equality as Python's [==] on nested tuples/lists/dicts of leaves
    (streamable.py:13 on dtypes) and as TensorFlow's nest.assert_same_structure
    (with [eqb := fun _ _ => true]).  Dict equality ignores the order of keys. *)
Fixpoint pv_eqb {A B} (eqb : A -> B -> bool) (v : pyval A) (w : pyval B) {struct v} : bool :=
  match v, w with
  | Leaf a, Leaf b => eqb a b
  | Tup l, Tup m | Lst l, Lst m =>
      (fix go (l : list (pyval A)) (m : list (pyval B)) : bool :=
         match l, m with
         | [], [] => true
         | x :: l', y :: m' => pv_eqb eqb x y && go l' m'
         | _, _ => false
         end) l m
  | Dct l, Dct m =>
      Nat.eqb (List.length l) (List.length m) &&
      (fix go (l : list (string * pyval A)) : bool :=
         match l with
         | [] => true
         | (k, x) :: l' =>
             match assoc k m with
             | Some y => pv_eqb eqb x y && go l'
             | None => false
             end
         end) l
  | _, _ => false
  end.
