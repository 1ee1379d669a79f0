(** * Linear: vocabulary of property C52 (exact arithmetic).  Nothing here models code of /repo. *)
From Coq Require Import Reals List ZArith Bool.
From Verif Require Import Num Py Tensor Streamable Series ER MovingFacts.
Import ListNotations.
Local Open Scope R_scope.

(** a x + b y, number by number, for two rows and for two series of rows. *)
Definition blend (a b : R) (x y : list R) : list R := map (fun u => a * fst u + b * snd u) (combine x y).
Definition blends (a b : R) (xs ys : list (list R)) : list (list R) := map (fun r => blend a b (fst r) (snd r)) (combine xs ys).
(** Every number multiplied by [a]; shifted by [c]. *)
Definition times (a : R) (xs : list (list R)) : list (list R) := map (map (fun x => a * x)) xs.
Definition plus (c : R) (xs : list (list R)) : list (list R) := map (map (fun x => x + c)) xs.

(** Streaming [op] over a x + b y gives a (what it gives on x) + b (what it gives on y). *)
Definition linear (op : @operator ER) (s : list nat) : Prop :=
  forall a b xs ys, xs <> [] -> length xs = length ys -> rshaped s xs -> rshaped s ys ->
  exists ox oy sx ix sy iy sz iz,
    call op (tensors s (fins xs)) None true = Ok (tensors s (fins ox), sx, ix) /\
    call op (tensors s (fins ys)) None true = Ok (tensors s (fins oy), sy, iy) /\
    call op (tensors s (fins (blends a b xs ys))) None true = Ok (tensors s (fins (blends a b ox oy)), sz, iz).
(** Adding [c] to the series adds [c] to the outputs from position [p - 1] on. *)
Definition shifts_along (op : @operator ER) (s : list nat) (p : nat) : Prop :=
  forall c xs, xs <> [] -> rshaped s xs ->
  exists o o' sx ix sy iy,
    call op (tensors s (fins xs)) None true = Ok (tensors s (fins o), sx, ix) /\
    call op (tensors s (fins (plus c xs))) None true = Ok (tensors s (fins o'), sy, iy) /\
    length o = length xs /\ length o' = length xs /\
    forall n j, (n < length xs)%nat -> (p <= n + 1)%nat -> (j < prod s)%nat -> rnumber o' j n = rnumber o j n + c.

(** Series given as lists of real numbers, pairs or candles. *)
Definition reals (xs : list R) : @val ER := @scalars ER (map Fin xs).
(** Changing every element of the series by [T] leaves the outputs of [op] as they are. *)
Definition unaffected {X} (op : @operator ER) (ok : list X -> Prop) (inp : list X -> @val ER) (T : X -> X) : Prop :=
  forall xs, xs <> [] -> ok xs ->
  exists o s i s' i', call op (inp xs) None true = Ok (o, s, i) /\ call op (inp (map T xs)) None true = Ok (o, s', i').
(** Changing every element by [T] changes every (scalar) output by [U]. *)
Definition follows {X} (op : @operator ER) (ok : list X -> Prop) (inp : list X -> @val ER) (T : X -> X) (U : ext -> ext) : Prop :=
  forall xs, xs <> [] -> ok xs ->
  exists o s i s' i', call op (inp xs) None true = Ok (scalars o, s, i) /\
    call op (inp (map T xs)) None true = Ok (scalars (map U o), s', i').
(** An operator with several outputs: each of them is linear. *)
Definition series_list (s : list nat) (os : list (list (list R))) : @val ER := Tup (map (fun o => tensors s (fins o)) os).
Definition linear_all (op : @operator ER) (s : list nat) : Prop :=
  forall a b xs ys, xs <> [] -> length xs = length ys -> rshaped s xs -> rshaped s ys ->
  exists oxs oys sx ix sy iy sz iz, length oxs = length oys /\
    call op (tensors s (fins xs)) None true = Ok (series_list s oxs, sx, ix) /\
    call op (tensors s (fins ys)) None true = Ok (series_list s oys, sy, iy) /\
    call op (tensors s (fins (blends a b xs ys))) None true =
      Ok (series_list s (map (fun o => blends a b (fst o) (snd o)) (combine oxs oys)), sz, iz).
