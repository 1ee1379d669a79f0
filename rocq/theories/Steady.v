(** * Steady: vocabulary of property C67 (small errors stay small, exact arithmetic).  Nothing here models code of /repo. *)
From Coq Require Import Reals List ZArith Bool.
From Verif Require Import Num Py Tensor Streamable Series ER MovingFacts Linear RealMarket Formulas ImplMarket.
Import ListNotations.
Local Open Scope R_scope.

(** Two series of rows of numbers, nowhere further apart than [e]. *)
Definition apart (e : R) (xs ys : list (list R)) : Prop :=
  length xs = length ys /\ forall n j, Rabs (rnumber xs j n - rnumber ys j n) <= e.
(** Inputs at most [e] apart give outputs at most [K e] apart. *)
Definition steady (K : R) (op : @operator ER) (s : list nat) : Prop :=
  forall e xs ys, 0 <= e -> xs <> [] -> rshaped s xs -> rshaped s ys -> apart e xs ys ->
  exists ox oy sx ix sy iy,
    call op (tensors s (fins xs)) None true = Ok (tensors s (fins ox), sx, ix) /\
    call op (tensors s (fins ys)) None true = Ok (tensors s (fins oy), sy, iy) /\
    length ox = length xs /\ rshaped s ox /\ rshaped s oy /\ apart (K * e) ox oy.
(** The same for an operator with several outputs, each with its own factor. *)
Definition steady_all (Ks : list R) (op : @operator ER) (s : list nat) : Prop :=
  forall e xs ys, 0 <= e -> xs <> [] -> rshaped s xs -> rshaped s ys -> apart e xs ys ->
  exists oxs oys sx ix sy iy,
    call op (tensors s (fins xs)) None true = Ok (series_list s oxs, sx, ix) /\
    call op (tensors s (fins ys)) None true = Ok (series_list s oys, sy, iy) /\
    length oxs = length Ks /\ length oys = length Ks /\
    forall i, (i < length Ks)%nat -> length (nth i oxs []) = length xs /\ apart (nth i Ks 0 * e) (nth i oxs []) (nth i oys []).
(** The same for series of other elements: [near e x y] says that two input elements are at most [e] apart, [close e] that two output
    elements are as close as they should then be; [ok] is asked of every element of the two series. *)
Definition by_at_most (e x y : R) : Prop := Rabs (x - y) <= e.
Definition steady_on {X Y} (op : @operator ER) (ok : X -> Prop) (near : R -> X -> X -> Prop) (inp : list X -> @val ER)
    (close : R -> Y -> Y -> Prop) (out : list Y -> @val ER) : Prop :=
  forall e xs ys, 0 <= e -> xs <> [] -> (Z.of_nat (length xs) < 2147483648)%Z -> Forall ok xs -> Forall ok ys -> Forall2 (near e) xs ys ->
  exists ox oy sx ix sy iy,
    call op (inp xs) None true = Ok (out ox, sx, ix) /\ call op (inp ys) None true = Ok (out oy, sy, iy) /\
    length ox = length xs /\ Forall2 (close e) ox oy.
(** Two candles whose four prices are at most [e] apart. *)
Definition candles_apart (e : R) (c d : rcandle) : Prop :=
  by_at_most e (r_open c) (r_open d) /\ by_at_most e (r_high c) (r_high d) /\ by_at_most e (r_low c) (r_low d) /\ by_at_most e (r_close c) (r_close d).
(** Of a Drawdown output (a depth and a number of steps), the depth. *)
Definition depths_apart (K e : R) (d f : R * Z) : Prop := by_at_most (K * e) (fst d) (fst f).
Definition drawdown_reals (l : list (R * Z)) : @val ER := @drawdowns ER (map (fun q => (Fin (fst q), snd q)) l).
Definition bars_of (l : list rcandle) : @val ER := @bars ER (map cfin l).
Definition candles_of (l : list rcandle) : @val ER := @candles ER (map cfin l).
