(** * Fading: vocabulary of property C83 (which operators forget a bounded past in bounded time, exact arithmetic).  Nothing here models code of /repo. *)
From Coq Require Import Reals List ZArith.
From Verif Require Import Num Py Tensor Streamable ER RealMarket Linear Steady Agree.
Import ListNotations.
Local Open Scope R_scope.

(** No number is further than [M] from 0. *)
Definition bounded (M : R) (l : list R) : Prop := Forall (fun x => Rabs x <= M) l.
(** High, low and close of every bar are no further than [M] from 0. *)
Definition bounded_bars (M : R) (l : list rcandle) : Prop := Forall (fun b => Rabs (r_high b) <= M /\ Rabs (r_low b) <= M /\ Rabs (r_close b) <= M) l.
(** [o] are outputs over the numbers [xs ++ zs], [o'] over [ys ++ zs]: from the number [K] of [zs] on they differ by [eps] at most. *)
Definition agree_from (K : nat) (eps : R) (a b k : nat) (o o' : list R) : Prop :=
  forall n, (K <= n < k)%nat -> Rabs (at_pos o (a + n) - at_pos o' (b + n)) <= eps.
(** Whatever happened before (any two pasts, of any lengths, with numbers within [M]), [K] common numbers later the outputs differ by [eps] at most; [K] only depends on [M] and [eps]. *)
Definition settles (op : @operator ER) : Prop := forall M eps, 0 < eps -> exists K, forall xs ys zs,
  bounded M (xs ++ zs) -> bounded M (ys ++ zs) -> countable (xs ++ zs) -> countable (ys ++ zs) ->
  exists o o', outputs op (xs ++ zs) o /\ outputs op (ys ++ zs) o' /\ agree_from K eps (length xs) (length ys) (length zs) o o'.
