(** * Wrap: vocabulary of property C46 for windows, returns, momentum and correlation.  Nothing here models code of /repo. *)
From Coq Require Import List ZArith Bool.
From Verif Require Import Num Series Formulas SpecHelpers.
Import ListNotations.

(** How many of the last values a window of [p] takes at position [n] (counted from 0) when its counter has 32 bits: [n + 1] while it
    fills, then [p]; from position 2^31 on the counter is negative and the slice up to it is empty, save for the last [p - 1] positions
    before the counter is 0 again. *)
Definition reading (p n : nat) : nat :=
  let k := (Z.of_nat n mod 4294967296)%Z in
  if (k <? 2147483648)%Z then Nat.min p (Z.to_nat (k + 1))
  else if (k =? 4294967295)%Z then 0 else Z.to_nat (Z.of_nat p + k + 1 - 4294967296).

Section Wrap.
Context {N : FOps}.
(** Returns, differences and correlations of a history of any length, newest element first. *)
Definition change_forever (f : F -> F) (p : nat) (h : list F) : F :=
  if warming_up p (Z.of_nat (length h) - 1) || feq (ago p h) f0 then f0 else f (fdiv (now h) (ago p h)).
Definition momentum_forever (p : nat) (h : list F) : F :=
  if warming_up (S p) (Z.of_nat (length h) - 1) then f0 else fsub (now h) (ago p h).
Definition correlation_forever (p : nat) (h : list (F * F)) : F :=
  if warming_up (S p) (Z.of_nat (length h) - 1) then f0 else corr_of (firstn p (map fst h)) (firstn p (map snd h)).
(** The crossover of two simple averages: the fast one counts as 0 until the slow one exists. *)
Definition crossover_forever (slow fast : nat) (h : list F) : F :=
  fsub (if warming_up slow (Z.of_nat (length h) - 1) then f0 else sma_forever fast h) (sma_forever slow h).
Definition window_forever (f : list F -> F) (p : nat) (h : list F) : F := f (firstn (reading p (length h - 1)) h).
End Wrap.
