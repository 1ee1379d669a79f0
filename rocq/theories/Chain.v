(** * Chain: vocabulary of property C77 (pipelines of averages, changes and delays).  Nothing here models code of /repo. *)
From Coq Require Import List ZArith.
From Verif Require Import Num Streamable Common Finance.
Import ListNotations.

(** A stage of the pipeline: an average of the last [p] numbers, the change over [p] positions, a delay by [p] positions,
    the distance between a fast and a slow average. *)
Inductive stage := Average (p : nat) | Change (p : nat) | Delay (p : nat) | Spread (slow fast : nat).
Definition operator_of {N : FOps} (f : stage) : operator :=
  match f with
  | Average p => SimpleMovingAverage (Z.of_nat p)
  | Change p => Momentum (Z.of_nat p)
  | Delay p => Lag (Z.of_nat p)
  | Spread slow fast => SimpleMovingAverageCrossover (Z.of_nat slow) (Z.of_nat fast)
  end.
Definition periods_ok (f : stage) : Prop :=
  match f with Average p | Change p | Delay p => 1 <= p | Spread slow fast => 1 <= slow /\ 1 <= fast end.
(** How many earlier positions the stage looks back to. *)
Definition looks_back (f : stage) : nat :=
  match f with Average p => p - 1 | Change p | Delay p => p | Spread slow fast => max slow fast - 1 end.
(** And the whole pipeline. *)
Definition warm_up (l : list stage) : nat := fold_right (fun f n => looks_back f + n) 0 l.
