(** * PropsChain: property C77 — averages, changes and delays can be applied in any order.
    Vocabulary: Chain.v ([stage], [operator_of], [periods_ok], [warm_up]), Linear.v, MovingFacts.v ([rnumber o j n]: number [j] of row [n]). *)
From Coq Require Import Reals Lra Lia List ZArith Bool Permutation.
From Verif Require Import Num Py Tensor Streamable Meta Common Finance Series Formulas B32 ER MovingFacts Linear Chain ChainFacts ChainWitness.
Import ListNotations.
Local Open Scope R_scope.

(** A pipeline of moving averages, momentums, lags and crossovers gives the same numbers in any order of its stages, from the position
    on at which all of them have seen enough: the sum of what they look back to.  Exact arithmetic. *)
Theorem C77_any_order s l l' xs : Permutation l l' -> l <> [] -> Forall periods_ok l -> xs <> [] -> rshaped s xs ->
  exists o o' sx ix sy iy,
    call (Compose (map (@operator_of ER) l)) (tensors s (fins xs)) None true = Ok (tensors s (fins o), sx, ix) /\
    call (Compose (map (@operator_of ER) l')) (tensors s (fins xs)) None true = Ok (tensors s (fins o'), sy, iy) /\
    length o = length xs /\ length o' = length xs /\
    forall n j, (warm_up l <= n)%nat -> (n < length xs)%nat -> (j < prod s)%nat -> rnumber o j n = rnumber o' j n.
Proof. exact (any_order s l l' xs). Qed.
Print Assumptions C77_any_order.
(** Not before: over 5, 5, 5 the change of the average of two shows the average appear at position 1. *)
Theorem C77_warm_up_refuted log32 : let N := B32 log32 in let xs := @scalars N (map b32_of_Z [5; 5; 5]%Z) in
  exists sx ix sy iy,
    @call N (Compose (map (@operator_of N) [Change 1; Average 2])) xs None true = Ok (@scalars N (map b32_of_Z [0; 5; 0]%Z), sx, ix) /\
    @call N (Compose (map (@operator_of N) [Average 2; Change 1])) xs None true = Ok (@scalars N (map b32_of_Z [0; 0; 0]%Z), sy, iy).
Proof. exact (order_matters_early log32). Qed.
Print Assumptions C77_warm_up_refuted.
(** And exponential averages do not commute with a change: their first value stays in them. *)
Theorem C77_exponential_refuted log32 : let N := B32 log32 in let xs := @scalars N (map b32_of_Z [0; 48; 0; 0; 0; 0]%Z) in
  exists sx ix sy iy,
    @call N (Compose [@Momentum N 1; @ExponentialMovingAverage N 3]) xs None true = Ok (@scalars N (map b32_of_Z [0; 0; 16; -8; -4; -2]%Z), sx, ix) /\
    @call N (Compose [@ExponentialMovingAverage N 3; @Momentum N 1]) xs None true = Ok (@scalars N (map b32_of_Z [0; 0; 0; 0; 0; 0]%Z), sy, iy).
Proof. exact (exponential_order log32). Qed.
Print Assumptions C77_exponential_refuted.

Example C77_met : let l := [Average 3; Change 2; Delay 1; Spread 4 2] in let xs := [[1; 2]; [3; 5]; [4; 4]; [7; 1]; [2; 2]; [9; 8]; [1; 1]; [6; 3]; [2; 4]; [5; 5]] in
  Permutation l [Spread 4 2; Delay 1; Average 3; Change 2] /\ Forall periods_ok l /\ rshaped [2%nat] xs /\ warm_up l = 8%nat /\ (warm_up l < length xs)%nat.
Proof.
  cbv zeta. split; [|split; [repeat constructor; cbn; lia|split; [split; [repeat (constructor; try reflexivity)|unfold short; cbn; lia]|split; [reflexivity|cbn; lia]]]].
  apply (Permutation_trans (l' := Spread 4 2 :: [Average 3; Change 2; Delay 1])); [apply Permutation_sym, (Permutation_cons_append [Average 3; Change 2; Delay 1])|].
  apply perm_skip, Permutation_sym, (Permutation_cons_append [Average 3; Change 2]).
Qed.
