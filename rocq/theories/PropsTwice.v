(** * PropsTwice: property C85 — extrema of extrema (exact arithmetic).
    Vocabulary: Agree.v ([outputs op xs out]: streaming [op] over the numbers [xs] gives the numbers [out]; [countable]; [at_pos]: the number at a position).
    [Compose [b; a]] feeds the outputs of [a] to [b]. *)
From Coq Require Import Reals Lra List ZArith Bool Lia.
From Verif Require Import Num Py Tensor Streamable Common Finance Meta Series Formulas ER Linear Agree TwiceFacts.
Import ListNotations.
Local Open Scope R_scope.

(** The maximum of the last [q] maxima of the last [p] numbers is the maximum of the last [p + q - 1] numbers, at every position; likewise the minimum. *)
Theorem C85_local p q xs : (1 <= p)%nat -> (1 <= q)%nat -> (Z.of_nat (p + q) < 2147483648)%Z -> countable xs ->
  exists high low, outputs (LocalMaximum (Z.of_nat (p + q - 1))) xs high /\ outputs (Compose [LocalMaximum (Z.of_nat q); LocalMaximum (Z.of_nat p)]) xs high /\
    outputs (LocalMinimum (Z.of_nat (p + q - 1))) xs low /\ outputs (Compose [LocalMinimum (Z.of_nat q); LocalMinimum (Z.of_nat p)]) xs low.
Proof. exact (local_twice p q xs). Qed.
Print Assumptions C85_local.
(** A global extremum before or after an extremum of the same kind is the global extremum. *)
Theorem C85_global p xs : (1 <= p)%nat -> (Z.of_nat p < 2147483648)%Z -> countable xs ->
  exists high low, outputs GlobalMaximum xs high /\ outputs (Compose [GlobalMaximum; LocalMaximum (Z.of_nat p)]) xs high /\ outputs (Compose [LocalMaximum (Z.of_nat p); GlobalMaximum]) xs high /\
    outputs (Compose [GlobalMaximum; GlobalMaximum]) xs high /\
    outputs GlobalMinimum xs low /\ outputs (Compose [GlobalMinimum; LocalMinimum (Z.of_nat p)]) xs low /\ outputs (Compose [LocalMinimum (Z.of_nat p); GlobalMinimum]) xs low /\
    outputs (Compose [GlobalMinimum; GlobalMinimum]) xs low.
Proof. exact (global_twice p xs). Qed.
Print Assumptions C85_global.
(** Minimum after maximum and maximum after minimum do not cancel: they enclose the number [p - 1] positions back. *)
Theorem C85_envelope p xs : (1 <= p)%nat -> (Z.of_nat p < 2147483648)%Z -> countable xs ->
  exists upper lower, outputs (Compose [LocalMinimum (Z.of_nat p); LocalMaximum (Z.of_nat p)]) xs upper /\ outputs (Compose [LocalMaximum (Z.of_nat p); LocalMinimum (Z.of_nat p)]) xs lower /\
    forall m, (p <= m + 1)%nat -> (m < length xs)%nat -> at_pos lower m <= at_pos xs (m + 1 - p) <= at_pos upper m.
Proof. exact (closing p xs). Qed.
Print Assumptions C85_envelope.

(** The hypotheses are met. *)
Example C85_met : (1 <= 2)%nat /\ (1 <= 3)%nat /\ (Z.of_nat (2 + 3) < 2147483648)%Z /\ countable [3; 1; 4; 1; 5].
Proof. split; [lia|]. split; [lia|]. split; [reflexivity|]. split; [discriminate|reflexivity]. Qed.
