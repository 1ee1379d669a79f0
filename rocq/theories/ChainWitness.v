(** * ChainWitness: pipelines whose order matters (C77). *)
From Coq Require Import List ZArith Bool.
From Verif Require Import Num Py Tensor Streamable Meta Common Finance Series B32 Chain SignPos.
Import ListNotations.

Lemma order_matters_early log32 : let N := B32 log32 in let xs := @scalars N (map b32_of_Z [5; 5; 5]%Z) in
  exists sx ix sy iy,
    @call N (Compose (map (@operator_of N) [Change 1; Average 2])) xs None true = Ok (@scalars N (map b32_of_Z [0; 5; 0]%Z), sx, ix) /\
    @call N (Compose (map (@operator_of N) [Average 2; Change 1])) xs None true = Ok (@scalars N (map b32_of_Z [0; 0; 0]%Z), sy, iy).
Proof.
  cbv zeta. set (r := @call _ (Compose (map _ [Change 1; Average 2])) _ _ _). set (r' := @call _ (Compose (map _ [Average 2; Change 1])) _ _ _).
  exists (state_of r), (start_of r), (state_of r'), (start_of r'). split; [vm_cast_no_check (@eq_refl _ r)|vm_cast_no_check (@eq_refl _ r')].
Qed.
Lemma exponential_order log32 : let N := B32 log32 in let xs := @scalars N (map b32_of_Z [0; 48; 0; 0; 0; 0]%Z) in
  exists sx ix sy iy,
    @call N (Compose [@Momentum N 1; @ExponentialMovingAverage N 3]) xs None true = Ok (@scalars N (map b32_of_Z [0; 0; 16; -8; -4; -2]%Z), sx, ix) /\
    @call N (Compose [@ExponentialMovingAverage N 3; @Momentum N 1]) xs None true = Ok (@scalars N (map b32_of_Z [0; 0; 0; 0; 0; 0]%Z), sy, iy).
Proof.
  cbv zeta. set (r := @call _ (Compose [Momentum 1; _]) _ _ _). set (r' := @call _ (Compose [_; Momentum 1]) _ _ _).
  exists (state_of r), (start_of r), (state_of r'), (start_of r'). split; [vm_cast_no_check (@eq_refl _ r)|vm_cast_no_check (@eq_refl _ r')].
Qed.
