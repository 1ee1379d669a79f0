(** * ZeroFacts: facts about zero in the two arithmetics. *)
From Coq Require Import Reals Lra ZArith.
From Verif Require Import Num B32 ER RealMarket.

Lemma zero_facts : (forall log32, let N := B32 log32 in feq f0 f0 = true /\ fsub f0 f0 = f0) /\
  (let N := ER in feq f0 f0 = true /\ fsub f0 f0 = f0).
Proof.
  split; [intros log32; split; reflexivity|]. cbv zeta. split.
  - cbn. unfold Reqb. destruct (Req_EM_T 0 0); [reflexivity|lra].
  - cbn. f_equal. lra.
Qed.
