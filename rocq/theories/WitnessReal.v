(** * WitnessReal: concrete series of real numbers meeting the hypotheses of the theorems in
    exact arithmetic. *)
From Coq Require Import Reals Lra List ZArith Bool Lia.
From Verif Require Import Num Py Tensor Streamable Series ER RealFacts MovingFacts StatReal.
Import ListNotations.

(** Three rows of shape [2]. *)
Definition w_reals : list (list R) := [[1; 5]; [2; 3]; [4; 9]]%R.
Lemma w_reals_ok : rshaped [2] w_reals.
Proof. split; [repeat constructor|]. unfold short. cbn [length w_reals]. lia. Qed.
Lemma w_reals_ne : w_reals <> [].
Proof. discriminate. Qed.
(** Three pairs of rows of shape [1], the second component constant from the second row on. *)
Definition w_rpairs : list (list R * list R) := [([1], [5]); ([2], [3]); ([4], [3])]%R.
Lemma w_rpairs_ok : rpairs_ok [1] w_rpairs.
Proof. split; [repeat constructor|]. unfold short. cbn [length w_rpairs]. lia. Qed.
Lemma w_rpairs_windows :
  ~ constant (map (fun i => rnumber (map fst w_rpairs) 0 (2 - i)) (seq 0 2)) /\
  constant (map (fun i => rnumber (map snd w_rpairs) 0 (2 - i)) (seq 0 2)).
Proof.
  split.
  - intros C. assert (E : 4%R = 2%R) by (apply C; cbn; auto). lra.
  - intros x y Hx Hy. cbn in Hx, Hy. destruct Hx as [<-|[<-|[]]]; destruct Hy as [<-|[<-|[]]]; reflexivity.
Qed.
