(** * WitnessSeries: concrete series meeting the hypotheses of the closed-form theorems. *)
From Coq Require Import List ZArith Bool Lia.
From Verif Require Import Num Py Tensor Streamable Series Formulas B32 Order ImplComp ImplCorr ImplMarket Witness.
Import ListNotations.

(** Three rows of shape [2]. *)
Definition w_rows : list (list F) := map (map fz) [[1; 5]; [2; 3]; [4; 9]]%Z.
Lemma w_rows_ok : ok_rows [2] (rev w_rows).
Proof. split; [repeat constructor|]. unfold short. cbn [rev app length w_rows map]. lia. Qed.
Lemma w_rows_ne : w_rows <> [].
Proof. discriminate. Qed.
Ltac shortly := unfold short; cbn [rev app length map]; lia.
(** Six numbers, one of them 0. *)
Definition w_numbers : list F := map fz [3; 5; 4; 0; 7; 6]%Z.
Lemma w_numbers_ok : short (rev w_numbers).
Proof. unfold short. cbn [rev app length w_numbers map]. lia. Qed.
Lemma w_numbers_ne : w_numbers <> [].
Proof. discriminate. Qed.
(** Values on both sides of 0, and pairs of numbers, pairs of rows, candles, ticks. *)
Definition w_signed : list (list F) := map (map fz) [[0; 1]; [2; -3]; [-1; 0]; [0; 4]]%Z.
Lemma w_signed_ok : ok_rows [2] (rev w_signed).
Proof. split; [repeat constructor|]. unfold short. cbn [rev app length w_signed map]. lia. Qed.
Lemma w_signed_usable : Forall (Forall b32_usable) w_signed.
Proof. repeat constructor; try discriminate. Qed.
Lemma w_numbers_usable : Forall b32_usable w_numbers.
Proof. repeat constructor; try discriminate. Qed.
Definition w_pairs : list (F * F) := map (fun x => (fz (fst x), fz (snd x))) [(3, 1); (5, 2); (4, 2)]%Z.
Lemma w_pairs_ok : short (rev w_pairs).
Proof. unfold short. cbn [rev app length w_pairs map]. lia. Qed.
Definition w_two_rows : list (list F * list F) := combine w_signed (rev w_signed).
Lemma w_two_rows_ok : two_rows [2] (rev w_two_rows).
Proof. split; [repeat constructor|]. split; [repeat constructor|]. unfold short, w_two_rows, w_signed. cbn [rev app length combine map]. lia. Qed.
Definition w_candles : list candle := map (fun x => Candle (fz x) (fz (x + 2)) (fz (x - 1)) (fz (x + 1))) [10; 12; 11; 14]%Z.
Lemma w_candles_ok : short (rev w_candles).
Proof. unfold short. cbn [rev app length w_candles map]. lia. Qed.
