(** * ImplScalar: operators on scalars: returns; lifting of the operators on tensors. *)
From Coq Require Import String List ZArith Bool Lia.
From Verif Require Import Num Py PyFacts Tensor Streamable Spec StreamFacts TensorFacts StreamProofs
  WfFacts Meta Common Finance Series Formulas EvalFacts Implements ImplMeta ImplBasic.
Import ListNotations.

Section ImplScalar.
Context {N : FOps}.

Definition sing (x : F) : list F := [x].
Lemma column_sing h : column f0 0 (map sing h) = h.
Proof. unfold column. rewrite map_map. apply map_id. Qed.
Lemma each_sing {B} (f : list F -> B) h : each [] f (map sing h) = [f h].
Proof. unfold each. cbn [prod fold_right seq map]. now rewrite column_sing. Qed.
Lemma shaped_sing h : shaped [] (map sing h).
Proof. unfold shaped. apply Forall_map, Forall_forall. reflexivity. Qed.
Lemma ok_rows_sing h : short h -> ok_rows [] (map sing h).
Proof. intros H. split; [apply shaped_sing|]. eapply short_le; [exact H|]. now rewrite map_length. Qed.
Definition on_sing (E : pyval (list (list F) -> tensor)) : pyval (list F -> tensor) :=
  vmap (fun g h => g (map sing h)) E.
Lemma implements_scalar op f ES :
  implements op (ok_rows []) (Leaf (mkF [])) (Leaf (fun h => mkF [] (each [] f h))) ES ->
  implements op short (Leaf fsc) (Leaf (fun h => fsc (f h))) (on_sing ES).
Proof.
  intros IM. eapply implements_out.
  - eapply implements_weaken;
      [exact (implements_pull sing _ _ _ _ _ IM)|apply short_nil|apply short_tl|].
    intros h. apply ok_rows_sing.
  - apply typed_fsc.
  - intros h _ _. cbn [at_ vmap]. now rewrite each_sing.
Qed.
Lemma scalars_streams op P f ES :
  implements op P (Leaf fsc) (Leaf (fun h => fsc (f h))) ES ->
  streams op P scalars (fun hs => scalars (map f hs)).
Proof.
  intros IM. eapply streams_of; [exact IM|discriminate|..].
  - intros xs NE. cbn [stacked vmap]. now rewrite stack_fsc.
  - intros hs NE. cbn [stacked vmap]. unfold scalars. f_equal.
    rewrite <- (map_map f fsc). apply stack_fsc. destruct hs; [easy|discriminate].
Qed.

(** The buffer of the last [p] scalars. *)
Definition sbuf (p : nat) (h : list F) : tensor := mkT [p] (DF (window p f0 h)).
Lemma sbuf_wnd p h : sbuf p h = mkb F32 p [] (wnd F32 p [] (map sing h)).
Proof.
  unfold sbuf, mkb, wnd. do 2 f_equal. cbn [zero_of elt mkD].
  change (repeat f0 (prod [])) with (sing f0). rewrite <- window_map. f_equal. symmetry. apply concat_singletons.
Qed.
Lemma sbuf_roll p x h : p >= 1 -> roll (fsc x) (sbuf p h) = Ok (sbuf p (x :: h)).
Proof.
  intros Hp. rewrite !sbuf_wnd. apply (wnd_rollF p [] (sing x) (map sing h) Hp). apply (shaped_sing (x :: h)).
Qed.
Lemma sbuf_zeros p x : zeros_buffer (Z.of_nat p) (fsc x) = Ok (sbuf p []).
Proof. rewrite sbuf_wnd. apply (wnd_zerosF p [] (sing x)). Qed.
Lemma sbuf_index p h i : i < p -> index0 (sbuf p h) (Z.of_nat i) = Ok (fsc (ago i h)).
Proof.
  intros Hi. rewrite sbuf_wnd. rewrite index0_buf by auto using wnd_length, wnd_shaped, shaped_sing.
  rewrite wnd_nth by assumption. cbn [mkD]. unfold fsc, ago.
  change (repeat (zero_of F32) (prod [])) with (sing f0). rewrite map_nth. reflexivity.
Qed.
Lemma sbuf_index' p h z i : z = Z.of_nat i -> i < p -> index0 (sbuf p h) z = Ok (fsc (ago i h)).
Proof. intros ->. apply sbuf_index. Qed.
Lemma treduce0_list r n l : length l = n -> treduce0 r (mkT [n] (DF l)) = Ok (fsc (r l)).
Proof.
  intros <-. assert (E := treduce0_buf r (length l) [] (map sing l)).
  unfold mkb in E. rewrite each_sing in E. cbn [mkD elt] in E. unfold sing in E. rewrite concat_singletons in E.
  apply E; [apply map_length|]. apply shaped_sing.
Qed.
Lemma treduce0_sbuf r p h : treduce0 r (sbuf p h) = Ok (fsc (r (window p f0 h))).
Proof. apply treduce0_list, window_length. Qed.
Lemma treduce_num_list r ri s l : treduce_num r ri (mkT s (DF l)) = Ok (fsc (r l)).
Proof. reflexivity. Qed.
Lemma treduce_all_list r s l : treduce_all r (mkT s (DF l)) = Ok (fsc (r l)).
Proof. reflexivity. Qed.
Lemma typed_sbuf (P : list F -> Prop) p : typed P (Leaf (sbuf p)).
Proof. apply (typed_leaf _ _ ([p], F32)). intros. split; [reflexivity|]. unfold wf. simpl. rewrite window_length. lia. Qed.

(** ** Return, LogarithmicReturn *)
Definition buf_st (p : nat) : pyval (list F -> tensor) := Tup [Leaf cnt; Leaf (sbuf p)].
Lemma return_implements f g p : p >= 1 -> feq f0 f0 = true -> (forall a, f (fsc a) = Ok (fsc (g a))) ->
  implements (Plain (return_step f (Z.of_nat p))) short (Leaf fsc) (Leaf (fun h => fsc (change g p h))) (buf_st p).
Proof.
  intros Hp H00 Hf. apply implements_intro.
  - apply short_nil.
  - apply short_tl.
  - apply (typed_fsc _ (fun x => x)).
  - apply typed_fsc.
  - ttup; [apply typed_cnt|apply typed_sbuf].
  - intros x h H. cbn [forward_step at_ vmap buf_st map app]. unfold return_step. args.
    rewrite (sbuf_index' p h _ (p - 1)) by lia. cbn [bind].
    rewrite sbuf_roll by assumption. cbn [bind].
    rewrite (cnt_lt_pred x) by assumption. cbn [bind].
    rewrite int_op_f. unfold tequal. rewrite tcmp_ff. cbn [bind]. unfold tlogical_or. rewrite tbool2_bb. cbn [bind].
    rewrite zeros_like_f. unfold tdiv. rewrite tbin_ff. cbn [bind]. rewrite Hf, tcond_f. cbn [bind].
    rewrite (cnt_next x). cbn [bind]. do 5 f_equal.
    unfold change. cbn [length]. change (ago p (x :: h)) with (nth p (x :: h) f0).
    replace (nth p (x :: h) f0) with (ago (p - 1) h)
      by (unfold ago; destruct p; [lia|simpl; now rewrite Nat.sub_0_r]).
    destruct (Nat.ltb_spec (S (length h)) p), (Nat.leb_spec (S (length h)) p); try lia; try reflexivity.
    assert (E : ago (p - 1) h = f0) by (unfold ago; apply nth_overflow; lia).
    rewrite E. change (f_of_Z 0) with f0. rewrite H00. reflexivity.
  - intros x H. cbn [forward_step at_ vmap buf_st map app]. unfold return_step. args.
    now rewrite sbuf_zeros.
Qed.
Lemma ret_implements p : p >= 1 -> feq f0 f0 = true ->
  implements (Return (Z.of_nat p)) short (Leaf fsc) (Leaf (fun h => fsc (ret p h))) (buf_st p).
Proof. intros Hp H0. now apply return_implements. Qed.
Lemma log_ret_implements p : p >= 1 -> feq f0 f0 = true ->
  implements (LogarithmicReturn (Z.of_nat p)) short (Leaf fsc) (Leaf (fun h => fsc (log_ret p h))) (buf_st p).
Proof. intros Hp H0. now apply return_implements. Qed.
Theorem ret_streams p : p >= 1 -> feq f0 f0 = true ->
  streams (Return (Z.of_nat p)) short scalars (fun hs => scalars (map (ret p) hs)).
Proof. intros Hp H0. eapply scalars_streams, ret_implements; assumption. Qed.
Theorem log_ret_streams p : p >= 1 -> feq f0 f0 = true ->
  streams (LogarithmicReturn (Z.of_nat p)) short scalars (fun hs => scalars (map (log_ret p) hs)).
Proof. intros Hp H0. eapply scalars_streams, log_ret_implements; assumption. Qed.
End ImplScalar.
