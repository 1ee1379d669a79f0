(** * WfFacts: every tensor operation returns a well-formed tensor on well-formed
    tensors. *)
From Coq Require Import String List ZArith Bool Lia.
From Verif Require Import Num Py PyFacts Tensor Streamable Spec StreamFacts TensorFacts Common Finance.
Import ListNotations.

Section WfFacts.
Context {N : FOps}.

Lemma wf_fsc x : wf (fsc x). Proof. reflexivity. Qed.
Lemma wf_isc x : wf (isc x). Proof. reflexivity. Qed.
Lemma wf_bsc x : wf (bsc x). Proof. reflexivity. Qed.
Lemma wf_pyint_like t z u : pyint_like t z = Ok u -> wf u.
Proof. unfold pyint_like. destruct (dat t); intros H; try discriminate; now injection H as <-. Qed.
Lemma wf_pyfloat_like t z u : pyfloat_like t z = Ok u -> wf u.
Proof. unfold pyfloat_like. destruct (dat t); intros H; try discriminate; now injection H as <-. Qed.
Lemma wf_pynum_like t z u : pynum_like t z = Ok u -> wf u.
Proof. destruct z; [apply wf_pyint_like|apply wf_pyfloat_like]. Qed.
Lemma wf_zeros s d : wf (zeros s d).
Proof. unfold wf, zeros. destruct d; simpl; apply repeat_length. Qed.
Lemma wf_ones s d : wf (ones s d).
Proof. unfold wf, ones. destruct d; simpl; apply repeat_length. Qed.
Lemma wf_zeros_like t : wf (zeros_like t).
Proof. apply wf_zeros. Qed.
Lemma wf_fill s v u : fill s v = Ok u -> wf u.
Proof.
  unfold fill. destruct (sh v); [|discriminate].
  destruct (dat v) as [[|? [|]]|[|? [|]]|[|? [|]]]; intros H; try discriminate; injection H as <-;
    unfold wf; simpl; apply repeat_length.
Qed.
Lemma wf_zeros_buffer p v u : zeros_buffer p v = Ok u -> wf u.
Proof. unfold zeros_buffer. destruct (Z.ltb p 0); intros H; [discriminate|]. injection H as <-. apply wf_zeros. Qed.

Lemma lslice_length {A} off len (l : list A) : off + len <= length l -> length (lslice off len l) = len.
Proof. intros H. unfold lslice. rewrite firstn_length, skipn_length. lia. Qed.
Lemma dlen_dslice off len d : off + len <= dlen d -> dlen (dslice off len d) = len.
Proof. destruct d; simpl; apply lslice_length. Qed.
Lemma wf_index0 t i u : wf t -> index0 t i = Ok u -> wf u.
Proof.
  unfold index0, wf. destruct (sh t) as [|n s]; [discriminate|]. intros W.
  set (j := if Z.ltb i 0 then (i + Z.of_nat n)%Z else i).
  destruct (Z.leb_spec 0 j); simpl; [|discriminate].
  destruct (Z.ltb_spec j (Z.of_nat n)); simpl; [|discriminate].
  intros E. injection E as <-. simpl. apply dlen_dslice. rewrite W. simpl.
  assert (Z.to_nat j < n) by lia. nia.
Qed.
Lemma wf_slice0 t a b u : wf t -> slice0 t a b = Ok u -> wf u.
Proof.
  unfold slice0, wf. destruct (sh t) as [|n s]; [discriminate|]. intros W E. injection E as <-.
  set (norm := fun x => if Z.ltb x 0 then Z.max 0 (x + Z.of_nat n) else Z.min x (Z.of_nat n)).
  change (if (a <? 0)%Z then Z.max 0 (a + Z.of_nat n) else Z.min a (Z.of_nat n)) with (norm a).
  change (if (b <? 0)%Z then Z.max 0 (b + Z.of_nat n) else Z.min b (Z.of_nat n)) with (norm b).
  assert (Hb : Z.to_nat (norm b) <= n).
  { unfold norm. destruct (Z.ltb_spec b 0); lia. }
  assert (Ha : Z.to_nat (norm a) <= n).
  { unfold norm. destruct (Z.ltb_spec a 0); lia. }
  simpl. apply dlen_dslice. rewrite W. simpl.
  set (a' := Z.to_nat (norm a)) in *. set (b' := Z.to_nat (norm b)) in *. nia.
Qed.
Lemma wf_droplast0 t u : wf t -> droplast0 t = Ok u -> wf u.
Proof. apply wf_slice0. Qed.
Lemma wf_expand0 t : wf t -> wf (expand0 t).
Proof. unfold wf, expand0. simpl. lia. Qed.
Lemma wf_concat0 t u r : wf t -> wf u -> concat0 t u = Ok r -> wf r.
Proof.
  unfold concat0, wf. destruct (sh t) as [|n s]; [discriminate|]. destruct (sh u) as [|m s']; [discriminate|].
  intros Wt Wu. destruct (shape_eqb s s') eqn:E; [|discriminate]. apply shape_eqb_eq in E. subst s'.
  intros H. apply bind_ok in H as (d & Hd & H). injection H as <-. simpl in *.
  destruct (dat t), (dat u); simpl in *; try discriminate; injection Hd as <-; simpl;
    rewrite app_length, Wt, Wu; lia.
Qed.
Lemma wf_tstack ts t : Forall wf ts -> tstack ts = Ok t -> wf t.
Proof. intros W H. apply tstack_iff in H as (NE & S & ->). now apply stackT_facts. Qed.
Lemma concat_repeat_length {A} (l : list A) n : length (concat (repeat l n)) = n * length l.
Proof. induction n; simpl; [reflexivity|]. rewrite app_length. lia. Qed.
Lemma wf_tile0 n t : wf t -> wf (tile0 n t).
Proof. unfold wf, tile0. intros W. destruct (dat t); simpl in *; rewrite concat_repeat_length; lia. Qed.

(** Broadcasting *)
Lemma map2_length {A B C} (f : A -> B -> C) l m : length l = length m -> length (map2 f l m) = length l.
Proof. revert m; induction l; destruct m; simpl; intros H; try discriminate; auto. Qed.
Lemma prod_pad r s : prod (pad_shape r s) = prod s.
Proof. unfold pad_shape. induction (r - length s); simpl; lia. Qed.
Lemma length_pad r s : length s <= r -> length (pad_shape r s) = r.
Proof. intros H. unfold pad_shape. rewrite app_length, repeat_length. lia. Qed.

Lemma concat_length_k {A} (ls : list (list A)) k :
  Forall (fun l => length l = k) ls -> length (concat ls) = length ls * k.
Proof. induction 1; simpl; [reflexivity|]. rewrite app_length. lia. Qed.

Definition fits (s target : list nat) : Prop := Forall2 (fun m n => m = n \/ m = 1) s target.
Lemma bshape_fits a : forall b s, bshape a b = Some s -> fits a s /\ fits b s.
Proof.
  unfold fits. induction a as [|x a IH]; intros [|y b] s H; simpl in H; try discriminate.
  - injection H as <-. auto.
  - destruct (bshape a b) as [r|] eqn:E; [|discriminate]. destruct (IH _ _ E) as [F1 F2].
    destruct (Nat.eqb_spec x y).
    + injection H as <-. auto.
    + destruct (Nat.eqb_spec x 1); [injection H as <-; auto|].
      destruct (Nat.eqb_spec y 1); [injection H as <-; auto|discriminate].
Qed.
Lemma chunks_lengths {A} n k (l : list A) : length l = n * k -> Forall (fun c => length c = k) (chunks n k l).
Proof.
  intros H. unfold chunks. apply Forall_map, Forall_forall. intros i Hi. apply in_seq in Hi.
  apply lslice_length. rewrite H. nia.
Qed.
Lemma expand_length {A} target : forall s (l : list A),
  fits s target -> length l = prod s -> length (expand target s l) = prod target.
Proof.
  induction target as [|n t' IH]; intros s l F L; inversion F as [|m ? s' ? Hm F']; subst.
  - exact L.
  - cbn [expand]. assert (C := chunks_lengths m (prod s') l L).
    assert (D : Forall (fun c => length c = prod t') (map (expand t' s') (chunks m (prod s') l))).
    { apply Forall_map. eapply Forall_impl; [|exact C]. intros c Hc. apply IH; auto. }
    assert (LC : length (chunks m (prod s') l) = m) by (unfold chunks; now rewrite map_length, seq_length).
    destruct (Nat.eqb_spec m n).
    + subst m. rewrite (concat_length_k _ (prod t')) by exact D. rewrite map_length, LC. reflexivity.
    + destruct Hm as [|Hm]; [easy|]. subst m.
      rewrite concat_repeat_length. change (prod (n :: t')) with (n * prod t'). f_equal.
      destruct (map (expand t' s') (chunks 1 (prod s') l)) as [|c cs] eqn:E.
      * apply (f_equal (@length _)) in E. rewrite map_length, LC in E. discriminate.
      * inversion D; assumption.
Qed.
Lemma bop_length {A B C} (f : A -> B -> C) s1 s2 l1 l2 s l :
  length l1 = prod s1 -> length l2 = prod s2 -> bop f s1 s2 l1 l2 = Ok (s, l) -> length l = prod s.
Proof.
  intros L1 L2. unfold bop. destruct (shape_eqb s1 s2) eqn:E.
  - apply shape_eqb_eq in E. subst. intros H. injection H as <- <-. rewrite map2_length; congruence.
  - destruct (bshape _ _) as [r|] eqn:Eb; [|discriminate]. intros H. injection H as <- <-.
    apply bshape_fits in Eb as [F1 F2].
    rewrite map2_length; rewrite !expand_length; auto; now rewrite prod_pad.
Qed.

Lemma wf_tbin ff fi t u r : wf t -> wf u -> tbin ff fi t u = Ok r -> wf r.
Proof.
  unfold tbin, wf. destruct (dat t) as [a|a|a]; destruct (dat u) as [b|b|b]; intros W1 W2 H; try discriminate.
  - apply bind_ok in H as ([s l] & H & E). injection E as <-. eapply bop_length; [exact W1|exact W2|exact H].
  - destruct fi; [|discriminate].
    apply bind_ok in H as ([s l] & H & E). injection E as <-. eapply bop_length; [exact W1|exact W2|exact H].
Qed.
Lemma wf_tadd t u r : wf t -> wf u -> tadd t u = Ok r -> wf r. Proof. apply wf_tbin. Qed.
Lemma wf_tsub t u r : wf t -> wf u -> tsub t u = Ok r -> wf r. Proof. apply wf_tbin. Qed.
Lemma wf_tmul t u r : wf t -> wf u -> tmul t u = Ok r -> wf r. Proof. apply wf_tbin. Qed.
Lemma wf_tdiv t u r : wf t -> wf u -> tdiv t u = Ok r -> wf r. Proof. apply wf_tbin. Qed.
Lemma wf_tmaximum t u r : wf t -> wf u -> tmaximum t u = Ok r -> wf r. Proof. apply wf_tbin. Qed.
Lemma wf_tminimum t u r : wf t -> wf u -> tminimum t u = Ok r -> wf r. Proof. apply wf_tbin. Qed.
Lemma wf_tcmp ff fi t u r : wf t -> wf u -> tcmp ff fi t u = Ok r -> wf r.
Proof.
  unfold tcmp, wf. destruct (dat t) as [a|a|a]; destruct (dat u) as [b|b|b]; intros W1 W2 H; try discriminate.
  - apply bind_ok in H as ([s l] & H & E). injection E as <-. eapply bop_length; [exact W1|exact W2|exact H].
  - apply bind_ok in H as ([s l] & H & E). injection E as <-. eapply bop_length; [exact W1|exact W2|exact H].
Qed.
Lemma wf_tless t u r : wf t -> wf u -> tless t u = Ok r -> wf r. Proof. apply wf_tcmp. Qed.
Lemma wf_tgreater t u r : wf t -> wf u -> tgreater t u = Ok r -> wf r. Proof. apply wf_tcmp. Qed.
Lemma wf_tless_equal t u r : wf t -> wf u -> tless_equal t u = Ok r -> wf r. Proof. apply wf_tcmp. Qed.
Lemma wf_tgreater_equal t u r : wf t -> wf u -> tgreater_equal t u = Ok r -> wf r. Proof. apply wf_tcmp. Qed.
Lemma wf_tequal t u r : wf t -> wf u -> tequal t u = Ok r -> wf r. Proof. apply wf_tcmp. Qed.
Lemma wf_tbool2 f t u r : wf t -> wf u -> tbool2 f t u = Ok r -> wf r.
Proof.
  unfold tbool2, wf. destruct (dat t) as [a|a|a]; destruct (dat u) as [b|b|b]; intros W1 W2 H; try discriminate.
  apply bind_ok in H as ([s l] & H & E). injection E as <-. eapply bop_length; [exact W1|exact W2|exact H].
Qed.
Lemma wf_tlogical_and t u r : wf t -> wf u -> tlogical_and t u = Ok r -> wf r. Proof. apply wf_tbool2. Qed.
Lemma wf_tlogical_or t u r : wf t -> wf u -> tlogical_or t u = Ok r -> wf r. Proof. apply wf_tbool2. Qed.
Lemma wf_tlogical_not t r : wf t -> tlogical_not t = Ok r -> wf r.
Proof.
  unfold tlogical_not, wf. destruct (dat t); intros W H; try discriminate. injection H as <-. simpl.
  now rewrite map_length.
Qed.
Lemma wf_tun f t r : wf t -> tun f t = Ok r -> wf r.
Proof.
  unfold tun, wf. destruct (dat t); intros W H; try discriminate. injection H as <-. simpl. now rewrite map_length.
Qed.
Lemma wf_tneg t r : wf t -> tneg t = Ok r -> wf r. Proof. apply wf_tun. Qed.
Lemma wf_tabs t r : wf t -> tabs t = Ok r -> wf r. Proof. apply wf_tun. Qed.
Lemma wf_tsqrt t r : wf t -> tsqrt t = Ok r -> wf r. Proof. apply wf_tun. Qed.
Lemma wf_tlog t r : wf t -> tlog t = Ok r -> wf r. Proof. apply wf_tun. Qed.
Lemma wf_tsign t r : wf t -> tsign t = Ok r -> wf r. Proof. apply wf_tun. Qed.
Lemma wf_tpow t k r : wf t -> tpow t k = Ok r -> wf r. Proof. apply wf_tun. Qed.
Lemma wf_tis_nan t r : wf t -> tis_nan t = Ok r -> wf r.
Proof.
  unfold tis_nan, wf. destruct (dat t); intros W H; try discriminate. injection H as <-. simpl. now rewrite map_length.
Qed.
Lemma wf_tcast_i32 t r : wf t -> tcast_i32 t = Ok r -> wf r.
Proof.
  unfold tcast_i32, wf. destruct t as [s [a|a|a]]; intros W H; injection H as <-; simpl in *;
    rewrite ?map_length; auto.
Qed.
Lemma sel3_length {A} c (x y : list A) n : length c = n -> length x = n -> length y = n -> length (sel3 c x y) = n.
Proof. intros. unfold sel3. rewrite map2_length; rewrite ?combine_length; lia. Qed.
Lemma wf_twhere c x y r : wf c -> wf x -> wf y -> twhere c x y = Ok r -> wf r.
Proof.
  unfold twhere. destruct (shape_eqb (sh c) (sh x) && shape_eqb (sh x) (sh y)) eqn:E; [|discriminate].
  apply andb_true_iff in E as [E1 E2]. apply shape_eqb_eq in E1, E2.
  unfold wf. rewrite E1, <- E2. intros W1 W2 W3 H.
  destruct (dat c); try discriminate.
  destruct (dat x), (dat y); try discriminate; injection H as <-; simpl in *; now apply sel3_length.
Qed.
Lemma wf_treduce0 f t r : treduce0 f t = Ok r -> wf r.
Proof.
  unfold treduce0, wf. destruct (sh t); [discriminate|]. destruct (dat t); intros H; try discriminate.
  injection H as <-. simpl. now rewrite map_length, seq_length.
Qed.
Lemma wf_treduce_sum0 t r : treduce_sum0 t = Ok r -> wf r. Proof. apply wf_treduce0. Qed.
Lemma wf_treduce_mean0 t r : treduce_mean0 t = Ok r -> wf r. Proof. apply wf_treduce0. Qed.
Lemma wf_tmoments0 t m v : tmoments0 t = Ok (m, v) -> wf m /\ wf v.
Proof.
  unfold tmoments0. intros H. apply bind_ok in H as (m' & H1 & H). apply bind_ok in H as (v' & H2 & H).
  injection H as <- <-. split; eapply wf_treduce0; eauto.
Qed.
Lemma wf_treduce_num f g t r : treduce_num f g t = Ok r -> wf r.
Proof. unfold treduce_num. destruct (dat t); intros H; try discriminate; now injection H as <-. Qed.
Lemma wf_treduce_all f t r : treduce_all f t = Ok r -> wf r.
Proof. unfold treduce_all. destruct (dat t); intros H; try discriminate. now injection H as <-. Qed.
Lemma wf_treduce_any t r : treduce_any t = Ok r -> wf r.
Proof. unfold treduce_any. destruct (dat t); intros H; try discriminate. now injection H as <-. Qed.
Lemma wf_roll v t r : wf v -> wf t -> roll v t = Ok r -> wf r.
Proof.
  intros W1 W2 H. apply bind_ok in H as (u & Hu & H). eapply wf_concat0; [| |exact H].
  - now apply wf_expand0.
  - eapply wf_droplast0; eauto.
Qed.
Lemma wf_shift v t r : wf v -> wf t -> shift v t = Ok r -> wf r.
Proof.
  unfold shift. intros W1 W2 H. unfold wf in W2. destruct (sh t) as [|n [|? ?]]; try discriminate.
  eapply wf_concat0; [| |exact H]; [now apply wf_expand0|].
  unfold wf. simpl. rewrite dlen_dslice; [lia|]. rewrite W2. simpl. lia.
Qed.
Lemma wf_slice_to t k r : wf t -> slice_to t k = Ok r -> wf r.
Proof.
  unfold slice_to. intros W H. destruct (sh k); [|discriminate]. destruct (dat k) as [|[|z [|]]|]; try discriminate.
  eapply wf_slice0; eauto.
Qed.
Lemma wf_int_op (op : tensor -> tensor -> res tensor) t z r :
  (forall t u r, wf t -> wf u -> op t u = Ok r -> wf r) -> wf t -> int_op op t z = Ok r -> wf r.
Proof.
  intros Hop W H. apply bind_ok in H as (u & Hu & H). eapply Hop; [| |exact H]; auto. eapply wf_pyint_like; eauto.
Qed.
Lemma wf_first_slice t k r : wf t -> first_slice t k = Ok r -> wf r.
Proof. unfold first_slice. intros W H. apply bind_ok in H as (u & Hu & H). eapply wf_slice_to; eauto. Qed.
Lemma wf_rsi_clip f t r : wf t -> rsi_clip f t = Ok r -> wf r.
Proof.
  unfold rsi_clip, wf. destruct (sh t) as [|n [|? ?]]; try discriminate. destruct (dat t); try discriminate.
  intros W H. injection H as <-. simpl in *. now rewrite map_length.
Qed.
End WfFacts.
