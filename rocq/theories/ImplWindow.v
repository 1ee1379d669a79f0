(** * ImplWindow: closed forms of the extrema, SharpeRatio and Skewness. *)
From Coq Require Import String List ZArith Bool Lia.
From Verif Require Import Num Py PyFacts Tensor Streamable Spec StreamFacts TensorFacts StreamProofs
  WfFacts Meta Common Finance Series Formulas EvalFacts Implements ImplMeta ImplBasic ImplScalar ImplComp.
Import ListNotations.

Section ImplWindow.
Context {N : FOps}.

(** ** Global extrema *)
Definition isnil {A} (h : list A) : bool := match h with [] => true | _ => false end.
Definition global_st (lt : F -> F -> bool) : pyval (list F -> tensor) :=
  Tup [Leaf (fun h => fsc (running lt h)); Leaf (fun h => bsc (isnil h))].
Lemma global_implements cmp lt : (forall a b, cmp (fsc a) (fsc b) = Ok (bsc (lt a b))) ->
  implements (Plain (global_step cmp)) (fun _ => True) (Leaf fsc) (Leaf (fun h => fsc (running lt h))) (global_st lt).
Proof.
  intros Hc. apply implements_intro; auto.
  - apply (typed_fsc _ (fun x => x)).
  - apply typed_fsc.
  - ttup; [apply typed_fsc|apply typed_bsc].
  - intros x h _. cbn [forward_step at_ vmap global_st map app]. unfold global_step. args.
    rewrite Hc. cbn [bind]. unfold tlogical_or. rewrite tbool2_bb. cbn [bind].
    rewrite tf_cond_pick'; [|apply solid_leaf..|reflexivity]. cbn [bind].
    destruct h as [|y h]; cbn [isnil orb]; [reflexivity|].
    change (running lt (x :: y :: h)) with (if lt x (running lt (y :: h)) then x else running lt (y :: h)).
    destruct (lt x (running lt (y :: h))) eqn:E; reflexivity.
Qed.
Theorem global_min_streams :
  streams GlobalMinimum (fun _ => True) scalars (fun hs => scalars (map (running flt) hs)).
Proof. eapply scalars_streams, global_implements. reflexivity. Qed.
Theorem global_max_streams :
  streams GlobalMaximum (fun _ => True) scalars (fun hs => scalars (map (running fgt) hs)).
Proof. eapply scalars_streams, global_implements. reflexivity. Qed.

(** ** Local extrema, Sharpe ratio, skewness: the last (at most) [p] values *)
Lemma firstn_window {A} p (z : A) h k : k <= length h -> k <= p -> firstn k (window p z h) = firstn k h.
Proof.
  intros H1 H2. unfold window. rewrite firstn_firstn, Nat.min_l by lia.
  rewrite firstn_app. replace (k - length h) with 0 by lia. now rewrite app_nil_r.
Qed.
Lemma sbuf_slice p x h : length h < p -> short (x :: h) -> (Z.of_nat p < 2147483648)%Z ->
  slice_to (sbuf p (x :: h)) (cnt (x :: h)) = Ok (mkT [S (length h)] (DF (x :: h))).
Proof.
  intros H Hs Hp. unfold cnt. rewrite wrap32_small by (cbn [length]; lia).
  unfold slice_to. cbn [sh dat isc]. unfold slice0, sbuf. cbn [sh dat prod fold_right dslice].
  destruct (Z.ltb_spec 0 0); [lia|]. destruct (Z.ltb_spec (Z.of_nat (length (x :: h))) 0); [lia|].
  replace (Z.to_nat (Z.min 0 (Z.of_nat p))) with 0 by lia.
  replace (Z.to_nat (Z.min (Z.of_nat (length (x :: h))) (Z.of_nat p))) with (S (length h)) by (cbn [length]; lia).
  rewrite Nat.sub_0_r, Nat.mul_1_r. do 3 f_equal. unfold lslice. cbn [skipn Nat.mul].
  rewrite firstn_window by (cbn [length]; lia). apply firstn_all2. cbn [length]. lia.
Qed.
Lemma shift_sbuf p x h : p >= 1 -> shift (fsc x) (sbuf p h) = Ok (sbuf p (x :: h)).
Proof.
  intros Hp. destruct p as [|p]; [lia|]. unfold shift, sbuf. cbn [sh dat pred].
  unfold concat0, expand0. cbn [sh dat fsc]. cbn [shape_eqb dslice dapp bind Nat.add].
  do 3 f_equal. rewrite <- window_cons by lia. unfold lslice. cbn [skipn app]. f_equal.
  rewrite <- removelast_firstn_S by (rewrite window_length; lia).
  f_equal. apply firstn_all2. rewrite window_length. lia.
Qed.
Definition buf_it (p : nat) : pyval (list F -> tensor) := Tup [Leaf (sbuf p); Leaf cnt].
Lemma typed_buf_it P p : typed P (buf_it p).
Proof. ttup; [apply typed_sbuf|apply typed_cnt]. Qed.
Lemma window_last {A} p (z : A) h : p <= length h -> window p z h = firstn p h.
Proof. apply window_full. Qed.
Lemma local_implements red ired p : p >= 1 -> (Z.of_nat p < 2147483648)%Z ->
  implements (Plain (local_step red ired (Z.of_nat p))) short (Leaf fsc) (Leaf (fun h => fsc (red (firstn p h)))) (buf_it p).
Proof.
  intros Hp Hb. apply implements_intro.
  - apply short_nil.
  - apply short_tl.
  - apply (typed_fsc _ (fun x => x)).
  - apply typed_fsc.
  - apply typed_buf_it.
  - intros x h H. cbn [forward_step at_ vmap buf_it map app]. unfold local_step. args.
    rewrite shift_sbuf by assumption. cbn [bind].
    change (pyint_like (cnt h) (Z.of_nat p - 1)) with (Ok (isc (Z.of_nat p - 1))). cbn [bind].
    change (pyint_like (cnt h) 1) with (Ok (isc 1)). cbn [bind].
    assert (E1 : tadd (cnt h) (isc 1) = Ok (cnt (x :: h))) by exact (cnt_next x h). rewrite E1. cbn [bind].
    assert (E2 : tless (cnt h) (isc (Z.of_nat p - 1)) = Ok (bsc (S (length h) <? p))) by exact (cnt_lt_pred x h p Hp H).
    rewrite E2. cbn [bind].
    destruct (Nat.ltb_spec (S (length h)) p) as [L|L].
    + rewrite sbuf_slice by (auto; lia). cbn [bind]. rewrite !treduce_num_list. cbn [bind].
      unfold sbuf at 1. rewrite treduce_num_list. cbn [bind].
      rewrite tf_cond_pick'; [|apply solid_leaf..|reflexivity]. cbn [bind].
      rewrite (firstn_all2 (x :: h)) by (cbn [length]; lia). reflexivity.
    + match goal with |- context [tf_cond (bsc false) ?a (let* m := treduce_num red ired (sbuf p (x :: h)) in Ok (Leaf m))] => set (sl := a) end.
      assert (exists z, sl = Ok (Leaf (fsc z))) as (z & Ez).
      { unfold sl, slice_to, cnt. cbn [sh dat isc]. unfold slice0, sbuf. cbn [sh dat dslice bind treduce_num]. eauto. }
      rewrite Ez. unfold sbuf at 1. rewrite treduce_num_list. cbn [bind].
      rewrite tf_cond_pick'; [|apply solid_leaf..|reflexivity]. cbn [bind].
      rewrite window_full by (cbn [length]; lia). reflexivity.
  - intros x H. cbn [forward_step at_ vmap buf_it map app]. unfold local_step. args.
    now rewrite sbuf_zeros.
Qed.
Theorem local_min_streams p : p >= 1 -> (Z.of_nat p < 2147483648)%Z ->
  streams (LocalMinimum (Z.of_nat p)) short scalars (fun hs => scalars (map (fun h => frmin (firstn p h)) hs)).
Proof. intros Hp Hb. eapply scalars_streams, local_implements; assumption. Qed.
Theorem local_max_streams p : p >= 1 -> (Z.of_nat p < 2147483648)%Z ->
  streams (LocalMaximum (Z.of_nat p)) short scalars (fun hs => scalars (map (fun h => frmax (firstn p h)) hs)).
Proof. intros Hp Hb. eapply scalars_streams, local_implements; assumption. Qed.

Lemma sharpe_of_list n l : length l = n -> compute_sharpe_ratio (mkT [n] (DF l)) = Ok (fsc (ratio l)).
Proof.
  intros H. unfold compute_sharpe_ratio, tmoments0. rewrite !treduce0_list by exact H. cbn [bind].
  unfold tsqrt. rewrite tun_f. cbn [bind]. unfold tequal, tdiv. rewrite tcmp_ff, tbin_ff. cbn [bind].
  rewrite tcond_f. reflexivity.
Qed.
Lemma skew_of_list n l : length l = n -> compute_skewness (mkT [n] (DF l)) = Ok (fsc (skew_of l)).
Proof.
  intros H. unfold compute_skewness, tmoments0. rewrite !treduce0_list by exact H. cbn [bind].
  unfold tsqrt. rewrite tun_f. cbn [bind]. unfold tpow at 1. unfold tun. cbn [dat sh bind].
  rewrite treduce_all_list. cbn [bind]. change (pyint_like (fsc (fmean l)) 3) with (Ok (fsc (f_of_Z 3))). cbn [bind].
  unfold tmul, tsub, tdiv, tequal, tpow. rewrite !tun_f. cbn [bind]. repeat (rewrite tbin_ff; cbn [bind]).
  rewrite tcmp_ff. cbn [bind]. rewrite tcond_f. reflexivity.
Qed.
(** A value computed from the buffer, or from its known part while it fills. *)
Lemma partial_window g f p x h :
  (forall n l, length l = n -> g (mkT [n] (DF l)) = Ok (fsc (f l))) ->
  p >= 1 -> (Z.of_nat p < 2147483648)%Z -> short (x :: h) ->
  tcond (bsc (length h <? p)) (let* s := first_slice (sbuf p (x :: h)) (cnt h) in g s) (g (sbuf p (x :: h)))
  = Ok (fsc (f (firstn p (x :: h)))).
Proof.
  intros Hg Hp Hb H. unfold first_slice. rewrite (cnt_next x). cbn [bind].
  assert (EB : g (sbuf p (x :: h)) = Ok (fsc (f (window p f0 (x :: h))))) by apply Hg, window_length.
  rewrite EB. destruct (Nat.ltb_spec (length h) p) as [L|L].
  - rewrite sbuf_slice by assumption. cbn [bind]. rewrite (Hg (S (length h)) (x :: h)) by reflexivity. rewrite tcond_f.
    rewrite (firstn_all2 (x :: h)) by (cbn [length]; lia). reflexivity.
  - match goal with |- tcond _ ?a _ = _ => set (sl := a) end.
    assert (exists z, sl = Ok (fsc z)) as (z & Ez).
    { unfold sl, slice_to, cnt. cbn [sh dat isc]. unfold slice0, sbuf. cbn [sh dat dslice bind prod fold_right].
      match goal with |- exists z, g (mkT [?n] (DF ?l)) = _ => rewrite (Hg n l); [eauto|] end.
      set (len := length (x :: h)).
      assert (Ew : exists b, Z.to_nat (if (wrap32 (Z.of_nat len) <? 0)%Z then Z.max 0 (wrap32 (Z.of_nat len) + Z.of_nat p)
        else Z.min (wrap32 (Z.of_nat len)) (Z.of_nat p)) = b /\ b <= p).
      { eexists. split; [reflexivity|]. destruct (Z.ltb_spec (wrap32 (Z.of_nat len)) 0); lia. }
      destruct Ew as (b & -> & Hbp). destruct (Z.ltb_spec 0 0); [lia|].
      replace (Z.to_nat (Z.min 0 (Z.of_nat p))) with 0 by lia. unfold lslice. cbn [Nat.mul skipn].
      rewrite firstn_length, window_length. lia. }
    rewrite Ez, tcond_f. rewrite window_full by (cbn [length]; lia). reflexivity.
Qed.
Lemma skewness_implements p : p >= 1 -> (Z.of_nat p < 2147483648)%Z ->
  implements (Skewness (Z.of_nat p)) short (Leaf fsc) (Leaf (fun h => fsc (skewness p h))) (buf_it p).
Proof.
  intros Hp Hb. apply implements_intro.
  - apply short_nil.
  - apply short_tl.
  - apply (typed_fsc _ (fun x => x)).
  - apply typed_fsc.
  - apply typed_buf_it.
  - intros x h H. cbn [forward_step Skewness at_ vmap buf_it map app]. unfold skewness_step. args.
    rewrite sbuf_roll by assumption. cbn [bind]. rewrite (cnt_lt x) by assumption. cbn [bind].
    rewrite (partial_window compute_skewness skew_of) by auto using skew_of_list. cbn [bind].
    rewrite (cnt_next x). reflexivity.
  - intros x H. cbn [forward_step Skewness at_ vmap buf_it map app]. unfold skewness_step. args.
    now rewrite sbuf_zeros.
Qed.
Theorem skewness_streams p : p >= 1 -> (Z.of_nat p < 2147483648)%Z ->
  streams (Skewness (Z.of_nat p)) short scalars (fun hs => scalars (map (skewness p) hs)).
Proof. intros Hp Hb. eapply scalars_streams, skewness_implements; assumption. Qed.

Definition pairs (l : list (F * F)) : val := Tup [scalars (map fst l); scalars (map snd l)].
Definition pair_in : pyval (F * F -> tensor) := Tup [Leaf (fun x => fsc (fst x)); Leaf (fun x => fsc (snd x))].
Lemma stack_fsc' {X} (f : X -> F) xs : xs <> [] -> Leaf (stackT (map (fun x => fsc (f x)) xs)) = scalars (map f xs).
Proof.
  intros NE. unfold scalars. f_equal. rewrite <- (map_map f fsc). apply stack_fsc. destruct xs; [easy|discriminate].
Qed.
Lemma pairs_streams op (P : list (F * F) -> Prop) f ES :
  implements op P pair_in (Leaf (fun h => fsc (f h))) ES ->
  streams op P pairs (fun hs => scalars (map f hs)).
Proof.
  intros IM. eapply streams_of; [exact IM|discriminate|..].
  - intros xs NE. cbn [stacked pair_in vmap map]. now rewrite !stack_fsc'.
  - intros hs NE. cbn [stacked vmap]. now rewrite stack_fsc'.
Qed.
Lemma sharpe_implements p : p >= 1 -> (Z.of_nat p < 2147483648)%Z ->
  implements (SharpeRatio (Z.of_nat p)) short pair_in (Leaf (fun h => fsc (sharpe p h)))
    (Tup [Leaf (fun h => sbuf p (map excess h)); Leaf cnt]).
Proof.
  intros Hp Hb. apply implements_intro.
  - apply short_nil.
  - apply short_tl.
  - ttup; apply typed_fsc.
  - apply typed_fsc.
  - ttup; [|apply typed_cnt].
    apply (typed_pull (map excess) short (fun _ => True) (Leaf (sbuf p))); [apply typed_sbuf|auto].
  - intros x h H. cbn [forward_step SharpeRatio at_ vmap pair_in map app]. unfold sharpe_step. args.
    unfold tsub. rewrite tbin_ff. cbn [bind]. fold (excess x).
    rewrite sbuf_roll by assumption. cbn [bind]. rewrite (cnt_lt x) by assumption. cbn [bind].
    assert (Hs : short (excess x :: map excess h))
      by (eapply short_le; [exact H|cbn [length]; rewrite map_length; lia]).
    assert (E1 : cnt h = cnt (map excess h)) by (unfold cnt; now rewrite map_length).
    assert (E2 : length h = length (map excess h)) by (now rewrite map_length).
    rewrite (cnt_next x). rewrite E1 at 1. rewrite E2.
    rewrite (partial_window compute_sharpe_ratio ratio) by auto using sharpe_of_list.
    cbn [bind]. reflexivity.
  - intros x H. cbn [forward_step SharpeRatio at_ vmap pair_in map app]. unfold sharpe_step. args.
    now rewrite sbuf_zeros.
Qed.
Theorem sharpe_streams p : p >= 1 -> (Z.of_nat p < 2147483648)%Z ->
  streams (SharpeRatio (Z.of_nat p)) short pairs (fun hs => scalars (map (sharpe p) hs)).
Proof. intros Hp Hb. eapply pairs_streams, sharpe_implements; assumption. Qed.
End ImplWindow.
