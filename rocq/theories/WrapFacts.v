(** * WrapFacts: windows, returns, momentum and correlation over histories of any length (C46). *)
From Coq Require Import String List ZArith Bool Lia.
From Verif Require Import Num Py PyFacts Tensor Streamable Spec StreamFacts TensorFacts StreamProofs WfFacts Meta Common Finance Series Formulas Positions Implements EvalFacts ImplBasic
  ImplMeta ImplScalar ImplComp ImplWindow ImplCorr MovingFacts SpecHelpers CounterFacts CounterSeeded Wrap.
Import ListNotations.

Section WrapFacts.
Context {N : FOps}.
Lemma warm_lt {X} p (h : list X) : p >= 1 -> int_op tless (cnt h) (Z.of_nat p - 1) = Ok (bsc (warming_up p (Z.of_nat (List.length h)))).
Proof. intros Hp. unfold cnt. rewrite int_op_i. unfold tless. rewrite tcmp_ii. now rewrite wrap_warming by lia. Qed.
Lemma warming_short p n : warming_up p n = false -> (0 <= n)%Z -> (Z.of_nat p - 1 <= n)%Z.
Proof.
  unfold warming_up. intros E Hn. apply orb_false_iff in E as [E _]. apply Z.ltb_ge in E.
  assert (n mod 4294967296 <= n)%Z by (apply Z.mod_le; lia). lia.
Qed.

(** ** Returns *)
Lemma change_implements_forever f g p : p >= 1 -> (forall a, f (fsc a) = Ok (fsc (g a))) ->
  implements (Plain (return_step f (Z.of_nat p))) (fun _ => True) (Leaf fsc) (Leaf (fun h => fsc (change_forever g p h))) (buf_st p).
Proof.
  intros Hp Hf. apply implements_intro; auto.
  - apply (typed_fsc _ (fun x => x)).
  - apply typed_fsc.
  - ttup; [apply typed_cnt|apply typed_sbuf].
  - intros x h H. cbn [forward_step at_ vmap buf_st map app]. unfold return_step. args.
    rewrite (sbuf_index' p h _ (p - 1)) by lia. cbn [bind].
    rewrite sbuf_roll by assumption. cbn [bind].
    rewrite warm_lt by assumption. cbn [bind].
    rewrite int_op_f. unfold tequal. rewrite tcmp_ff. cbn [bind]. unfold tlogical_or. rewrite tbool2_bb. cbn [bind].
    rewrite zeros_like_f. unfold tdiv. rewrite tbin_ff. cbn [bind]. rewrite Hf, tcond_f. cbn [bind].
    rewrite (cnt_next x). cbn [bind]. do 5 f_equal.
    unfold change_forever. cbn [List.length]. change (ago p (x :: h)) with (nth p (x :: h) f0).
    replace (nth p (x :: h) f0) with (ago (p - 1) h)
      by (unfold ago; destruct p; [lia|simpl; now rewrite Nat.sub_0_r]).
    replace (Z.of_nat (S (List.length h)) - 1)%Z with (Z.of_nat (List.length h)) by lia. reflexivity.
  - intros x H. cbn [forward_step at_ vmap buf_st map app]. unfold return_step. args.
    now rewrite sbuf_zeros.
Qed.
Theorem ret_streams_forever p : p >= 1 ->
  streams (Return (Z.of_nat p)) (fun _ => True) scalars (fun hs => scalars (map (change_forever (fun q => fsub q f1) p) hs)).
Proof. intros Hp. eapply scalars_streams, change_implements_forever; [exact Hp|reflexivity]. Qed.
Theorem log_ret_streams_forever p : p >= 1 ->
  streams (LogarithmicReturn (Z.of_nat p)) (fun _ => True) scalars (fun hs => scalars (map (change_forever flog p) hs)).
Proof. intros Hp. eapply scalars_streams, change_implements_forever; [exact Hp|reflexivity]. Qed.

(** ** Windows *)
Lemma wrap32_cases n : (0 <= n)%Z -> let k := (n mod 4294967296)%Z in wrap32 n = if (k <? 2147483648)%Z then k else (k - 4294967296)%Z.
Proof.
  intros Hn k. unfold wrap32.
  assert (B : (0 <= k < 4294967296)%Z) by (apply Z.mod_pos_bound; lia).
  assert (E : ((n + 2147483648) mod 4294967296 = if 2147483648 <=? k then k - 2147483648 else k + 2147483648)%Z).
  { rewrite Z.add_mod by lia. fold k. change (2147483648 mod 4294967296)%Z with 2147483648%Z.
    destruct (Z.leb_spec 2147483648 k).
    - symmetry. apply (Z.mod_unique _ _ 1); lia.
    - apply Z.mod_small. lia. }
  rewrite E. destruct (Z.leb_spec 2147483648 k), (Z.ltb_spec k 2147483648); lia.
Qed.
Lemma mod_succ n : (0 <= n)%Z -> let k := (n mod 4294967296)%Z in ((n + 1) mod 4294967296 = if k =? 4294967295 then 0 else k + 1)%Z.
Proof.
  intros Hn k. assert (B : (0 <= k < 4294967296)%Z) by (apply Z.mod_pos_bound; lia). rewrite Z.add_mod by lia. fold k.
  change (1 mod 4294967296)%Z with 1%Z. destruct (Z.eqb_spec k 4294967295) as [->|Q]; [reflexivity|]. apply Z.mod_small. lia.
Qed.
(** The end of the slice, as Python reads it. *)
Definition slice_end (p : nat) (z : Z) : nat := Z.to_nat (if (z <? 0)%Z then Z.max 0 (z + Z.of_nat p) else Z.min z (Z.of_nat p)).
Lemma slice_end_le p z : slice_end p z <= p.
Proof. unfold slice_end. destruct (Z.ltb_spec z 0); lia. Qed.
Lemma sbuf_slice_forever p (g : list F) : slice_to (sbuf p g) (cnt g) =
  Ok (mkT [slice_end p (wrap32 (Z.of_nat (List.length g)))] (DF (firstn (slice_end p (wrap32 (Z.of_nat (List.length g)))) (window p f0 g)))).
Proof.
  unfold slice_to, cnt. cbn [sh dat isc]. unfold slice0, sbuf. cbn [sh dat prod fold_right dslice].
  destruct (Z.ltb_spec 0 0); [lia|]. replace (Z.to_nat (Z.min 0 (Z.of_nat p))) with 0 by lia. fold (slice_end p (wrap32 (Z.of_nat (List.length g)))).
  rewrite Nat.sub_0_r, !Nat.mul_1_r. reflexivity.
Qed.
(** What the code reads is what [reading] says. *)
Lemma code_reads p x (h : list F) b : p >= 1 -> (Z.of_nat p < 2147483648)%Z ->
  (b = warming_up p (Z.of_nat (List.length h)) \/ b = warming_up (S p) (Z.of_nat (List.length h))) ->
  (if b then firstn (slice_end p (wrap32 (Z.of_nat (List.length (x :: h))))) (window p f0 (x :: h)) else window p f0 (x :: h))
  = firstn (reading p (List.length (x :: h) - 1)) (x :: h).
Proof.
  intros Hp Hb Eb. set (n := Z.of_nat (List.length h)). assert (Hn : (0 <= n)%Z) by (unfold n; lia).
  assert (En : Z.of_nat (List.length (x :: h)) = (n + 1)%Z) by (unfold n; cbn [List.length]; lia).
  rewrite En. unfold reading. replace (Z.of_nat (List.length (x :: h) - 1)) with n by (unfold n; cbn [List.length]; lia).
  pose proof (wrap32_cases (n + 1) ltac:(lia)) as EW. cbv zeta in EW. rewrite (mod_succ n Hn) in EW. rewrite EW. clear EW.
  assert (Hk : (n mod 4294967296 <= n)%Z) by (apply Z.mod_le; lia).
  assert (Bk : (0 <= n mod 4294967296 < 4294967296)%Z) by (apply Z.mod_pos_bound; lia).
  unfold warming_up in Eb. fold n in Eb. cbv zeta in *. set (k := (n mod 4294967296)%Z) in *.
  assert (Lw : List.length (x :: h) = Z.to_nat (n + 1)) by lia.
  destruct (Z.ltb_spec k 2147483648) as [Q|Q].
  - destruct (Z.eqb_spec k 4294967295); [lia|].
    destruct (Z.leb_spec 2147483648 k); [lia|]. rewrite !orb_false_r in Eb.
    destruct b.
    + assert (S1 : (k < Z.of_nat p)%Z) by (destruct Eb as [Eb|Eb]; symmetry in Eb; apply Z.ltb_lt in Eb; lia).
      destruct (Z.ltb_spec (k + 1) 2147483648) as [Q2|Q2]; [|lia].
      unfold slice_end. destruct (Z.ltb_spec (k + 1) 0); [lia|]. rewrite Z.min_l by lia. rewrite Nat.min_r by lia. apply firstn_window; lia.
    + assert (S1 : (Z.of_nat p - 1 <= k)%Z) by (destruct Eb as [Eb|Eb]; symmetry in Eb; apply Z.ltb_ge in Eb; lia).
      rewrite Nat.min_l by lia. apply window_full. lia.
  - assert (b = true) as -> by (destruct Eb as [->| ->]; (destruct (Z.leb_spec 2147483648 k); [apply orb_true_r|lia])).
    destruct (Z.eqb_spec k 4294967295) as [E|E].
    + destruct (Z.ltb_spec 0 2147483648); [|lia]. unfold slice_end. destruct (Z.ltb_spec 0 0); [lia|]. now rewrite Z.min_l by lia.
    + destruct (Z.ltb_spec (k + 1) 2147483648); [lia|]. unfold slice_end. destruct (Z.ltb_spec (k + 1 - 4294967296) 0); [|lia].
      replace (Z.to_nat (Z.max 0 (k + 1 - 4294967296 + Z.of_nat p))) with (Z.to_nat (Z.of_nat p + k + 1 - 4294967296)) by lia.
      apply firstn_window; lia.
Qed.
Lemma local_implements_forever red ired p : p >= 1 -> (Z.of_nat p < 2147483648)%Z ->
  implements (Plain (local_step red ired (Z.of_nat p))) (fun _ => True) (Leaf fsc) (Leaf (fun h => fsc (window_forever red p h))) (buf_it p).
Proof.
  intros Hp Hb. apply implements_intro; auto.
  - apply (typed_fsc _ (fun x => x)).
  - apply typed_fsc.
  - apply typed_buf_it.
  - intros x h H. cbn [forward_step at_ vmap buf_it map app]. unfold local_step. args.
    rewrite shift_sbuf by assumption. cbn [bind].
    change (pyint_like (cnt h) (Z.of_nat p - 1)) with (Ok (isc (Z.of_nat p - 1))). cbn [bind].
    change (pyint_like (cnt h) 1) with (Ok (isc 1)). cbn [bind].
    assert (E1 : tadd (cnt h) (isc 1) = Ok (cnt (x :: h))) by exact (cnt_next x h). rewrite E1. cbn [bind].
    assert (E2 : tless (cnt h) (isc (Z.of_nat p - 1)) = Ok (bsc (warming_up p (Z.of_nat (List.length h))))) by exact (warm_lt p h Hp).
    rewrite E2. cbn [bind].
    rewrite sbuf_slice_forever. cbn [bind]. rewrite !treduce_num_list. cbn [bind].
    unfold sbuf at 1. rewrite treduce_num_list. cbn [bind].
    rewrite tf_cond_pick'; [|apply solid_leaf..|reflexivity]. cbn [bind].
    unfold window_forever. rewrite <- (code_reads p x h (warming_up p (Z.of_nat (List.length h))) Hp Hb (or_introl eq_refl)).
    destruct (warming_up p (Z.of_nat (List.length h))); reflexivity.
  - intros x H. cbn [forward_step at_ vmap buf_it map app]. unfold local_step. args.
    now rewrite sbuf_zeros.
Qed.
Lemma partial_window_forever g f p x h :
  (forall n l, List.length l = n -> g (mkT [n] (DF l)) = Ok (fsc (f l))) -> p >= 1 -> (Z.of_nat p < 2147483648)%Z ->
  tcond (bsc (seeding p (Z.of_nat (List.length h)))) (let* s := first_slice (sbuf p (x :: h)) (cnt h) in g s) (g (sbuf p (x :: h)))
  = Ok (fsc (window_forever f p (x :: h))).
Proof.
  intros Hg Hp Hb. unfold first_slice. rewrite (cnt_next x). cbn [bind].
  assert (EB : g (sbuf p (x :: h)) = Ok (fsc (f (window p f0 (x :: h))))) by apply Hg, window_length.
  rewrite EB, sbuf_slice_forever. cbn [bind]. rewrite Hg by (rewrite firstn_length, window_length; apply Nat.min_l, slice_end_le).
  rewrite tcond_f. unfold window_forever. rewrite <- (code_reads p x h (seeding p (Z.of_nat (List.length h))) Hp Hb (or_intror eq_refl)).
  destruct (seeding p _); reflexivity.
Qed.
Lemma skewness_implements_forever p : p >= 1 -> (Z.of_nat p < 2147483648)%Z ->
  implements (Skewness (Z.of_nat p)) (fun _ => True) (Leaf fsc) (Leaf (fun h => fsc (window_forever skew_of p h))) (buf_it p).
Proof.
  intros Hp Hb. apply implements_intro; auto.
  - apply (typed_fsc _ (fun x => x)).
  - apply typed_fsc.
  - apply typed_buf_it.
  - intros x h H. cbn [forward_step Skewness at_ vmap buf_it map app]. unfold skewness_step. args.
    rewrite sbuf_roll by assumption. cbn [bind]. rewrite seed_lt. cbn [bind].
    rewrite (partial_window_forever compute_skewness skew_of) by auto using skew_of_list. cbn [bind].
    rewrite (cnt_next x). reflexivity.
  - intros x H. cbn [forward_step Skewness at_ vmap buf_it map app]. unfold skewness_step. args.
    now rewrite sbuf_zeros.
Qed.
Lemma sharpe_implements_forever p : p >= 1 -> (Z.of_nat p < 2147483648)%Z ->
  implements (SharpeRatio (Z.of_nat p)) (fun _ => True) pair_in (Leaf (fun h => fsc (window_forever ratio p (map excess h))))
    (Tup [Leaf (fun h => sbuf p (map excess h)); Leaf cnt]).
Proof.
  intros Hp Hb. apply implements_intro; auto.
  - ttup; apply typed_fsc.
  - apply typed_fsc.
  - ttup; [|apply typed_cnt].
    apply (typed_pull (map excess) (fun _ => True) (fun _ => True) (Leaf (sbuf p))); [apply typed_sbuf|auto].
  - intros x h H. cbn [forward_step SharpeRatio at_ vmap pair_in map app]. unfold sharpe_step. args.
    unfold tsub. rewrite tbin_ff. cbn [bind]. fold (excess x).
    rewrite sbuf_roll by assumption. cbn [bind]. rewrite seed_lt. cbn [bind].
    assert (E1 : cnt h = cnt (map excess h)) by (unfold cnt; now rewrite map_length).
    assert (E2 : List.length h = List.length (map excess h)) by (now rewrite map_length).
    rewrite (cnt_next x). rewrite E1 at 1. rewrite E2.
    rewrite (partial_window_forever compute_sharpe_ratio ratio) by auto using sharpe_of_list.
    cbn [bind]. reflexivity.
  - intros x H. cbn [forward_step SharpeRatio at_ vmap pair_in map app]. unfold sharpe_step. args.
    now rewrite sbuf_zeros.
Qed.
Theorem window_streams_forever p op f : p >= 1 -> (Z.of_nat p < 2147483648)%Z ->
  (op = LocalMinimum (Z.of_nat p) /\ f = frmin) \/ (op = LocalMaximum (Z.of_nat p) /\ f = frmax) \/ (op = Skewness (Z.of_nat p) /\ f = skew_of) ->
  streams op (fun _ => True) scalars (fun hs => scalars (map (window_forever f p) hs)).
Proof.
  intros Hp Hb [[-> ->]|[[-> ->]|[-> ->]]]; eapply scalars_streams.
  - now apply local_implements_forever.
  - now apply local_implements_forever.
  - now apply skewness_implements_forever.
Qed.
Theorem sharpe_streams_forever p : p >= 1 -> (Z.of_nat p < 2147483648)%Z ->
  streams (SharpeRatio (Z.of_nat p)) (fun _ => True) pairs (fun hs => scalars (map (fun h => window_forever ratio p (map excess h)) hs)).
Proof. intros Hp Hb. eapply pairs_streams, sharpe_implements_forever; assumption. Qed.

(** ** Correlation *)
Definition both_rows s (h : list (list F * list F)) : Prop := shaped s (map fst h) /\ shaped s (map snd h).
Lemma both_rows_tl s x h : both_rows s (x :: h) -> both_rows s h.
Proof. intros (H1 & H2). inversion H1; inversion H2; subst. now split. Qed.
Lemma typed_both_rows s : typed (fun x => exists h, both_rows s (x :: h)) (pair_rows s).
Proof. ttup; apply typed_mkF; intros x (h & H1 & H2); inversion H1; inversion H2; subst; assumption. Qed.
Lemma corr_implements_forever s p : p >= 1 ->
  implements (Correlation (Z.of_nat p)) (both_rows s) (pair_rows s)
    (Leaf (fun h => mkF s (each2 s (correlation_forever p) h))) (corr_st p s).
Proof.
  intros Hp. apply implements_intro.
  - split; constructor.
  - apply both_rows_tl.
  - apply typed_both_rows.
  - apply typed_mkF. intros. apply each2_length.
  - ttup; [apply typed_cnt|apply typed_mkb..]; intros h (H1 & H2); auto using wnd_length, wnd_shaped.
  - intros x h (H1 & H2). cbn [forward_step Correlation at_ vmap pair_rows corr_st map app].
    unfold correlation_step. args.
    rewrite (wnd_rollF p s (fst x) (map fst h)) by assumption. cbn [bind].
    rewrite (wnd_rollF p s (snd x) (map snd h)) by assumption. cbn [bind].
    change (pyint_like (cnt h) (Z.of_nat p)) with (Ok (isc (Z.of_nat p))). cbn [bind].
    assert (EC : tless (cnt h) (isc (Z.of_nat p)) = Ok (bsc (seeding p (Z.of_nat (List.length h))))) by exact (seed_lt p h).
    rewrite EC. cbn [bind].
    change (fst x :: map fst h) with (map fst (x :: h)). change (snd x :: map snd h) with (map snd (x :: h)).
    rewrite (compute_correlation_wnd p s (map fst (x :: h)) (map snd (x :: h))) by (auto; now rewrite !map_length). cbn [bind].
    rewrite zeros_like_F, tf_cond_pick'; [|apply solid_leaf..|reflexivity]. cbn [bind].
    change (pyint_like (cnt h) 1) with (Ok (isc 1)). cbn [bind].
    assert (EN : tadd (cnt h) (isc 1) = Ok (cnt (x :: h))) by exact (cnt_next x h).
    rewrite EN. cbn [bind]. rewrite combine_fst_snd.
    assert (E : each2 s (correlation_forever p) (x :: h) = if seeding p (Z.of_nat (List.length h)) then repeat f0 (prod s)
      else each2 s (fun c => corr_of (window p f0 (map fst c)) (window p f0 (map snd c))) (x :: h)).
    { unfold seeding. destruct (warming_up (S p) _) eqn:Q.
      - rewrite <- (each2_const s f0 (x :: h)). apply each2_ext. intros j _. unfold correlation_forever. rewrite column2_length.
        replace (Z.of_nat (List.length (x :: h)) - 1)%Z with (Z.of_nat (List.length h)) by (cbn [List.length]; lia). now rewrite Q.
      - apply each2_ext. intros j _. unfold correlation_forever. rewrite column2_length.
        replace (Z.of_nat (List.length (x :: h)) - 1)%Z with (Z.of_nat (List.length h)) by (cbn [List.length]; lia). rewrite Q.
        apply warming_short in Q; [|lia].
        rewrite !window_full; [reflexivity|rewrite map_length, column2_length; cbn [List.length]; lia..]. }
    rewrite E. now destruct (seeding p _).
  - intros x H. cbn [forward_step Correlation at_ vmap pair_rows corr_st map app].
    unfold correlation_step. args. rewrite (wnd_zerosF p s (fst x)), (wnd_zerosF p s (snd x)). reflexivity.
Qed.
Theorem corr_streams_forever s p : p >= 1 ->
  streams (Correlation (Z.of_nat p)) (both_rows s) (tensor_pairs s) (fun hs => tensors s (map (each2 s (correlation_forever p)) hs)).
Proof.
  intros Hp. eapply streams_of; [apply corr_implements_forever, Hp|discriminate|apply stack_pair_rows|].
  intros hs NE. cbn [stacked vmap]. now rewrite stack_each.
Qed.

(** ** Momentum *)
Lemma shaped_nil {A} s : @shaped A s [].
Proof. constructor. Qed.
Lemma shaped_tl {A} s x (h : list (list A)) : shaped s (x :: h) -> shaped s h.
Proof. intros H. now inversion H. Qed.
Lemma typed_rowin' s : typed (fun x => exists h, shaped s (x :: h)) (Leaf (mkF s)).
Proof. apply typed_mkF. intros x (h & H). now inversion H. Qed.
Lemma sub_now_ago s p : p >= 1 ->
  exists ESs, chain [Fork 2; Join [Identity; Lag (Z.of_nat p)]; make_streamable (bin_fn (tbin fsub (Some isub)))] (shaped s) (Leaf (mkF s))
    (Leaf (fun h => mkF s (each s (fun c => fsub (now c) (ago p c)) h))) ESs.
Proof.
  intros Hp.
  assert (I1 : implements Identity (shaped s) (Leaf (mkF s)) (Leaf (fun h => mkF s (each s now h))) (Tup [])).
  { eapply implements_out; [apply identity_implements; [apply shaped_nil|apply shaped_tl|apply typed_rowin']|..].
    - apply typed_mkF. intros; apply each_length.
    - intros [|x h] H NE; [easy|]. cbn [at_ vmap newest]. inversion H; subst. now rewrite each_now. }
  assert (I2 : implements (Lag (Z.of_nat p)) (shaped s) (Leaf (mkF s)) (Leaf (fun h => mkF s (each s (ago p) h))) (Leaf (fun h => mkb F32 p s (wnd F32 p s h)))).
  { eapply implements_out.
    - apply (lag_implements F32 s p Hp).
    - apply typed_mkF. intros; apply each_length.
    - intros h H _. cbn [at_ vmap mkD]. unfold mkF. do 2 f_equal. unfold each, ago, column.
      rewrite (nth_list' f0 (nth p h _) (prod s)) at 1
        by (apply nth_shaped; [exact H|apply repeat_length]).
      f_equal. apply map_ext_in. intros j Hj.
      rewrite <- (map_nth (fun r : list F => nth j r f0)). f_equal.
      symmetry. apply nth_repeat. }
  eexists. eapply chain_out.
  - eapply (chain_cons (hd [])).
    + apply fork_implements; [apply shaped_nil|apply shaped_tl|apply typed_rowin'].
    + eapply (chain_cons (fun h => (each s now h, each s (ago p) h))).
      * eapply implements_join; [apply shaped_nil|apply shaped_tl|].
        apply joined_cons; [exact I1|]. apply joined_cons; [exact I2|]. apply joined_nil.
      * apply chain_one. apply (bin_implements fsub (Some isub) s (both_rows s) fst snd); [split; constructor|apply both_rows_tl|].
        intros x h (H1 & H2). inversion H1; inversion H2; auto.
      * intros h _ _. reflexivity.
      * intros h H. induction h as [|x h IH]; [split; constructor|].
        destruct IH as (H1 & H2); [now apply shaped_tl in H|].
        split; cbn [trail map fst snd]; (constructor; [apply each_length|assumption]).
    + intros [|x h] H NE; [easy|]. reflexivity.
    + intros h H. now rewrite trail_now.
  - apply typed_mkF. intros h _. apply each_length.
  - intros [|x h] H NE; [easy|]. cbn [at_ vmap newest].
    rewrite (trail_now (x :: h) []). cbn [trail fst snd]. now rewrite map2_each.
Qed.
Lemma setduring_each_forever p s a :
  implements (SetDuring (fsc a) (Z.of_nat p)) (shaped s) (Leaf (mkF s))
    (Leaf (fun h => mkF s (each s (fun c => if warming_up (S p) (Z.of_nat (List.length c) - 1) then a else now c) h))) (Tup [Leaf cnt]).
Proof.
  eapply implements_out.
  - apply (setduring_implements_code F32 a p (shaped s) (Leaf (mkF s))); [apply shaped_nil|apply shaped_tl|apply typed_rowin'|].
    intros g x h [<-|[]] _. reflexivity.
  - apply typed_mkF. intros; apply each_length.
  - intros [|x h] H NE; [easy|]. cbn [at_ vmap]. rewrite over_seeding. unfold seeding. inversion H; subst.
    rewrite (each_if s (warming_up (S p) (Z.of_nat (List.length h))) (fun _ => a) now).
    + destruct (warming_up _ _); [rewrite each_const; reflexivity|]. now rewrite each_now.
    + intros j _. rewrite column_length. now replace (Z.of_nat (List.length (x :: h)) - 1)%Z with (Z.of_nat (List.length h)) by (cbn [List.length]; lia).
Qed.
Lemma momentum_implements_forever s p : p >= 1 ->
  exists ES, implements (Momentum (Z.of_nat p)) (shaped s) (Leaf (mkF s)) (Leaf (fun h => mkF s (each s (momentum_forever p) h))) ES.
Proof.
  intros Hp. destruct (sub_now_ago s p Hp) as [S1 C1].
  assert (C2 := chain_one _ _ _ _ _ (setduring_each_forever p s f0)).
  eexists. eapply implements_out; [apply implements_compose; exact (chain_app (each s (fun c => fsub (now c) (ago p c))) _ _ _ _ _ _ _ _ _ _ C1 C2 ltac:(discriminate)
    (fun h _ _ => eq_refl) (fun h _ => trail_shaped s _ h (fun g _ => each_length s _ g)))|apply typed_mkF; intros; apply each_length|].
  intros [|x h] H NE; [easy|]. cbn [at_ vmap]. do 2 f_equal. rewrite each_trail. apply each_ext. intros j _.
  unfold momentum_forever. rewrite trail_length. now destruct (warming_up _ _).
Qed.
Theorem momentum_streams_forever s p : p >= 1 ->
  streams (Momentum (Z.of_nat p)) (shaped s) (tensors s) (fun hs => tensors s (map (each s (momentum_forever p)) hs)).
Proof. intros Hp. destruct (momentum_implements_forever s p Hp) as [ES IM]. eapply tensors_streams, IM. Qed.

(** ** Bollinger bands *)
Lemma bollinger_implements_forever s n k : n >= 1 ->
  implements (BollingerBands (Z.of_nat n) k) (shaped s) (Leaf (mkF s))
    (Tup [Leaf (fun h => mkF s (each s (fun c => fsub (sma_forever n c) (fmul (msd_forever n c) (num k))) h));
          Leaf (fun h => mkF s (each s (sma_forever n) h));
          Leaf (fun h => mkF s (each s (fun c => fadd (sma_forever n c) (fmul (msd_forever n c) (num k))) h))])
    (Tup [sma_st n s; sma_st n s]).
Proof.
  intros Hn. apply implements_intro.
  - apply shaped_nil.
  - apply shaped_tl.
  - apply typed_rowin'.
  - ttup; apply typed_mkF; intros; apply each_length.
  - ttup; apply (sma_implements_forever s n Hn).
  - intros x h H. cbn [forward_step BollingerBands].
    change (at_ (Tup [sma_st n s; sma_st n s])) with (fun h => Tup [at_ (sma_st n s) h; at_ (sma_st n s) h]).
    cbv beta iota. cbn [app]. change (at_ (Leaf (mkF s)) x) with (Leaf (mkF s x)). cbv iota.
    cbn [app]. unfold bollinger_step. args. change (Leaf (mkF s x)) with (at_ (Leaf (mkF s)) x).
    rewrite (im_call _ _ _ _ _ _ _ (sma_implements_forever s n Hn)) by assumption. cbn [bind].
    rewrite (im_call _ _ _ _ _ _ _ (msd_implements_forever s n Hn)) by assumption. cbn [bind at_ vmap as_t].
    rewrite pynum_like_F. cbn [bind]. unfold tmul, tsub, tadd.
    rewrite tbin_scalar_r by apply each_length. cbn [bind].
    do 2 (rewrite tbin_same; cbn [bind]).
    rewrite map_each, !map2_each. reflexivity.
  - intros x H. cbn [forward_step BollingerBands].
    change (at_ (Tup [sma_st n s; sma_st n s])) with (fun h => Tup [at_ (sma_st n s) h; at_ (sma_st n s) h]).
    cbv beta iota. cbn [app]. change (at_ (Leaf (mkF s)) x) with (Leaf (mkF s x)). cbv iota.
    cbn [app]. unfold bollinger_step. args. change (Leaf (mkF s x)) with (at_ (Leaf (mkF s)) x).
    rewrite (im_call _ _ _ _ _ _ _ (sma_implements_forever s n Hn)) by assumption.
    rewrite (im_call0 _ _ _ _ _ _ (sma_implements_forever s n Hn)) by assumption. cbn [bind].
    rewrite (im_call _ _ _ _ _ _ _ (msd_implements_forever s n Hn)) by assumption.
    rewrite (im_call0 _ _ _ _ _ _ (msd_implements_forever s n Hn)) by assumption. reflexivity.
Qed.
Theorem bollinger_streams_forever s n k : n >= 1 ->
  streams (BollingerBands (Z.of_nat n) k) (shaped s) (tensors s) (fun hs =>
    Tup [tensors s (map (each s (fun c => fsub (sma_forever n c) (fmul (msd_forever n c) (num k)))) hs);
         tensors s (map (each s (sma_forever n)) hs);
         tensors s (map (each s (fun c => fadd (sma_forever n c) (fmul (msd_forever n c) (num k)))) hs)]).
Proof.
  intros Hn. eapply streams_of; [apply bollinger_implements_forever, Hn|discriminate|..].
  - intros xs NE. cbn [stacked vmap]. rewrite (stack_each s (fun x => x)) by exact NE. now rewrite map_id.
  - intros hs NE. cbn [stacked vmap map]. now rewrite !stack_each.
Qed.
End WrapFacts.
