(** * ImplCorr: closed forms of Correlation, CrossCorrelation and AutoCorrelation. *)
From Coq Require Import String List ZArith Bool Lia.
From Verif Require Import Num Py PyFacts Tensor Streamable Spec StreamFacts TensorFacts StreamProofs
  WfFacts Meta Common Finance Series Formulas EvalFacts Implements ImplMeta ImplBasic ImplScalar ImplComp.
Import ListNotations.

(** A function of the history of one pair of numbers, at every position of pairs of tensors. *)
Definition column2 {A} (d : A) (j : nat) (h : list (list A * list A)) : list (A * A) :=
  map (fun r => (nth j (fst r) d, nth j (snd r) d)) h.

Section ImplCorr.
Context {N : FOps}.

Definition each2 {B} (s : list nat) (f : list (F * F) -> B) (h : list (list F * list F)) : list B :=
  map (fun j => f (column2 f0 j h)) (seq 0 (prod s)).
Definition tensor_pairs (s : list nat) (l : list (list F * list F)) : val :=
  Tup [tensors s (map fst l); tensors s (map snd l)].

(** ** A tensor combined with every row of a buffer *)
Lemma pad_cons p s : pad_shape (S (length s)) (p :: s) = p :: s.
Proof. unfold pad_shape. cbn [length]. now rewrite Nat.sub_diag. Qed.
Lemma pad_one s : pad_shape (S (length s)) s = 1 :: s.
Proof. unfold pad_shape. now replace (S (length s) - length s) with 1 by lia. Qed.
Lemma bshape_same s : bshape s s = Some s.
Proof. induction s as [|n s IH]; [reflexivity|]. cbn [bshape]. now rewrite IH, Nat.eqb_refl. Qed.
Lemma shape_eqb_cons p s : shape_eqb (p :: s) s = false.
Proof.
  destruct (shape_eqb (p :: s) s) eqn:E; [|reflexivity]. exfalso.
  assert (H : forall a b, shape_eqb a b = true -> length a = length b).
  { induction a as [|x a IH]; intros [|y b] H; try discriminate; [reflexivity|].
    cbn in H. apply andb_true_iff in H as [_ H]. cbn. f_equal. auto. }
  apply H in E. cbn in E. lia.
Qed.
Lemma expand_row {A} p s (m : list A) : length m = prod s -> expand (p :: s) (1 :: s) m = concat (repeat m p).
Proof.
  intros H. cbn [expand chunks seq map]. unfold chunks. cbn [seq map]. unfold lslice. cbn [Nat.mul skipn].
  rewrite firstn_all2 by lia. rewrite expand_same by exact H.
  destruct (Nat.eqb_spec 1 p) as [<-|]; reflexivity.
Qed.
Lemma bop_row {A B C} (f : A -> B -> C) p s l m : length l = p * prod s -> length m = prod s ->
  bop f (p :: s) s l m = Ok (p :: s, map2 f l (concat (repeat m p))).
Proof.
  intros Hl Hm. unfold bop. rewrite shape_eqb_cons. cbn [length]. rewrite Nat.max_l by lia.
  rewrite pad_cons, pad_one. cbn [bshape]. rewrite bshape_same.
  assert (E : (if p =? 1 then Some (p :: s) else if p =? 1 then Some (1 :: s) else if 1 =? 1 then Some (p :: s) else None) = Some (p :: s)).
  { destruct (p =? 1); reflexivity. }
  rewrite E. rewrite expand_same by exact Hl. rewrite expand_row by exact Hm. reflexivity.
Qed.
Lemma map2_app {A B C} (f : A -> B -> C) a a' b b' : length a = length b ->
  map2 f (a ++ a') (b ++ b') = map2 f a b ++ map2 f a' b'.
Proof.
  revert b. induction a as [|x a IH]; intros [|y b] H; try discriminate; [reflexivity|]. cbn. f_equal. apply IH. now inversion H.
Qed.
Lemma map2_concat_repeat {A B C} (f : A -> B -> C) rows m p : length rows = p -> Forall (fun r => length r = length m) rows ->
  map2 f (concat rows) (concat (repeat m p)) = concat (map (fun r => map2 f r m) rows).
Proof.
  intros <-. induction rows as [|r rows IH]; intros H; [reflexivity|]. inversion H; subst.
  cbn [concat repeat map length]. rewrite map2_app by assumption. now rewrite IH.
Qed.
Lemma tbin_buf_row ff fi p s rows m : length rows = p -> shaped s rows -> length m = prod s ->
  tbin ff fi (mkb F32 p s rows) (mkF s m) = Ok (mkb F32 p s (map (fun r => map2 ff r m) rows)).
Proof.
  intros Hp Hr Hm. unfold tbin, mkb, mkF. cbn [mkD dat sh].
  rewrite bop_row; [|rewrite (concat_length_k _ (prod s)) by exact Hr; now rewrite <- Hp|exact Hm]. cbn [bind].
  rewrite map2_concat_repeat; [reflexivity|exact Hp|]. rewrite Hm. exact Hr.
Qed.
Lemma map2_concat {A B C} (f : A -> B -> C) k rows rows' : length rows = length rows' ->
  Forall (fun r => length r = k) rows -> Forall (fun r => length r = k) rows' ->
  map2 f (concat rows) (concat rows') = concat (map2 (map2 f) rows rows').
Proof.
  revert rows'. induction rows as [|r rows IH]; intros [|r' rows'] H H1 H2; try discriminate; [reflexivity|].
  inversion H1; inversion H2; subst. cbn [concat map2]. rewrite map2_app by congruence. f_equal. apply IH; auto.
Qed.
Lemma combine_map_fst {A B} (a : list A) (b : list B) : length a = length b -> map fst (combine a b) = a.
Proof. revert b. induction a as [|x a IH]; intros [|y b] H; try discriminate; [reflexivity|]. cbn. f_equal. apply IH. now inversion H. Qed.
Lemma combine_map_snd {A B} (a : list A) (b : list B) : length a = length b -> map snd (combine a b) = b.
Proof. revert b. induction a as [|x a IH]; intros [|y b] H; try discriminate; [reflexivity|]. cbn. f_equal. apply IH. now inversion H. Qed.
Lemma tbin_bufs ff fi p s rows rows' : length rows = p -> length rows' = p -> shaped s rows -> shaped s rows' ->
  tbin ff fi (mkb F32 p s rows) (mkb F32 p s rows') = Ok (mkb F32 p s (map2 (map2 ff) rows rows')).
Proof.
  intros H1 H2 H3 H4. unfold tbin, mkb. cbn [mkD dat sh]. rewrite bop_same. cbn [bind].
  rewrite (map2_concat _ (prod s)); [reflexivity|exact (eq_trans H1 (eq_sym H2))|exact H3|exact H4].
Qed.

(** ** Correlation *)
Definition pair_rows s : pyval (list F * list F -> tensor) :=
  Tup [Leaf (fun x => mkF s (fst x)); Leaf (fun x => mkF s (snd x))].
Lemma typed_pair_rows s : typed (fun x => exists h, two_rows s (x :: h)) (pair_rows s).
Proof. ttup; apply typed_mkF; intros x (h & H1 & H2 & _); [now inversion H1|now inversion H2]. Qed.
Lemma each2_length {B} s (f : list (F * F) -> B) h : length (each2 s f h) = prod s.
Proof. unfold each2. now rewrite map_length, seq_length. Qed.
Lemma column2_fst j h : map fst (column2 f0 j h) = column f0 j (map fst h).
Proof. unfold column2, column. rewrite !map_map. reflexivity. Qed.
Lemma column2_snd j h : map snd (column2 f0 j h) = column f0 j (map snd h).
Proof. unfold column2, column. rewrite !map_map. reflexivity. Qed.
Lemma column2_length {A} (d : A) j h : length (column2 d j h) = length h.
Proof. apply map_length. Qed.
Lemma shaped_map2 {A B C} (f : A -> B -> C) s rows rows' : shaped s rows -> shaped s rows' ->
  shaped s (map2 (map2 f) rows rows').
Proof.
  unfold shaped. revert rows'. induction rows as [|r rows IH]; intros [|r' rows'] H1 H2; try constructor.
  - inversion H1; inversion H2; subst. rewrite map2_length; congruence.
  - inversion H1; inversion H2; subst. apply IH; auto.
Qed.
Lemma nth_map2 {A B C} (f : A -> B -> C) l m j a b c : j < length l -> length l = length m ->
  nth j (map2 f l m) c = f (nth j l a) (nth j m b).
Proof.
  revert m j. induction l as [|x l IH]; intros [|y m] j H1 H2; cbn [length] in *; try lia.
  destruct j; [reflexivity|]. cbn. apply IH; lia.
Qed.
Lemma map2_combine {A B C} (f : A -> B -> C) l m : map2 f l m = map (fun xy => f (fst xy) (snd xy)) (combine l m).
Proof. revert m. induction l as [|x l IH]; intros [|y m]; try reflexivity. cbn. now rewrite IH. Qed.
Lemma column_map2 {A} (f : A -> A -> A) (d : A) s rows rows' j : j < prod s -> shaped s rows -> shaped s rows' ->
  column d j (map2 (map2 f) rows rows') = map2 f (column d j rows) (column d j rows').
Proof.
  intros Hj. unfold shaped. revert rows'. induction rows as [|r rows IH]; intros [|r' rows'] H1 H2; try reflexivity.
  inversion H1; inversion H2; subst. cbn [map2 column map]. f_equal; [apply nth_map2; lia|]. apply IH; auto.
Qed.
Lemma shaped_centre s rows m : shaped s rows -> length m = prod s -> shaped s (map (fun r => map2 fsub r m) rows).
Proof.
  intros H Hm. apply Forall_map. eapply Forall_impl; [|exact H]. intros r Hr. rewrite map2_length; congruence.
Qed.
Lemma column_centre s rows m j : j < prod s -> shaped s rows -> length m = prod s ->
  column f0 j (map (fun r => map2 fsub r m) rows) = map (fun x => fsub x (nth j m f0)) (column f0 j rows).
Proof.
  intros Hj H Hm. unfold column. rewrite !map_map. apply map_ext_in. intros r Hr.
  unfold shaped in H. rewrite Forall_forall in H. specialize (H r Hr). apply nth_map2; lia.
Qed.
Lemma nth_each s f h j : j < prod s -> nth j (each s f h) f0 = f (column f0 j h).
Proof.
  intros Hj. unfold each. rewrite nth_indep with (d' := f (column f0 0 h)) by (now rewrite map_length, seq_length).
  rewrite (map_nth (fun j => f (column f0 j h))). now rewrite seq_nth.
Qed.
Lemma wnd_lengthF p s (h : list (list F)) : @length (list F) (wnd F32 p s h) = p.
Proof. exact (wnd_length F32 p s h). Qed.
Lemma wnd_shapedF p s (h : list (list F)) : shaped s h -> @shaped F s (wnd F32 p s h).
Proof. exact (wnd_shaped F32 p s h). Qed.
Lemma compute_correlation_wnd p s (a b : list (list F)) : p >= 1 -> shaped s a -> shaped s b -> length a = length b ->
  compute_correlation (mkb F32 p s (wnd F32 p s a)) (mkb F32 p s (wnd F32 p s b)) =
  Ok (mkF s (each2 s (fun c => corr_of (window p f0 (map fst c)) (window p f0 (map snd c))) (combine a b))).
Proof.
  intros Hp Ha Hb Hl. unfold compute_correlation, tmoments0.
  do 4 (rewrite treduce0_wnd by assumption; cbn [bind]).
  unfold tsqrt. do 2 (rewrite tun_F; cbn [bind]). unfold tsub.
  do 2 (rewrite tbin_buf_row by auto using wnd_length, wnd_shaped, each_length; cbn [bind]).
  set (m1 := each s (fun c => fmean (window p f0 c)) a). set (m2 := each s (fun c => fmean (window p f0 c)) b).
  assert (L1 : length m1 = prod s) by apply each_length. assert (L2 : length m2 = prod s) by apply each_length.
  assert (N1 : forall j, j < prod s -> nth j m1 f0 = fmean (window p f0 (column f0 j a))) by (intros; unfold m1; now rewrite nth_each).
  assert (N2 : forall j, j < prod s -> nth j m2 f0 = fmean (window p f0 (column f0 j b))) by (intros; unfold m2; now rewrite nth_each).
  clearbody m1 m2. unfold tmul.
  rewrite tbin_bufs; [|rewrite map_length; apply wnd_lengthF|rewrite map_length; apply wnd_lengthF
    |apply shaped_centre; auto using wnd_shapedF, each_length|apply shaped_centre; auto using wnd_shapedF, each_length].
  cbn [bind]. unfold treduce_mean0. rewrite treduce0_buf.
  2: { rewrite map2_length; rewrite !map_length; rewrite !wnd_lengthF; reflexivity. }
  2: { apply shaped_map2; apply shaped_centre; auto using wnd_shapedF, each_length. }
  cbn [bind]. rewrite tbin_same. cbn [bind]. unfold tdiv. rewrite tbin_same. do 3 f_equal.
  unfold each, each2. rewrite !map_map, !map2_map. apply map_ext_in. intros j Hj. apply in_seq in Hj.
  rewrite column2_fst, column2_snd.
  replace (map fst (combine a b)) with a by (symmetry; apply combine_map_fst; exact Hl).
  replace (map snd (combine a b)) with b by (symmetry; apply combine_map_snd; exact Hl).
  unfold corr_of, covariance. f_equal. f_equal.
  rewrite (column_map2 _ _ s) by (try apply shaped_centre; auto using wnd_shapedF, each_length; lia).
  rewrite !(column_centre s) by (auto using wnd_shapedF, each_length; lia).
  rewrite !column_wnd.
  rewrite N1, N2 by lia.
  rewrite map2_combine. 
  set (u := window p f0 (column f0 j a)). set (v := window p f0 (column f0 j b)).
  clearbody u v. generalize (fmean u) (fmean v). intros z1 z2. revert v.
  induction u as [|x u IH]; intros [|y v]; try reflexivity. cbn. now rewrite IH.
Qed.

Definition corr_st (p : nat) (s : list nat) : pyval (list (list F * list F) -> tensor) :=
  Tup [Leaf cnt; Leaf (fun h => mkb F32 p s (wnd F32 p s (@map (list F * list F) (list F) fst h)));
       Leaf (fun h => mkb F32 p s (wnd F32 p s (@map (list F * list F) (list F) snd h)))].
Lemma each2_ext {B} s (f g : list (F * F) -> B) h h' :
  (forall j, j < prod s -> f (column2 f0 j h) = g (column2 f0 j h')) -> each2 s f h = each2 s g h'.
Proof. intros H. apply map_ext_in. intros j Hj. apply in_seq in Hj. apply H. lia. Qed.
Lemma each2_const {B} s (b : B) h : each2 s (fun _ => b) h = repeat b (prod s).
Proof. symmetry. apply repeat_seq. Qed.
Lemma combine_fst_snd {A B} (h : list (A * B)) : combine (map fst h) (map snd h) = h.
Proof. induction h as [|[a b] h IH]; [reflexivity|]. cbn. now rewrite IH. Qed.
Lemma corr_implements s p : p >= 1 ->
  implements (Correlation (Z.of_nat p)) (two_rows s) (pair_rows s)
    (Leaf (fun h => mkF s (each2 s (correlation p) h))) (corr_st p s).
Proof.
  intros Hp. apply implements_intro.
  - apply two_rows_nil.
  - apply two_rows_tl.
  - apply typed_pair_rows.
  - apply typed_mkF. intros. apply each2_length.
  - ttup; [apply typed_cnt|apply typed_mkb..]; intros h (H1 & H2 & _); auto using wnd_length, wnd_shaped.
  - intros x h (H1 & H2 & H3). cbn [forward_step Correlation at_ vmap pair_rows corr_st map app].
    unfold correlation_step. args.
    rewrite (wnd_rollF p s (fst x) (map fst h)) by assumption. cbn [bind].
    rewrite (wnd_rollF p s (snd x) (map snd h)) by assumption. cbn [bind].
    change (pyint_like (cnt h) (Z.of_nat p)) with (Ok (isc (Z.of_nat p))). cbn [bind].
    assert (EC : tless (cnt h) (isc (Z.of_nat p)) = Ok (bsc (length h <? p))) by exact (cnt_lt x h p H3).
    rewrite EC. cbn [bind].
    change (fst x :: map fst h) with (map fst (x :: h)). change (snd x :: map snd h) with (map snd (x :: h)).
    rewrite (compute_correlation_wnd p s (map fst (x :: h)) (map snd (x :: h))) by (auto; now rewrite !map_length). cbn [bind].
    rewrite zeros_like_F, tf_cond_pick'; [|apply solid_leaf..|reflexivity]. cbn [bind].
    change (pyint_like (cnt h) 1) with (Ok (isc 1)). cbn [bind].
    assert (EN : tadd (cnt h) (isc 1) = Ok (cnt (x :: h))) by exact (cnt_next x h).
    rewrite EN. cbn [bind]. rewrite combine_fst_snd.
    assert (E : each2 s (correlation p) (x :: h) = if length h <? p then repeat f0 (prod s)
      else each2 s (fun c => corr_of (window p f0 (map fst c)) (window p f0 (map snd c))) (x :: h)).
    { destruct (Nat.ltb_spec (length h) p) as [L|L].
      - rewrite <- (each2_const s f0 (x :: h)). apply each2_ext. intros j _. unfold correlation. rewrite column2_length.
        cbn [length]. destruct (Nat.leb_spec (S (length h)) p); [reflexivity|lia].
      - apply each2_ext. intros j _. unfold correlation. rewrite column2_length.
        cbn [length]. destruct (Nat.leb_spec (S (length h)) p); [lia|].
        rewrite !window_full; [reflexivity|rewrite map_length, column2_length; cbn [length]; lia..]. }
    rewrite E. now destruct (length h <? p).
  - intros x H. cbn [forward_step Correlation at_ vmap pair_rows corr_st map app].
    unfold correlation_step. args. rewrite (wnd_zerosF p s (fst x)), (wnd_zerosF p s (snd x)). reflexivity.
Qed.
Lemma stack_pair_rows s (xs : list (list F * list F)) : xs <> [] -> stacked (pair_rows s) xs = tensor_pairs s xs.
Proof. intros NE. cbn [stacked pair_rows vmap map]. now rewrite !stack_each. Qed.
Theorem corr_streams s p : p >= 1 ->
  streams (Correlation (Z.of_nat p)) (two_rows s) (tensor_pairs s)
    (fun hs => tensors s (map (each2 s (correlation p)) hs)).
Proof.
  intros Hp. eapply streams_of; [apply corr_implements, Hp|discriminate|apply stack_pair_rows|].
  intros hs NE. cbn [stacked vmap]. now rewrite stack_each.
Qed.

(** ** CrossCorrelation *)
Definition delayed_rows (l : nat) (h : list (list F * list F)) : list (list F * list F) :=
  combine (map fst h) (skipn l (map snd h)).
Lemma delayed_length l h : length (delayed_rows l h) = length h - l.
Proof. unfold delayed_rows. rewrite combine_length, skipn_length, !map_length. lia. Qed.
Lemma delayed_early l h : length h <= l -> delayed_rows l h = [].
Proof. intros H. apply length_zero_iff_nil. rewrite delayed_length. lia. Qed.
Lemma skipn_nth {A} n (l : list A) d : n < length l -> skipn n l = nth n l d :: skipn (S n) l.
Proof. revert l. induction n; intros [|x l] H; cbn [length] in H; try lia; [reflexivity|]. cbn. apply IHn. lia. Qed.
Lemma delayed_late l x h d : l >= 1 -> l <= length h ->
  delayed_rows l (x :: h) = (fst x, nth (l - 1) (map snd h) d) :: delayed_rows l h.
Proof.
  intros Hl H. unfold delayed_rows. cbn [map]. destruct l as [|l]; [lia|]. cbn [skipn Nat.sub]. rewrite Nat.sub_0_r.
  rewrite (skipn_nth l (map snd h) d) by (rewrite map_length; lia). reflexivity.
Qed.
Lemma combine_Forall_fst {A B} (P : A -> Prop) (a : list A) (b : list B) : Forall P a -> Forall P (map fst (combine a b)).
Proof. intros H. revert b. induction H; intros [|y b]; constructor; auto. Qed.
Lemma combine_Forall_snd {A B} (P : B -> Prop) (a : list A) (b : list B) : Forall P b -> Forall P (map snd (combine a b)).
Proof. intros H. revert a. induction H; intros [|y a]; constructor; auto. Qed.
Lemma two_rows_delayed s l h : two_rows s h -> two_rows s (delayed_rows l h).
Proof.
  intros (H1 & H2 & H3). split; [|split].
  - now apply combine_Forall_fst.
  - now apply combine_Forall_snd, Forall_skipn.
  - eapply short_le; [exact H3|]. rewrite delayed_length. lia.
Qed.
Lemma column2_delayed l j h : column2 f0 j (delayed_rows l h) = delayed l (column2 f0 j h).
Proof.
  unfold delayed. rewrite column2_fst, column2_snd. unfold column, delayed_rows. rewrite (skipn_map (fun r => nth j r f0) l (map snd h)).
  generalize (map fst h) (skipn l (map snd h)). intros a b. revert b.
  induction a as [|x a IH]; intros [|y b]; try reflexivity. cbn. f_equal. apply IH.
Qed.
Definition cross_st (p l : nat) (s : list nat) : pyval (list (list F * list F) -> tensor) :=
  Tup [Leaf cnt; vmap (fun g h => g (delayed_rows l h)) (corr_st p s);
       Leaf (fun h => mkb F32 l s (wnd F32 l s (@map (list F * list F) (list F) snd h)))].
Lemma at_cross_st p l s h : at_ (cross_st p l s) h =
  Tup [Leaf (cnt h); at_ (corr_st p s) (delayed_rows l h); Leaf (mkb F32 l s (wnd F32 l s (@map (list F * list F) (list F) snd h)))].
Proof. rewrite <- (at_vmap (delayed_rows l) (corr_st p s) h). reflexivity. Qed.
Lemma cross_implements s p l : p >= 1 -> l >= 1 ->
  implements (CrossCorrelation (Z.of_nat p) (Z.of_nat l)) (two_rows s) (pair_rows s)
    (Leaf (fun h => mkF s (each2 s (cross_correlation p l) h))) (cross_st p l s).
Proof.
  intros Hp Hl. apply implements_intro.
  - apply two_rows_nil.
  - apply two_rows_tl.
  - apply typed_pair_rows.
  - apply typed_mkF. intros. apply each2_length.
  - ttup; [apply typed_cnt| |].
    + eapply (typed_pull (delayed_rows l)); [apply (corr_implements s p Hp)|]. intros h. apply two_rows_delayed.
    + apply typed_mkb. intros h (H1 & H2 & _). auto using wnd_length, wnd_shaped.
  - intros x h H. pose proof H as (H1 & H2 & H3). rewrite !at_cross_st.
    cbn [forward_step CrossCorrelation]. set (AT := at_ (corr_st p s)). cbn [at_ vmap pair_rows map app]. subst AT.
    unfold cross_correlation_step. args.
    assert (H2' : shaped s (map snd h)) by (now inversion H2).
    replace (Z.of_nat l - 1)%Z with (Z.of_nat (l - 1)) by lia.
    rewrite index0_buf by (auto using wnd_length, wnd_shaped; lia). cbn [bind].
    rewrite wnd_nth by lia. cbn [mkD].
    pose (y := @nth (list F) (l - 1) (map snd h) (repeat f0 (prod s))).
    assert (Ly : length y = prod s) by (apply nth_shaped; [exact H2'|apply repeat_length]).
    match goal with |- context[call _ ?i _ _] => change i with (at_ (pair_rows s) (fst x, y)) end.
    assert (OK : two_rows s ((fst x, y) :: delayed_rows l h)).
    { destruct (two_rows_delayed s l h) as (D1 & D2 & D3); [now apply two_rows_tl in H|]. split; [|split].
      - constructor; [now inversion H1|exact D1].
      - constructor; [exact Ly|exact D2].
      - eapply short_le; [exact H3|]. cbn [length]. rewrite delayed_length. lia. }
    rewrite (im_call _ _ _ _ _ _ _ (corr_implements s p Hp)) by exact OK. cbn [bind].
    change (pyint_like (cnt h) (Z.of_nat l)) with (Ok (isc (Z.of_nat l))). cbn [bind].
    assert (EC : tless (cnt h) (isc (Z.of_nat l)) = Ok (bsc (length h <? l))) by exact (cnt_lt x h l H3).
    rewrite EC. cbn [bind]. rewrite zeros_like_F.
    rewrite tf_cond_pick'; [|apply solid_pair; repeat constructor..|reflexivity]. cbn [bind].
    change (pyint_like (cnt h) 1) with (Ok (isc 1)).
    assert (EN : tadd (cnt h) (isc 1) = Ok (cnt (x :: h))) by exact (cnt_next x h).
    assert (E : each2 s (cross_correlation p l) (x :: h) = if length h <? l then repeat f0 (prod s)
      else each2 s (correlation p) (delayed_rows l (x :: h))).
    { destruct (Nat.ltb_spec (length h) l) as [L|L].
      - rewrite <- (each2_const s f0 (x :: h)). apply each2_ext. intros j _. unfold cross_correlation. rewrite column2_length.
        cbn [length]. destruct (Nat.leb_spec (S (length h)) (l + p)); [reflexivity|lia].
      - apply each2_ext. intros j _. rewrite column2_delayed. unfold cross_correlation. rewrite column2_length.
        destruct (Nat.leb_spec (length (x :: h)) (l + p)); [|reflexivity].
        unfold correlation. rewrite <- column2_delayed, column2_length, delayed_length.
        destruct (Nat.leb_spec (length (x :: h) - l) p); [reflexivity|lia]. }
    destruct (Nat.ltb_spec (length h) l) as [L|L]; cbn [item nth_error bind].
    + rewrite (wnd_rollF l s (snd x) (map snd h)) by assumption. cbn [bind]. rewrite EN. cbn [bind].
      rewrite (delayed_early l h) by lia. rewrite (delayed_early l (x :: h)) by (cbn [length]; lia).
      rewrite E. reflexivity.
    + rewrite (wnd_rollF l s (snd x) (map snd h)) by assumption. cbn [bind]. rewrite EN. cbn [bind].
      rewrite E. rewrite (delayed_late l x h (repeat f0 (prod s))) by lia. reflexivity.
  - intros x H. rewrite !at_cross_st. cbn [forward_step CrossCorrelation]. set (AT := at_ (corr_st p s)). cbn [at_ vmap pair_rows map app]. subst AT.
    unfold cross_correlation_step. args.
    rewrite (wnd_zerosF l s (fst x)). cbn [bind map].
    replace (Z.of_nat l - 1)%Z with (Z.of_nat (l - 1)) by lia.
    pose (y := @nth (list F) (l - 1) [] (repeat f0 (prod s))).
    assert (IX : index0 (mkb F32 l s (wnd F32 l s (@nil (list F)))) (Z.of_nat (l - 1)) = Ok (mkF s y)).
    { rewrite index0_buf by (auto using wnd_length; try (apply wnd_shaped; constructor); lia).
      rewrite wnd_nth by lia. reflexivity. }
    do 2 (match goal with |- context[index0 ?b ?z] => replace (index0 b z) with (Ok (mkF s y)) by (symmetry; exact IX) end; cbn [bind]).
    assert (Ly : length y = prod s) by (apply nth_shaped; [constructor|apply repeat_length]).
    repeat match goal with |- context[call _ (Tup [?u; ?v]) _ _] => change (Tup [u; v]) with (at_ (pair_rows s) (fst x, y)) end.
    assert (OK : two_rows s [(fst x, y)]).
    { destruct H as (H1 & H2 & H3). split; [|split].
      - constructor; [now inversion H1|constructor].
      - constructor; [exact Ly|constructor].
      - exact H3. }
    rewrite (delayed_early l []) by (cbn [length]; lia).
    rewrite (im_call0 _ _ _ _ _ _ (corr_implements s p Hp)) by exact OK.
    rewrite (im_call _ _ _ _ _ _ [] (corr_implements s p Hp)) by exact OK. reflexivity.
Qed.
Theorem cross_streams s p l : p >= 1 -> l >= 1 ->
  streams (CrossCorrelation (Z.of_nat p) (Z.of_nat l)) (two_rows s) (tensor_pairs s)
    (fun hs => tensors s (map (each2 s (cross_correlation p l)) hs)).
Proof.
  intros Hp Hl. eapply streams_of; [apply cross_implements; assumption|discriminate|apply stack_pair_rows|].
  intros hs NE. cbn [stacked vmap]. now rewrite stack_each.
Qed.

(** ** AutoCorrelation *)
Definition twice {A} (x : A) : A * A := (x, x).
Lemma two_rows_twice s h : ok_rows s h -> two_rows s (map twice h).
Proof.
  intros [H1 H2]. split; [|split].
  - rewrite map_map. now rewrite map_id.
  - rewrite map_map. now rewrite map_id.
  - eapply short_le; [exact H2|]. now rewrite map_length.
Qed.
Lemma column2_twice j h : column2 f0 j (map twice h) = map twice (column f0 j h).
Proof. unfold column2, column. now rewrite !map_map. Qed.
Lemma auto_implements s p l : p >= 1 -> l >= 1 ->
  implements (AutoCorrelation (Z.of_nat p) (Z.of_nat l)) (ok_rows s) (Leaf (mkF s))
    (Leaf (fun h => mkF s (each s (fun c => cross_correlation p l (map twice c)) h)))
    (Tup [vmap (fun g h => g (map twice h)) (cross_st p l s)]).
Proof.
  intros Hp Hl. assert (IM := cross_implements s p l Hp Hl).
  assert (EO : forall h, at_ (Leaf (fun h => mkF s (each2 s (cross_correlation p l) h))) (map twice h) =
    Leaf (mkF s (each s (fun c => cross_correlation p l (map twice c)) h))).
  { intros h. cbn [at_ vmap]. do 2 f_equal. apply map_ext. intros j. now rewrite column2_twice. }
  assert (ES : forall h, at_ (Tup [vmap (fun g h => g (map twice h)) (cross_st p l s)]) h = Tup [at_ (cross_st p l s) (map twice h)]).
  { intros h. rewrite <- (at_vmap (map twice)). reflexivity. }
  apply implements_intro.
  - apply ok_rows_nil.
  - apply ok_rows_tl.
  - apply typed_rowin.
  - apply typed_mkF. intros. apply each_length.
  - ttup. eapply (typed_pull (map twice)); [apply IM|]. apply two_rows_twice.
  - intros x h H. rewrite !ES. cbn [forward_step AutoCorrelation at_ vmap app]. unfold auto_correlation_step. args.
    change (Tup [Leaf (mkF s x); Leaf (mkF s x)]) with (at_ (pair_rows s) (twice x)).
    rewrite (im_call _ _ _ _ _ _ _ IM) by (apply (two_rows_twice s (x :: h)); exact H). cbn [bind].
    change (twice x :: map twice h) with (map twice (x :: h)). rewrite EO. reflexivity.
  - intros x H. rewrite !ES. cbn [forward_step AutoCorrelation at_ vmap app]. unfold auto_correlation_step. args.
    change (Tup [Leaf (mkF s x); Leaf (mkF s x)]) with (at_ (pair_rows s) (twice x)).
    rewrite (im_call0 _ _ _ _ _ _ IM) by (apply (two_rows_twice s [x]); exact H).
    rewrite (im_call _ _ _ _ _ _ _ IM) by (apply (two_rows_twice s [x]); exact H). reflexivity.
Qed.
Theorem auto_streams s p l : p >= 1 -> l >= 1 ->
  streams (AutoCorrelation (Z.of_nat p) (Z.of_nat l)) (ok_rows s) (tensors s)
    (fun hs => tensors s (map (each s (fun c => cross_correlation p l (map twice c))) hs)).
Proof. intros Hp Hl. eapply tensors_streams, auto_implements; assumption. Qed.
End ImplCorr.
