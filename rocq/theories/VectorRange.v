(** * VectorRange: AverageTrueRange over tensors of prices. *)
From Coq Require Import List ZArith Bool Lia.
From Verif Require Import Num Py PyFacts Tensor Streamable Spec StreamFacts TensorFacts StreamProofs WfFacts Meta Common Finance Series Formulas Positions Implements EvalFacts ImplBasic
  ImplWindow ImplMeta ImplScalar ImplComp ImplMarket Genuine MovingFacts ReturnFacts SignalFacts StatFacts MarketFacts Vectors.
Import ListNotations.

Section VectorRange.
Context {N : FOps}.
Lemma wide_ranges_length m h : length (wide_ranges m h) = length h.
Proof. induction h; [reflexivity|]. cbn. now rewrite IHh. Qed.
Lemma wide_short m h : even_rows m h -> short (wide_ranges m h).
Proof. intros [H _]. eapply short_le; [exact H|]. now rewrite wide_ranges_length. Qed.
Lemma wide_tl m x h : even_rows m (x :: h) -> even_rows m h.
Proof. intros [H1 H2]. split; [now apply short_tl in H1|now inversion H2]. Qed.
Lemma closes_length m h : even_rows m h -> length (closes m h) = m.
Proof. intros [_ H]. destruct h; cbn; [apply repeat_length|]. inversion H; subst. apply map_length. Qed.
Lemma sel3_where {X} (q : list F) (x : list X) (g : X -> F -> F) : length q = length x ->
  sel3 (map (fun y => feq y f0) q) (repeat f0 (length x)) (map fabs (map2 fsub (map (fun c => g c f0) x) q)) =
  map (fun qc => if feq (fst qc) f0 then f0 else fabs (fsub (g (snd qc) f0) (fst qc))) (combine q x).
Proof.
  revert x. unfold sel3. induction q as [|a q IH]; intros [|c x] L; try discriminate; [reflexivity|].
  cbn [map length repeat combine map2]. f_equal. cbn [fst snd]. apply IH. now injection L.
Qed.
Lemma true_range_wide s q x : length q = prod s -> length x = prod s ->
  Finance.true_range (mkF s (map c_low x)) (mkF s (map c_high x)) (mkF s q) = Ok (fsc (wide_range q x)).
Proof.
  intros Lq Lx. unfold Finance.true_range, tsub, tabs. rewrite tbin_same. cbn [bind]. rewrite int_op_F. unfold tequal.
  rewrite tcmp_scalar_r by exact Lq. cbn [bind]. rewrite tbin_same. cbn [bind]. rewrite tun_F, zeros_like_F. cbn [bind].
  unfold twhere at 1. cbn [mkF sh dat]. rewrite !shape_eqb_refl. cbn [andb bind].
  fold (mkF s (map c_low x)). fold (mkF s q). rewrite tbin_same. cbn [bind]. rewrite tun_F. cbn [bind].
  unfold twhere at 1. cbn [mkF sh dat]. rewrite !shape_eqb_refl. cbn [andb bind].
  unfold tstack. cbn [forallb sh]. rewrite !shape_eqb_refl. cbn [andb dconcat dat dapp bind treduce_all length].
  rewrite <- Lx, !(sel3_where q x (fun c _ => _)) by congruence. cbn [mkF dat dapp bind treduce_all].
  rewrite <- app_assoc. unfold wide_range.
  replace (map2 fsub (map c_high x) (map c_low x)) with (map (fun c => fsub (c_high c) (c_low c)) x); [reflexivity|].
  clear. induction x as [|c x IH]; cbn [map map2]; [reflexivity|]. now rewrite IH.
Qed.
Definition wide_in (s : list nat) : pyval (list candle -> tensor) :=
  Tup [Leaf (fun x => mkF s (map c_close x)); Leaf (fun x => mkF s (map c_low x)); Leaf (fun x => mkF s (map c_high x))].
Definition wide_st (s : list nat) (p : nat) : pyval (list (list candle) -> tensor) :=
  Tup [Leaf (fun h => mkF s (closes (prod s) h)); vmap (fun g h => g (wide_ranges (prod s) h)) (rma_sc p)].
Lemma at_wide_st s p h : at_ (wide_st s p) h = Tup [Leaf (mkF s (closes (prod s) h)); at_ (rma_sc p) (wide_ranges (prod s) h)].
Proof. rewrite <- (at_vmap (wide_ranges (prod s)) (rma_sc p) h). reflexivity. Qed.
Lemma wide_implements s p : p >= 1 ->
  implements (AverageTrueRange (Z.of_nat p)) (even_rows (prod s)) (wide_in s)
    (Leaf (fun h => fsc (rma p (wide_ranges (prod s) h)))) (wide_st s p).
Proof.
  intros Hp. assert (IM := rma_scalar p Hp). apply implements_intro.
  - split; [apply short_nil|constructor].
  - apply wide_tl.
  - assert (L : forall x, (exists h, even_rows (prod s) (x :: h)) -> length x = prod s) by (intros x (h & _ & H); now inversion H).
    ttup; apply typed_mkF; intros x Hx; rewrite map_length; auto.
  - apply typed_fsc.
  - ttup; [apply typed_mkF; intros h H; now apply closes_length|].
    eapply (typed_pull (wide_ranges (prod s))); [apply IM|]. intros h. apply wide_short.
  - intros x h H. rewrite !at_wide_st. cbn [forward_step AverageTrueRange].
    set (AT := at_ (rma_sc p)). cbn [at_ vmap wide_in map app]. subst AT. unfold atr_step. args.
    rewrite true_range_wide; [|apply closes_length; now apply wide_tl in H|now destruct H as [_ H]; inversion H]. cbn [bind].
    change (Leaf (fsc (wide_range (closes (prod s) h) x))) with (at_ (Leaf fsc) (wide_range (closes (prod s) h) x)).
    rewrite (im_call _ _ _ _ _ _ _ IM) by (apply (wide_short (prod s) (x :: h)), H). reflexivity.
  - intros x H. rewrite !at_wide_st. cbn [forward_step AverageTrueRange].
    set (AT := at_ (rma_sc p)). cbn [at_ vmap wide_in map app]. subst AT. unfold atr_step. args.
    rewrite zeros_like_F. change (closes (prod s) []) with (repeat f0 (prod s)).
    rewrite true_range_wide; [|apply repeat_length|now destruct H as [_ H]; inversion H]. cbn [bind].
    change (Leaf (fsc (wide_range (repeat f0 (prod s)) x))) with (at_ (Leaf fsc) (wide_range (repeat f0 (prod s)) x)).
    rewrite (im_call0 _ _ _ _ _ _ IM) by (apply (wide_short (prod s) [x]), H).
    rewrite (im_call _ _ _ _ _ _ _ IM) by (apply (wide_short (prod s) [x]), H). reflexivity.
Qed.
Lemma stack_map {X} s (f : X -> list F) xs : xs <> [] -> Leaf (stackT (map (fun x => mkF s (f x)) xs)) = tensors s (map f xs).
Proof.
  intros NE. unfold tensors. f_equal. rewrite <- (map_map f (mkF s)). apply stack_mkF. destruct xs; [easy|discriminate].
Qed.
Theorem wide_streams s p : p >= 1 ->
  streams (AverageTrueRange (Z.of_nat p)) (even_rows (prod s)) (wide_bars s) (fun hs => scalars (map (fun h => rma p (wide_ranges (prod s) h)) hs)).
Proof.
  intros Hp. eapply streams_of; [now apply wide_implements|discriminate|..].
  - intros xs NE. cbn [stacked wide_in vmap map]. unfold wide_bars. now rewrite !stack_map.
  - intros hs NE. cbn [stacked vmap]. now rewrite stack_fsc'.
Qed.
Lemma wide_upto m xs n : n < length xs -> wide_ranges m (upto n xs) = upto n (map (largest_range m xs) (seq 0 (length xs))).
Proof.
  assert (NT : forall k, k < length xs -> nth k (map (largest_range m xs) (seq 0 (length xs))) f0 = largest_range m xs k).
  { intros k Hk. rewrite (nth_indep _ f0 (largest_range m xs 0)) by (rewrite map_length, seq_length; lia).
    rewrite map_nth, seq_nth by lia. reflexivity. }
  induction n as [|n IH]; intros H.
  - rewrite (upto_0 xs []) by lia. rewrite (upto_0 _ f0) by (rewrite map_length, seq_length; lia). rewrite NT by lia. reflexivity.
  - rewrite (upto_S n xs []) by lia. rewrite (upto_S n _ f0) by (rewrite map_length, seq_length; lia). rewrite NT by lia.
    cbn [wide_ranges]. rewrite IH by lia. f_equal. unfold wide_range, largest_range, closes_before. cbn [Nat.eqb].
    replace (S n - 1) with n by lia. 
    replace (closes m (upto n xs)) with (map c_close (nth n xs [])); [reflexivity|].
    destruct n as [|n]; [rewrite (upto_0 xs []) by lia|rewrite (upto_S n xs []) by lia]; reflexivity.
Qed.
Theorem wide_positions s p xs : p >= 1 -> xs <> [] -> short (rev xs) -> Forall (fun row => length row = prod s) xs ->
  exists out sf s0 sf' s0', call (AverageTrueRange (Z.of_nat p)) (wide_bars s xs) None true = Ok (scalars out, sf, s0) /\
    call (RollingMovingAverage (Z.of_nat p)) (scalars (map (largest_range (prod s) xs) (seq 0 (length xs)))) None true =
      Ok (scalars out, sf', s0').
Proof.
  intros Hp NE OK W. destruct (wide_streams s p Hp) as (st & H & _). specialize (H xs NE).
  destruct (rma_scalars p (map (largest_range (prod s) xs) (seq 0 (length xs))) Hp) as (sf' & s0' & E').
  - destruct xs; [easy|discriminate].
  - unfold short in *. rewrite rev_length in *. now rewrite map_length, seq_length.
  - eexists _, _, _, _, _. split; [apply H; split; [exact OK|now apply Forall_rev]|]. rewrite E'. do 4 f_equal.
    apply (nth_ext _ _ f0 f0); [rewrite !map_length, !hists_length, map_length, seq_length; reflexivity|].
    intros n Hn. rewrite map_length, hists_length, map_length, seq_length in Hn.
    rewrite (nth_map_hists (rma p)) by (rewrite ?map_length, ?seq_length; exact Hn).
    rewrite (nth_map_hists (fun h => rma p (wide_ranges (prod s) h))) by exact Hn. now rewrite wide_upto.
Qed.
End VectorRange.
