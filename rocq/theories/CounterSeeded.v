(** * CounterSeeded: the seeded averages and the deviation over histories of any length. *)
From Coq Require Import List ZArith Bool Lia.
From Verif Require Import Num Py PyFacts Tensor Streamable Spec StreamFacts TensorFacts StreamProofs WfFacts Meta Common Finance Series Formulas Positions Implements EvalFacts ImplBasic
  MovingFacts ImplMeta SpecHelpers CounterFacts.
Import ListNotations.

Section CounterSeeded.
Context {N : FOps}.
Lemma over_seeding {X} p (h : list X) : over p h = seeding p (Z.of_nat (length h)).
Proof.
  unfold over, seeding. rewrite <- wrap_warming by lia. f_equal. lia.
Qed.
Lemma seed_lt {X} p (h : list X) : int_op tless (cnt h) (Z.of_nat p) = Ok (bsc (seeding p (Z.of_nat (length h)))).
Proof. rewrite <- over_seeding. apply over_lt. Qed.
Lemma column_seeds p j h : column f0 j (seeds p h) = seeds p (column f0 j h).
Proof.
  induction h as [|x r IH]; [reflexivity|]. cbn [seeds column map]. fold (column f0 j r). rewrite column_length.
  destruct (seeding p _); cbn [column map]; [f_equal|]; exact IH.
Qed.
Lemma shaped_seeds s p (h : list (list F)) : shaped s h -> shaped s (seeds p h).
Proof.
  induction h as [|x r IH]; intros H; [constructor|]. inversion H; subst. cbn [seeds].
  destruct (seeding p _); [constructor; [assumption|]|]; now apply IH.
Qed.
Lemma shaped_cons_seeds s p x (h : list (list F)) : shaped s (x :: h) -> shaped s (x :: seeds p h).
Proof. intros H. inversion H; subst. constructor; [assumption|]. now apply shaped_seeds. Qed.
Lemma sma_implements_forever s p : p >= 1 ->
  implements (SimpleMovingAverage (Z.of_nat p)) (shaped s)
    (Leaf (mkF s)) (Leaf (fun h => mkF s (each s (sma_forever p) h))) (sma_st p s).
Proof.
  intros Hp. eapply implements_out; [apply sma_implements_code; exact Hp|..].
  - apply typed_mkF. intros h _. apply each_length.
  - intros h H NE. cbn [at_ vmap]. do 2 f_equal. apply each_ext. intros j _. symmetry. apply code_forever; auto.
    intros E. apply column_nil in E. auto.
Qed.
Definition seeds_st (p : nat) (s : list nat) (f : list F -> F) : pyval (list (list F) -> tensor) :=
  Tup [Leaf cnt; Leaf (fun h => mkF s (each s f h)); vmap (fun g h => g (seeds p h)) (sma_st p s)].
Lemma typed_seeds_st p s f : p >= 1 -> typed (shaped s) (seeds_st p s f).
Proof.
  intros Hp. ttup.
  - apply typed_cnt.
  - apply typed_mkF. intros. apply each_length.
  - eapply (typed_pull (seeds p)); [apply (sma_implements_forever s p Hp)|]. intros h. apply shaped_seeds.
Qed.
Lemma sma_st_solid' p s l h : solid (Tup [Leaf (mkF s l); at_ (sma_st p s) h]).
Proof. apply solid_pair. repeat constructor. Qed.
Lemma each_seeds s p (f : list F -> F) h : each s f (seeds p h) = each s (fun c => f (seeds p c)) h.
Proof. apply map_ext_in. intros j _. now rewrite column_seeds. Qed.

Lemma ema_implements_forever s p : p >= 1 ->
  implements (ExponentialMovingAverage (Z.of_nat p)) (shaped s)
    (Leaf (mkF s)) (Leaf (fun h => mkF s (each s (ema_forever p) h))) (seeds_st p s (ema_forever p)).
Proof.
  intros Hp. apply implements_intro.
  - constructor.
  - intros x h H. now inversion H.
  - apply typed_mkF. intros x (h & H). now inversion H.
  - apply typed_mkF. intros. apply each_length.
  - now apply typed_seeds_st.
  - intros x h H. cbn [forward_step ExponentialMovingAverage]. cbn [at_ vmap seeds_st map app]. fold (sma_st p s).
    change (vmap (fun g => g h) (vmap (fun f h => f (seeds p h)) (sma_st p s))) with (at_ (vmap (fun g h => g (seeds p h)) (sma_st p s)) h).
    change (vmap (fun g => g (x :: h)) (vmap (fun f h => f (seeds p h)) (sma_st p s))) with (at_ (vmap (fun g h => g (seeds p h)) (sma_st p s)) (x :: h)).
    rewrite !(at_vmap (seeds p)).
    unfold ema_step. args.
    change (Leaf (mkF s x)) with (at_ (Leaf (mkF s)) x) at 1.
    rewrite (im_call _ _ _ _ _ _ _ (sma_implements_forever s p Hp)) by now apply shaped_cons_seeds.
    cbn [bind]. rewrite !pyfloat_like_F. cbn [bind]. inversion H; subst.
    unfold tmul, tadd at 1. do 2 (rewrite tbin_scalar_r by auto using each_length; cbn [bind]).
    rewrite tbin_same. cbn [bind].
    rewrite seed_lt. cbn [bind].
    rewrite tf_cond_pick'; [|apply sma_st_solid'..|apply sma_st_types].
    cbn [bind]. cbn [seeds]. destruct (seeding p (Z.of_nat (length h))) eqn:B; cbn [item nth_error bind].
    + rewrite (cnt_next x). cbn [bind].
      assert (E : each s (ema_forever p) (x :: h) = each s (sma_forever p) (x :: seeds p h)).
      { apply map_ext_in. intros j _. cbn [column map ema_forever seeds]. fold (column f0 j h). rewrite column_length, B.
        now rewrite <- column_seeds. }
      cbn [at_ vmap]. rewrite E. reflexivity.
    + rewrite (cnt_next x). cbn [bind].
      assert (E : each s (ema_forever p) (x :: h) = map2 fadd (map (fun y => fmul y (f_of_D (ema_k (Z.of_nat p)))) x)
        (map (fun y => fmul y (f_of_D (dsub (d_of_Z 1) (ema_k (Z.of_nat p))))) (each s (ema_forever p) h))).
      { rewrite each_step by assumption. apply each_ext. intros j _. cbn [column map ema_forever]. rewrite map_length, B.
        reflexivity. }
      rewrite E. reflexivity.
  - intros x H. cbn [forward_step ExponentialMovingAverage]. cbn [at_ vmap seeds_st map app]. fold (sma_st p s).
    unfold ema_step. args.
    change (Leaf (mkF s x)) with (at_ (Leaf (mkF s)) x).
    rewrite (im_call0 _ _ _ _ _ _ (sma_implements_forever s p Hp)) by assumption.
    change (vmap (fun g => g []) (vmap (fun f h => f (seeds p h)) (sma_st p s))) with (at_ (vmap (fun g h => g (seeds p h)) (sma_st p s)) []).
    rewrite (at_vmap (seeds p)). change (seeds p []) with (@nil (list F)).
    rewrite (im_call _ _ _ _ _ _ _ (sma_implements_forever s p Hp)) by assumption.
    rewrite zeros_like_F. rewrite <- (each_const s f0 []).
    replace (each s (fun _ => f0) []) with (each s (ema_forever p) []) by (apply each_ext; reflexivity).
    reflexivity.
Qed.
Lemma rma_implements_forever s p : p >= 1 ->
  implements (RollingMovingAverage (Z.of_nat p)) (shaped s)
    (Leaf (mkF s)) (Leaf (fun h => mkF s (each s (rma_forever p) h))) (seeds_st p s (rma_forever p)).
Proof.
  intros Hp. apply implements_intro.
  - constructor.
  - intros x h H. now inversion H.
  - apply typed_mkF. intros x (h & H). now inversion H.
  - apply typed_mkF. intros. apply each_length.
  - now apply typed_seeds_st.
  - intros x h H. cbn [forward_step RollingMovingAverage]. cbn [at_ vmap seeds_st map app]. fold (sma_st p s).
    change (vmap (fun g => g h) (vmap (fun f h => f (seeds p h)) (sma_st p s))) with (at_ (vmap (fun g h => g (seeds p h)) (sma_st p s)) h).
    change (vmap (fun g => g (x :: h)) (vmap (fun f h => f (seeds p h)) (sma_st p s))) with (at_ (vmap (fun g h => g (seeds p h)) (sma_st p s)) (x :: h)).
    rewrite !(at_vmap (seeds p)).
    unfold rma_step. args.
    change (Leaf (mkF s x)) with (at_ (Leaf (mkF s)) x) at 1.
    rewrite (im_call _ _ _ _ _ _ _ (sma_implements_forever s p Hp)) by now apply shaped_cons_seeds.
    cbn [bind]. rewrite int_op_F. inversion H; subst.
    unfold tmul, tadd at 1. rewrite tbin_scalar_r by auto using each_length. cbn [bind].
    rewrite tbin_same. cbn [bind]. rewrite int_op_F. unfold tdiv.
    rewrite tbin_scalar_r by (rewrite map2_length; rewrite ?map_length, each_length; auto). cbn [bind].
    rewrite seed_lt. cbn [bind].
    rewrite tf_cond_pick'; [|apply sma_st_solid'..|apply sma_st_types].
    cbn [bind]. cbn [seeds]. destruct (seeding p (Z.of_nat (length h))) eqn:B; cbn [item nth_error bind].
    + rewrite (cnt_next x). cbn [bind].
      assert (E : each s (rma_forever p) (x :: h) = each s (sma_forever p) (x :: seeds p h)).
      { apply map_ext_in. intros j _. cbn [column map rma_forever seeds]. fold (column f0 j h). rewrite column_length, B.
        now rewrite <- column_seeds. }
      cbn [at_ vmap]. rewrite E. reflexivity.
    + rewrite (cnt_next x). cbn [bind].
      match goal with |- context [mkF s (map ?f (map2 fadd (map ?g ?y) x))] =>
        assert (E : each s (rma_forever p) (x :: h) = map f (map2 fadd (map g y) x)) end.
      { rewrite (nth_list' f0 x (prod s)) at 2 by assumption. unfold each. rewrite !map_map, map2_map, map_map.
        apply map_ext_in. intros j _. cbn [column map rma_forever]. rewrite map_length, B. reflexivity. }
      rewrite E. reflexivity.
  - intros x H. cbn [forward_step RollingMovingAverage]. cbn [at_ vmap seeds_st map app]. fold (sma_st p s).
    unfold rma_step. args.
    change (Leaf (mkF s x)) with (at_ (Leaf (mkF s)) x).
    rewrite (im_call0 _ _ _ _ _ _ (sma_implements_forever s p Hp)) by assumption.
    change (vmap (fun g => g []) (vmap (fun f h => f (seeds p h)) (sma_st p s))) with (at_ (vmap (fun g h => g (seeds p h)) (sma_st p s)) []).
    rewrite (at_vmap (seeds p)). change (seeds p []) with (@nil (list F)).
    rewrite (im_call _ _ _ _ _ _ _ (sma_implements_forever s p Hp)) by assumption.
    rewrite zeros_like_F. rewrite <- (each_const s f0 []).
    replace (each s (fun _ => f0) []) with (each s (rma_forever p) []) by (apply each_ext; reflexivity).
    reflexivity.
Qed.
Lemma msd_implements_forever s p : p >= 1 ->
  implements (MovingStandardDeviation (Z.of_nat p)) (shaped s)
    (Leaf (mkF s)) (Leaf (fun h => mkF s (each s (msd_forever p) h))) (sma_st p s).
Proof.
  intros Hp. apply implements_intro.
  - constructor.
  - intros x h H. now inversion H.
  - apply typed_mkF. intros x (h & H). now inversion H.
  - apply typed_mkF. intros. apply each_length.
  - ttup; [apply typed_cnt|].
    apply typed_mkb. intros h H. auto using wnd_length, wnd_shaped.
  - intros x h H. cbn [forward_step MovingStandardDeviation at_ vmap sma_st map app]. unfold msd_step. args.
    rewrite wnd_rollF by assumption. cbn [bind]. unfold tmoments0.
    do 2 (rewrite treduce0_wnd by assumption; cbn [bind]).
    unfold tsqrt. rewrite tun_F. cbn [bind].
    unfold cnt at 1. rewrite int_op_i. unfold tless. rewrite tcmp_ii. cbn [bind].
    rewrite zeros_like_F, tcond_F. cbn [bind]. rewrite (cnt_next x). cbn [bind].
    rewrite <- (each_const s f0 (x :: h)), map_each. do 5 f_equal. symmetry. apply each_if.
    intros j _. unfold msd_forever. rewrite column_length. cbn [length].
    replace (Z.of_nat (S (length h)) - 1)%Z with (Z.of_nat (length h)) by lia.
    rewrite wrap_warming by lia. destruct (warming_up p _) eqn:E; [reflexivity|].
    rewrite window_full; [reflexivity|]. unfold warming_up in E. apply orb_false_iff in E as [E _].
    apply Z.ltb_ge in E. assert ((Z.of_nat (length h)) mod 4294967296 <= Z.of_nat (length h))%Z by (apply Z.mod_le; lia).
    rewrite column_length. cbn [length]. lia.
  - intros x H. cbn [forward_step MovingStandardDeviation at_ vmap sma_st map app]. unfold msd_step. args.
    now rewrite wnd_zerosF.
Qed.
Theorem ema_forever_streams s p : p >= 1 ->
  streams (ExponentialMovingAverage (Z.of_nat p)) (shaped s) (tensors s) (fun hs => tensors s (map (each s (ema_forever p)) hs)).
Proof. intros Hp. eapply tensors_streams, ema_implements_forever, Hp. Qed.
Theorem rma_forever_streams s p : p >= 1 ->
  streams (RollingMovingAverage (Z.of_nat p)) (shaped s) (tensors s) (fun hs => tensors s (map (each s (rma_forever p)) hs)).
Proof. intros Hp. eapply tensors_streams, rma_implements_forever, Hp. Qed.
Theorem msd_forever_streams s p : p >= 1 ->
  streams (MovingStandardDeviation (Z.of_nat p)) (shaped s) (tensors s) (fun hs => tensors s (map (each s (msd_forever p)) hs)).
Proof. intros Hp. eapply tensors_streams, msd_implements_forever, Hp. Qed.

(** ** What it comes to *)
Lemma seeding_small p n : (0 <= n < 2147483648)%Z -> seeding p n = (n <? Z.of_nat p)%Z.
Proof.
  intros H. unfold seeding, warming_up. rewrite Z.mod_small by lia.
  destruct (Z.leb_spec 2147483648 n); [lia|]. rewrite orb_false_r. f_equal. lia.
Qed.
Lemma seeding_large p n : (2147483648 <= n < 4294967296)%Z -> seeding p n = true.
Proof.
  intros H. unfold seeding, warming_up. rewrite Z.mod_small by lia.
  destruct (Z.leb_spec 2147483648 n); [|lia]. apply orb_true_r.
Qed.
Lemma seeds_first {A} p (h : list A) : (Z.of_nat (length h) <= 2147483648)%Z -> seeds p h = oldest p h.
Proof.
  induction h as [|x r IH]; intros H; [reflexivity|]. cbn [seeds length] in *. rewrite seeding_small by lia.
  rewrite IH by lia. destruct (Z.ltb_spec (Z.of_nat (length r)) (Z.of_nat p)).
  - rewrite !oldest_all; cbn [length]; auto; lia.
  - rewrite oldest_cons by lia. reflexivity.
Qed.
Definition beyond : nat := Z.to_nat 2147483648.
Lemma beyond_Z : Z.of_nat beyond = 2147483648%Z.
Proof. unfold beyond. rewrite Z2Nat.id by lia. reflexivity. Qed.
Opaque beyond.
Lemma seeds_again {A} p (h : list A) : (2147483648 <= Z.of_nat (length h) <= 4294967296)%Z ->
  (Z.of_nat p <= 2147483648)%Z ->
  seeds p h = firstn (length h - beyond) h ++ oldest p h.
Proof.
  pose proof beyond_Z as BZ.
  induction h as [|x r IH]; intros H Hp; cbn [length] in *; [lia|].
  destruct (Z.eq_dec (Z.of_nat (S (length r))) 2147483648) as [E|E].
  - replace (S (length r) - beyond) with 0 by lia. cbn [firstn app]. apply seeds_first. cbn [length]. lia.
  - cbn [seeds]. rewrite seeding_large by lia. rewrite IH by lia.
    replace (S (length r) - beyond) with (S (length r - beyond)) by lia. cbn [firstn app].
    rewrite oldest_cons by lia. reflexivity.
Qed.
Lemma oldest_len {A} p (h : list A) : p <= length h -> length (oldest p h) = p.
Proof. intros H. unfold oldest. rewrite skipn_length. lia. Qed.
(** from 2^31 + p - 1 elements on, both averages are simple *)
Lemma sma_seeds p h : p >= 1 -> (2147483648 + Z.of_nat p <= Z.of_nat (length h) <= 4294967296 - Z.of_nat p)%Z ->
  sma_forever p (seeds p h) = fdiv (fsum (firstn p h)) (f_of_Z (Z.of_nat p)).
Proof.
  pose proof beyond_Z as BZ. intros Hp H. rewrite seeds_again by lia. unfold sma_forever.
  rewrite app_length, firstn_length, oldest_len by lia.
  replace (Nat.min (length h - beyond) (length h)) with (length h - beyond) by lia.
  unfold warming_up. rewrite Z.mod_small by lia.
  destruct (Z.ltb_spec (Z.of_nat (length h - beyond + p) - 1) (Z.of_nat p - 1)); [lia|].
  destruct (Z.leb_spec 2147483648 (Z.of_nat (length h - beyond + p) - 1)); [lia|]. cbn [orb].
  rewrite firstn_app, firstn_firstn, firstn_length.
  replace (Nat.min p (length h - beyond)) with p by lia.
  replace (p - Nat.min (length h - beyond) (length h)) with 0 by lia. cbn [firstn]. now rewrite app_nil_r.
Qed.
Lemma ema_forever_late p h : p >= 1 -> (2147483648 + Z.of_nat p <= Z.of_nat (length h) <= 4294967296 - Z.of_nat p)%Z ->
  ema_forever p h = fdiv (fsum (firstn p h)) (f_of_Z (Z.of_nat p)).
Proof.
  intros Hp H. rewrite <- sma_seeds by assumption. destruct h as [|x r]; [cbn [length] in H; lia|].
  cbn [ema_forever]. cbn [length] in H. now rewrite seeding_large by lia.
Qed.
Lemma rma_forever_late p h : p >= 1 -> (2147483648 + Z.of_nat p <= Z.of_nat (length h) <= 4294967296 - Z.of_nat p)%Z ->
  rma_forever p h = fdiv (fsum (firstn p h)) (f_of_Z (Z.of_nat p)).
Proof.
  intros Hp H. rewrite <- sma_seeds by assumption. destruct h as [|x r]; [cbn [length] in H; lia|].
  cbn [rma_forever]. cbn [length] in H. now rewrite seeding_large by lia.
Qed.
Theorem late_positions s p op f xs : p >= 1 -> xs <> [] -> shaped s (rev xs) ->
  (op = ExponentialMovingAverage (Z.of_nat p) /\ f = ema_forever p \/
   op = RollingMovingAverage (Z.of_nat p) /\ f = rma_forever p) ->
  exists out sf s0, call op (tensors s xs) None true = Ok (tensors s out, sf, s0) /\
    length out = length xs /\
    forall n j, n < length xs -> j < prod s ->
      (2147483648 + Z.of_nat p - 1 <= Z.of_nat n < 4294967296 - Z.of_nat p)%Z ->
      number out j n = fdiv (fsum (map (fun i => number xs j (n - i)) (seq 0 p))) (f_of_Z (Z.of_nat p)).
Proof.
  intros Hp NE OK D.
  assert (HS : streams op (shaped s) (tensors s) (fun hs => tensors s (map (each s f) hs)))
    by (destruct D as [[-> ->]|[-> ->]]; [now apply ema_forever_streams|now apply rma_forever_streams]).
  destruct (tensor_positions _ _ _ _ HS xs NE OK) as (out & sf & s0 & E & L & H).
  exists out, sf, s0. split; [exact E|]. split; [exact L|]. intros n j Hn Hj B. rewrite H by assumption.
  assert (UL : length (upto n (numbers xs j)) = S n) by (apply upto_length; now rewrite numbers_length).
  rewrite <- (window_upto p n xs j) by lia.
  destruct D as [[-> ->]|[-> ->]]; [apply ema_forever_late|apply rma_forever_late]; rewrite ?UL; lia.
Qed.
Theorem msd_forever_positions s p xs : p >= 1 -> xs <> [] -> shaped s (rev xs) ->
  exists out sf s0, call (MovingStandardDeviation (Z.of_nat p)) (tensors s xs) None true = Ok (tensors s out, sf, s0) /\
    length out = length xs /\
    forall n j, n < length xs -> j < prod s ->
      (2147483648 <= Z.of_nat n < 4294967296)%Z -> number out j n = f0.
Proof.
  intros Hp NE OK.
  destruct (tensor_positions _ _ _ _ (msd_forever_streams s p Hp) xs NE OK) as (out & sf & s0 & E & L & H).
  exists out, sf, s0. split; [exact E|]. split; [exact L|]. intros n j Hn Hj B. rewrite H by assumption.
  unfold msd_forever. rewrite upto_length by (now rewrite numbers_length).
  replace (Z.of_nat (S n) - 1)%Z with (Z.of_nat n) by lia. unfold warming_up. rewrite Z.mod_small by lia.
  destruct (Z.leb_spec 2147483648 (Z.of_nat n)); [|lia]. now rewrite orb_true_r.
Qed.
End CounterSeeded.
