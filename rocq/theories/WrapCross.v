(** * WrapCross: the crossover of simple averages at every position of a series of any length (C46). *)
From Coq Require Import List ZArith Bool Lia.
From Verif Require Import Num Py PyFacts Tensor TensorFacts Streamable Spec StreamFacts StreamProofs Meta Common Finance
  EvalFacts RunFacts Implements Series Formulas Positions ImplMeta ImplBasic ImplScalar ImplComp MovingFacts SpecHelpers CounterFacts CounterSeeded Wrap WrapFacts WrapPositions.
Import ListNotations.

Section WrapCross.
Context {N : FOps}.
Lemma sub_forever s o1 o2 f g S1 S2 :
  implements o1 (shaped s) (Leaf (mkF s)) (Leaf (fun h => mkF s (each s f h))) S1 ->
  implements o2 (shaped s) (Leaf (mkF s)) (Leaf (fun h => mkF s (each s g h))) S2 ->
  exists ESs, chain [Fork 2; Join [o1; o2]; make_streamable (bin_fn (tbin fsub (Some isub)))] (shaped s) (Leaf (mkF s))
    (Leaf (fun h => mkF s (each s (fun c => fsub (f c) (g c)) h))) ESs.
Proof.
  intros I1 I2. eexists. eapply chain_out.
  - eapply (chain_cons (hd [])).
    + apply fork_implements; [apply shaped_nil|apply shaped_tl|apply typed_rowin'].
    + eapply (chain_cons (fun h => (each s f h, each s g h))).
      * eapply implements_join; [apply shaped_nil|apply shaped_tl|].
        apply joined_cons; [exact I1|]. apply joined_cons; [exact I2|]. apply joined_nil.
      * apply chain_one. apply (bin_implements fsub (Some isub) s (both_rows s) fst snd); [split; constructor|apply both_rows_tl|].
        intros x h (H1 & H2). inversion H1; inversion H2; auto.
      * intros h _ _. reflexivity.
      * intros h H. induction h as [|x h IH]; [split; constructor|].
        destruct IH as (H1 & H2); [now apply shaped_tl in H|].
        split; cbn [trail map fst snd]; (constructor; [apply each_length|assumption]).
    + intros [|x h] H NE; [easy|]. reflexivity.
    + intros h H. now rewrite trail_now.
  - apply typed_mkF. intros h _. apply each_length.
  - intros [|x h] H NE; [easy|]. cbn [at_ vmap newest].
    rewrite (trail_now (x :: h) []). cbn [trail fst snd]. now rewrite map2_each.
Qed.
Lemma crossover_implements_forever s slow fast : slow >= 1 -> fast >= 1 ->
  exists ES, implements (SimpleMovingAverageCrossover (Z.of_nat slow) (Z.of_nat fast)) (shaped s) (Leaf (mkF s))
    (Leaf (fun h => mkF s (each s (crossover_forever slow fast) h))) ES.
Proof.
  intros Hs Hf. assert (C1 := chain_one _ _ _ _ _ (sma_implements_forever s fast Hf)). assert (C2 := chain_one _ _ _ _ _ (setduring_each_forever (slow - 1) s f0)).
  assert (I1 : exists S1, implements (Compose [SetDuring (fsc f0) (Z.of_nat (slow - 1)); SimpleMovingAverage (Z.of_nat fast)]) (shaped s) (Leaf (mkF s))
    (Leaf (fun h => mkF s (each s (fun c => if warming_up slow (Z.of_nat (List.length c) - 1) then f0 else sma_forever fast c) h))) S1).
  { eexists. eapply implements_out; [apply implements_compose; exact (chain_app (each s (sma_forever fast)) _ _ _ _ _ _ _ _ _ _ C1 C2 ltac:(discriminate)
      (fun h _ _ => eq_refl) (fun h _ => trail_shaped s _ h (fun g _ => each_length s _ g)))|apply typed_mkF; intros; apply each_length|].
    intros [|x h] H NE; [easy|]. cbn [at_ vmap]. do 2 f_equal. rewrite each_trail. apply each_ext. intros j _.
    rewrite trail_length. replace (S (slow - 1)) with slow by lia. now destruct (warming_up _ _). }
  destruct I1 as [S1 I1]. destruct (sub_forever s _ _ _ _ _ _ I1 (sma_implements_forever s slow Hs)) as [S C].
  unfold SimpleMovingAverageCrossover. replace (Z.of_nat slow - 1)%Z with (Z.of_nat (slow - 1)) by lia.
  eexists. apply implements_compose. exact C.
Qed.
Theorem crossover_streams_forever s slow fast : slow >= 1 -> fast >= 1 ->
  streams (SimpleMovingAverageCrossover (Z.of_nat slow) (Z.of_nat fast)) (shaped s) (tensors s) (fun hs => tensors s (map (each s (crossover_forever slow fast)) hs)).
Proof. intros Hs Hf. destruct (crossover_implements_forever s slow fast Hs Hf) as [ES IM]. eapply tensors_streams, IM. Qed.
Theorem crossover_again s slow fast xs : slow >= 1 -> fast >= 1 -> xs <> [] -> shaped s (rev xs) ->
  exists out sf s0, call (SimpleMovingAverageCrossover (Z.of_nat slow) (Z.of_nat fast)) (tensors s xs) None true = Ok (tensors s out, sf, s0) /\ length out = length xs /\
    forall n j, n < length xs -> j < prod s -> (2147483648 <= Z.of_nat n < 4294967296)%Z -> number out j n = fsub f0 f0.
Proof.
  intros Hs Hf NE OK. destruct (tensor_positions _ _ _ _ (crossover_streams_forever s slow fast Hs Hf) xs NE OK) as (out & sf & s0 & E & L & H). exists out, sf, s0. split; [exact E|]. split; [exact L|].
  intros n j Hn Hj Hb. rewrite H by assumption. unfold crossover_forever, sma_forever. rewrite upto_length by now rewrite numbers_length. now rewrite !warm_again by exact Hb.
Qed.
End WrapCross.
