(** * CounterFacts: the simple moving average over histories of any length. *)
From Coq Require Import List ZArith Bool Lia.
From Verif Require Import Num Py PyFacts Tensor Streamable Spec StreamFacts TensorFacts StreamProofs WfFacts Meta Common Finance Series Formulas Positions Implements EvalFacts ImplBasic
  MovingFacts ImplMeta SpecHelpers.
Import ListNotations.

Section CounterFacts.
Context {N : FOps}.
Open Scope Z_scope.
Lemma wrap_warming p n : (p >= 1)%nat -> 0 <= n -> (wrap32 n <? Z.of_nat p - 1) = warming_up p n.
Proof.
  intros Hp Hn. unfold wrap32, warming_up. set (k := n mod 4294967296).
  assert (0 <= k < 4294967296) by (apply Z.mod_pos_bound; lia).
  assert (E : (n + 2147483648) mod 4294967296 = if 2147483648 <=? k then k - 2147483648 else k + 2147483648).
  { rewrite Z.add_mod by lia. fold k. change (2147483648 mod 4294967296) with 2147483648.
    destruct (Z.leb_spec 2147483648 k).
    - symmetry. apply (Z.mod_unique _ _ 1); lia.
    - apply Z.mod_small. lia. }
  rewrite E. destruct (Z.leb_spec 2147483648 k).
  - rewrite orb_true_r. apply Z.ltb_lt. lia.
  - rewrite orb_false_r. replace (k + 2147483648 - 2147483648) with k by lia. reflexivity.
Qed.
Lemma code_forever p h : (p >= 1)%nat -> h <> [] -> sma_code p h = sma_forever p h.
Proof.
  intros Hp NE. unfold sma_code, sma_forever.
  assert (0 <= Z.of_nat (length h) - 1) by (destruct h; [easy|cbn [length]; lia]).
  rewrite wrap_warming by assumption. destruct (warming_up _ _) eqn:E; [reflexivity|].
  rewrite window_full; [reflexivity|]. unfold warming_up in E. apply orb_false_iff in E as [E _].
  apply Z.ltb_ge in E. assert ((Z.of_nat (length h) - 1) mod 4294967296 <= Z.of_nat (length h) - 1) by (apply Z.mod_le; lia).
  lia.
Qed.
Theorem sma_forever_streams s p : (p >= 1)%nat ->
  streams (SimpleMovingAverage (Z.of_nat p)) (shaped s) (tensors s) (fun hs => tensors s (map (each s (sma_forever p)) hs)).
Proof.
  intros Hp. eapply tensors_streams. eapply implements_out; [apply sma_implements_code; exact Hp|..].
  - apply typed_mkF. intros h _. apply each_length.
  - intros h H NE. cbn [at_ vmap]. do 2 f_equal. apply each_ext. intros j _. symmetry. apply code_forever; auto.
    intros E. apply column_nil in E. auto.
Qed.
Theorem sma_forever_positions s p xs : (p >= 1)%nat -> xs <> [] -> shaped s (rev xs) ->
  exists out sf s0, call (SimpleMovingAverage (Z.of_nat p)) (tensors s xs) None true = Ok (tensors s out, sf, s0) /\
    length out = length xs /\
    forall n j, (n < length xs)%nat -> (j < prod s)%nat ->
      (Z.of_nat n < Z.of_nat p - 1 -> Z.of_nat n < 2147483648 -> number out j n = f0) /\
      (Z.of_nat p - 1 <= Z.of_nat n < 2147483648 ->
         number out j n = fdiv (fsum (map (fun i => number xs j (n - i)) (seq 0 p))) (f_of_Z (Z.of_nat p))) /\
      (2147483648 <= Z.of_nat n < 4294967296 -> number out j n = f0).
Proof.
  intros Hp NE OK. destruct (tensor_positions _ _ _ _ (sma_forever_streams s p Hp) xs NE OK) as (out & sf & s0 & E & L & H).
  exists out, sf, s0. split; [exact E|]. split; [exact L|]. intros n j Hn Hj. rewrite H by assumption.
  unfold sma_forever. rewrite upto_length by (now rewrite numbers_length). 
  replace (Z.of_nat (S n) - 1) with (Z.of_nat n) by lia. unfold warming_up.
  split; [|split]; intros B; intros; rewrite Z.mod_small by lia.
  - destruct (Z.ltb_spec (Z.of_nat n) (Z.of_nat p - 1)); [reflexivity|lia].
  - destruct (Z.ltb_spec (Z.of_nat n) (Z.of_nat p - 1)); [lia|].
    destruct (Z.leb_spec 2147483648 (Z.of_nat n)); [lia|]. cbn [orb]. now rewrite window_upto by lia.
  - destruct (Z.leb_spec 2147483648 (Z.of_nat n)); [|lia]. now rewrite orb_true_r.
Qed.
(** resumed streams *)
Lemma hists_in {X} (xs : list X) : forall h k, In k (hists h xs) -> exists p, k = rev p ++ h /\ (0 < length p <= length xs)%nat.
Proof.
  induction xs as [|x xs IH]; intros h k Hk; [easy|]. destruct Hk as [<-|Hk].
  - exists [x]. split; [reflexivity|cbn; lia].
  - destruct (IH (x :: h) k Hk) as (p & -> & L). exists (x :: p). split; [cbn [rev]; now rewrite <- app_assoc|cbn; lia].
Qed.
Theorem sma_zeros_again s p : (p >= 1)%nat -> exists st : list (list F) -> val,
  (forall xs, xs <> [] -> shaped s (rev xs) ->
     exists o, call (SimpleMovingAverage (Z.of_nat p)) (tensors s xs) None true = Ok (o, st (rev xs), st [])) /\
  (forall h xs, xs <> [] -> shaped s (rev xs ++ h) ->
     exists o, call (SimpleMovingAverage (Z.of_nat p)) (tensors s xs) (Some (st h)) true = Ok (tensors s o, st (rev xs ++ h), st h) /\
       (2147483648 <= Z.of_nat (length h) -> Z.of_nat (length h) + Z.of_nat (length xs) <= 4294967296 ->
          o = repeat (repeat f0 (prod s)) (length xs))).
Proof.
  intros Hp. destruct (sma_forever_streams s p Hp) as (st & H1 & H2). exists st. split; [eauto|].
  intros h xs NE Sh. eexists. split; [now apply H2|]. intros B1 B2.
  assert (E : forall k, In k (hists h xs) -> each s (sma_forever p) k = repeat f0 (prod s)).
  { intros k Hk. apply hists_in in Hk as (q & -> & L). rewrite <- (each_const s f0 (rev q ++ h)).
    apply each_ext. intros j _. unfold sma_forever. rewrite column_length, app_length, rev_length.
    unfold warming_up. rewrite Z.mod_small by lia.
    match goal with |- context [2147483648 <=? ?k] => destruct (Z.leb_spec 2147483648 k); [|lia] end.
    now rewrite orb_true_r. }
  assert (Lh : length (hists h xs) = length xs).
  { clear. revert h. induction xs as [|x xs IH]; intros h; cbn; auto. }
  rewrite <- Lh. clear -E. induction (hists h xs) as [|k l IH]; [reflexivity|]. cbn [map length repeat].
  rewrite E by now left. f_equal. apply IH. intros k' Hk'. apply E. now right.
Qed.
(** ** SetDuring *)
Local Open Scope nat_scope.
Definition over {X} (p : nat) (h : list X) : bool := (wrap32 (Z.of_nat (length h)) <? Z.of_nat p)%Z.
Lemma over_lt {X} p (h : list X) : int_op tless (cnt h) (Z.of_nat p) = Ok (bsc (over p h)).
Proof. unfold cnt. rewrite int_op_i. apply tcmp_ii. Qed.
Lemma setduring_implements_code {X} d (a : elt d) p (P : list X -> Prop) EI :
  P [] -> (forall x h, P (x :: h) -> P h) -> 
  typed (fun x => exists h, P (x :: h)) EI ->
  (forall g x h, In g (leaves EI) -> P (x :: h) -> dtype_of (g x) = d) ->
  implements (SetDuring (mkT [] (mkD d [a])) (Z.of_nat p)) P EI
    (vmap (fun g h => match h with [] => dummy
       | x :: r => if over p r then filled d a (g x) else g x end) EI)
    (Tup [Leaf cnt]).
Proof.
  intros P0 Pt T D. apply implements_intro; auto.
  - destruct T as [T1 T2]. split; [now apply pyok_vmap|]. rewrite leaves_vmap, Forall_map.
    rewrite Forall_forall in *. intros g Hg. destruct (T2 g Hg) as (sg & K).
    exists sg. intros [|x r] [Hx NE]; [easy|]. specialize (D g x r Hg Hx).
    destruct (K x) as [K1 K2]; [eauto|]. destruct (over p r); auto.
    unfold filled, tsig in *. cbn [sh]. split.
    + rewrite <- K1, D. now destruct d.
    + unfold wf. cbn [sh dat]. destruct d; cbn [mkD dlen]; apply repeat_length.
  - ttup. apply typed_cnt.
  - intros x h H. cbn [forward_step SetDuring]. unfold set_during_step.
    cbn [at_ vmap map item nth_error bind as_t]. fold (at_ EI x).
    change (pyint_like (cnt h) (Z.of_nat p)) with (Ok (isc (Z.of_nat p))). cbn [bind].
    assert (EC : tless (cnt h) (isc (Z.of_nat p)) = Ok (bsc (over p h))) by exact (over_lt p h).
    assert (pyok EI) by apply T.
    match goal with |- bind ?m _ = _ => assert (E : m = Ok (at_ (vmap (fun g h => match h with [] => dummy
       | x :: r => if over p r then filled d a (g x) else g x end) EI) (x :: h))) end.
    { unfold at_. etransitivity; [apply (map_fn_vmap _ EI H0 (fun g => g x) [fun g => g x])|].
      rewrite vmap_vmap. cbn [map].
      etransitivity; [|apply (vmapM_ok (fun g => Ok (if over p h then filled d a (g x) else g x))
        (fun g => if over p h then filled d a (g x) else g x)); auto].
      apply vmapM_ext. intros g Hg. cbn [bind]. rewrite EC. cbn [bind].
      assert (EF : fill (sh (g x)) (mkT [] (mkD d [a])) = Ok (filled d a (g x))) by (now destruct d).
      rewrite EF. cbn [bind]. rewrite tf_cond_pick'; [destruct (over p h); reflexivity|apply solid_leaf..|].
      unfold same_types. cbn [vmap pv_eqb]. rewrite (D g x h Hg H). now destruct d. }
    rewrite E. cbn [bind]. change (pyint_like (cnt h) 1) with (Ok (isc 1)). cbn [bind].
    assert (EN : tadd (cnt h) (isc 1) = Ok (cnt (x :: h))) by exact (cnt_next x h).
    rewrite EN. reflexivity.
Qed.

Theorem setduring_forever d (a : elt d) p n v :
  genuine v -> is_series n v -> n > 0 -> Forall (fun t => dtype_of t = d) (leaves v) ->
  exists o sf, call (SetDuring (mkT [] (mkD d [a])) (Z.of_nat p)) v None true =
      Ok (o, sf, Tup [Leaf (isc 0)]) /\
    genuine o /\ is_series n o /\
    forall i, i < n -> row i o = if over p (repeat 0 i) then vmap (filled d a) (row i v) else row i v.
Proof.
  intros G S Hn HD. set (k := 0). set (st := @None val).
  set (P := fun h : list nat => Forall (fun i => i < n) h).
  set (EI := vmap (fun t i => trow i t) v).
  assert (TI : typed (fun x => exists h, P (x :: h)) EI).
  { apply (typed_rows n); auto. intros i (h & H). now inversion H. }
  assert (IM := setduring_implements_code d a p P EI). 
  destruct IM as [P0 Pt _ TO TS ST IN]; auto.
  { constructor. }
  { intros x h H2. now inversion H2. }
  { intros g x h Hg _. unfold EI in Hg. rewrite leaves_vmap in Hg. apply in_map_iff in Hg as (t & <- & Ht).
    rewrite Forall_forall in HD. rewrite <- (HD t Ht). unfold dtype_of, trow. cbn [dat]. now destruct (dat t). }
  assert (IM := Build_implements _ _ _ _ _ _ P0 Pt TI TO TS ST IN).
  set (EO := vmap _ EI) in *.
  assert (NL : leaves EI <> []).
  { unfold EI. rewrite leaves_vmap. intros E. apply map_eq_nil in E. now apply (proj1 S). }
  assert (NLO : leaves EO <> []).
  { unfold EO. rewrite leaves_vmap. intros E. apply map_eq_nil in E. auto. }
  assert (HP : P (rev (seq 0 n) ++ repeat 0 k)).
  { apply Forall_app. split; apply Forall_forall.
    - intros i Hi. apply in_rev in Hi. apply in_seq in Hi. lia.
    - intros i []. }
  assert (NE : seq 0 n <> []) by (destruct n; [lia|discriminate]).
  assert (E0 : at_ (Tup [Leaf cnt]) (repeat 0 k) = Tup [Leaf (isc (Z.of_nat k))]).
  { reflexivity. }
  pose proof (implements_stream _ P EI EO _ IM (repeat 0 k) (seq 0 n) st HP NE NL) as E.
  rewrite E0 in E. unfold EI in E at 1. rewrite stacked_rows in E by auto.
  eexists _, _. split; [apply E; right; auto|].
  assert (HH := im_hists _ _ _ _ _ IM _ _ HP).
  assert (LH : length (hists (repeat 0 k) (seq 0 n)) = n) by (rewrite hists_length; apply seq_length).
  assert (NH : hists (repeat 0 k) (seq 0 n) <> []) by (intros Em; rewrite Em in LH; simpl in LH; lia).
  destruct (stacked_series _ EO (hists (repeat 0 k) (seq 0 n)) TO NH HH NLO) as (G1 & S1 & _).
  rewrite LH in S1. split; [exact G1|]. split; [exact S1|]. intros i Hi.
  rewrite (genuine_stacked _ EO _ i [] TO HH NLO) by lia.
  rewrite hists_nth by (rewrite seq_length; lia).
  rewrite (rev_firstn_S _ i 0) by (rewrite seq_length; lia). rewrite seq_nth by lia.
  cbn [app]. unfold at_, EO, EI, row. rewrite !vmap_vmap. unfold over.
  rewrite app_length, rev_length, firstn_length, seq_length, !repeat_length.
  replace (Nat.min i n + k) with i by (unfold k; lia). cbn [Nat.add].
  destruct (wrap32 (Z.of_nat i) <? Z.of_nat p)%Z; reflexivity.
Qed.
Theorem setduring_again d (a : elt d) p n v :
  genuine v -> is_series n v -> n > 0 -> Forall (fun t => dtype_of t = d) (leaves v) ->
  exists o sf s0, call (SetDuring (mkT [] (mkD d [a])) (Z.of_nat p)) v None true = Ok (o, sf, s0) /\
    genuine o /\ is_series n o /\
    forall i, i < n ->
      ((Z.of_nat i < 2147483648)%Z -> i < p -> row i o = vmap (filled d a) (row i v)) /\
      ((Z.of_nat i < 2147483648)%Z -> p <= i -> row i o = row i v) /\
      ((2147483648 <= Z.of_nat i < 4294967296)%Z -> row i o = vmap (filled d a) (row i v)).
Proof.
  intros G IS Hn HD. destruct (setduring_forever d a p n v G IS Hn HD) as (o & sf & E & G1 & S1 & R).
  exists o, sf, (Tup [Leaf (isc 0)]). split; [exact E|]. split; [exact G1|]. split; [exact S1|]. intros i Hi.
  specialize (R i Hi). unfold over in R. rewrite repeat_length in R.
  split; [|split]; intros B.
  - intros L. rewrite wrap32_small in R by lia. destruct (Z.ltb_spec (Z.of_nat i) (Z.of_nat p)); [exact R|lia].
  - intros L. rewrite wrap32_small in R by lia. destruct (Z.ltb_spec (Z.of_nat i) (Z.of_nat p)); [lia|exact R].
  - assert (W : (wrap32 (Z.of_nat i) < 0)%Z).
    { unfold wrap32. replace (Z.of_nat i + 2147483648)%Z with (Z.of_nat i - 2147483648 + 1 * 4294967296)%Z by lia.
      rewrite Z_mod_plus_full, Z.mod_small; lia. }
    destruct (Z.ltb_spec (wrap32 (Z.of_nat i)) (Z.of_nat p)); [exact R|lia].
Qed.
End CounterFacts.
