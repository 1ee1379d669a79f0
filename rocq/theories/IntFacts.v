(** * IntFacts: extrema and arithmetic of int32 series; the operators that only take floats. *)
From Coq Require Import String List ZArith Bool Lia.
From Verif Require Import Num Py PyFacts Tensor Streamable Spec SpecMeta StreamFacts TensorFacts StreamProofs
  WfFacts Meta Common Finance Library GenuineBase Genuine GenuineLib InitFacts InitLib MapFacts Shapes ShapeFacts ShapeOps ShapeProofs ShapeInit
  Series Formulas Positions EvalFacts Implements ImplMeta ImplBasic ImplScalar ImplComp ImplWindow ImplMarket SpecHelpers StatelessFacts Vectors VectorErrors Ints.
Import ListNotations.

Section IntFacts.
Context {N : FOps}.
(** ** Extrema *)
Fixpoint irunning (lt : Z -> Z -> bool) (h : list Z) : Z :=
  match h with
  | [] => 0%Z
  | [x] => x
  | x :: r => if lt x (irunning lt r) then x else irunning lt r
  end.
Definition iglobal_st (lt : Z -> Z -> bool) : pyval (list Z -> tensor) :=
  Tup [Leaf (fun h => isc (irunning lt h)); Leaf (fun h => bsc (isnil h))].
Lemma iglobal_implements cmp lt : (forall a b, cmp (isc a) (isc b) = Ok (bsc (lt a b))) ->
  implements (Plain (global_step cmp)) (fun _ => True) (Leaf isc) (Leaf (fun h => isc (irunning lt h))) (iglobal_st lt).
Proof.
  intros Hc. apply implements_intro; auto.
  - apply (typed_isc _ (fun x => x)).
  - apply typed_isc.
  - ttup; [apply typed_isc|apply typed_bsc].
  - intros x h _. cbn [forward_step at_ vmap iglobal_st map app]. unfold global_step. args.
    rewrite Hc. cbn [bind]. unfold tlogical_or. rewrite tbool2_bb. cbn [bind].
    rewrite tf_cond_pick'; [|apply solid_leaf..|reflexivity]. cbn [bind].
    destruct h as [|y h]; cbn [isnil orb]; [reflexivity|].
    change (irunning lt (x :: y :: h)) with (if lt x (irunning lt (y :: h)) then x else irunning lt (y :: h)).
    destruct (lt x (irunning lt (y :: h))) eqn:E; reflexivity.
Qed.
Lemma ints_streams op P f ES :
  implements op P (Leaf isc) (Leaf (fun h => isc (f h))) ES ->
  streams op P ints (fun hs => ints (map f hs)).
Proof.
  intros IM. eapply streams_of; [exact IM|discriminate|..].
  - intros xs NE. cbn [stacked vmap]. now rewrite stack_isc.
  - intros hs NE. cbn [stacked vmap]. unfold ints. f_equal.
    rewrite <- (map_map f isc). apply stack_isc. destruct hs; [easy|discriminate].
Qed.
Lemma ints_positions op ok (f : list Z -> Z) :
  streams op ok ints (fun hs => ints (map f hs)) ->
  forall xs, xs <> [] -> ok (rev xs) ->
  exists out sf s0, call op (ints xs) None true = Ok (ints out, sf, s0) /\ length out = length xs /\
    forall n d, n < length xs -> nth n out d = f (upto n xs).
Proof.
  intros (st & H & _) xs NE OK. exists (map f (hists [] xs)), (st (rev xs)), (st []).
  split; [now apply H|]. split; [now rewrite map_length, hists_length|]. intros. now apply nth_map_hists.
Qed.
(** The buffer of the last [p] whole numbers. *)
Definition ibuf (p : nat) (h : list Z) : tensor := mkT [p] (DI (window p 0%Z h)).
Lemma ibuf_zeros p x : zeros_buffer (Z.of_nat p) (isc x) = Ok (ibuf p []).
Proof.
  unfold zeros_buffer, ibuf, zeros, window. destruct (Z.ltb_spec (Z.of_nat p) 0); [lia|]. cbn [dtype_of dat sh isc].
  rewrite Nat2Z.id. cbn [prod fold_right app]. rewrite Nat.mul_1_r. do 3 f_equal. symmetry. apply firstn_all2. rewrite repeat_length. lia.
Qed.
Lemma ibuf_slice p x h : length h < p -> short (x :: h) -> (Z.of_nat p < 2147483648)%Z ->
  slice_to (ibuf p (x :: h)) (cnt (x :: h)) = Ok (mkT [S (length h)] (DI (x :: h))).
Proof.
  intros H Hs Hp. unfold cnt. rewrite wrap32_small by (cbn [length]; lia).
  unfold slice_to. cbn [sh dat isc]. unfold slice0, ibuf. cbn [sh dat prod fold_right dslice].
  destruct (Z.ltb_spec 0 0); [lia|]. destruct (Z.ltb_spec (Z.of_nat (length (x :: h))) 0); [lia|].
  replace (Z.to_nat (Z.min 0 (Z.of_nat p))) with 0 by lia.
  replace (Z.to_nat (Z.min (Z.of_nat (length (x :: h))) (Z.of_nat p))) with (S (length h)) by (cbn [length]; lia).
  rewrite Nat.sub_0_r, Nat.mul_1_r. do 3 f_equal. unfold lslice. cbn [skipn Nat.mul].
  rewrite firstn_window by (cbn [length]; lia). apply firstn_all2. cbn [length]. lia.
Qed.
Lemma shift_ibuf p x h : p >= 1 -> shift (isc x) (ibuf p h) = Ok (ibuf p (x :: h)).
Proof.
  intros Hp. destruct p as [|p]; [lia|]. unfold shift, ibuf. cbn [sh dat pred].
  unfold concat0, expand0. cbn [sh dat isc]. cbn [shape_eqb dslice dapp bind Nat.add].
  do 3 f_equal. rewrite <- window_cons by lia. unfold lslice. cbn [skipn app]. f_equal.
  rewrite <- removelast_firstn_S by (rewrite window_length; lia).
  f_equal. apply firstn_all2. rewrite window_length. lia.
Qed.
Definition ibuf_it (p : nat) : pyval (list Z -> tensor) := Tup [Leaf (ibuf p); Leaf cnt].
Lemma typed_ibuf (P : list Z -> Prop) p : typed P (Leaf (ibuf p)).
Proof. apply (typed_leaf _ _ ([p], I32)). intros. split; [reflexivity|]. unfold wf. simpl. rewrite window_length. lia. Qed.
Lemma treduce_num_ints r ri s l : treduce_num r ri (mkT s (DI l)) = Ok (isc (ri l)).
Proof. reflexivity. Qed.
Lemma ilocal_implements red ired p : p >= 1 -> (Z.of_nat p < 2147483648)%Z ->
  implements (Plain (local_step red ired (Z.of_nat p))) short (Leaf isc) (Leaf (fun h => isc (ired (firstn p h)))) (ibuf_it p).
Proof.
  intros Hp Hb. apply implements_intro.
  - apply short_nil.
  - apply short_tl.
  - apply (typed_isc _ (fun x => x)).
  - apply typed_isc.
  - ttup; [apply typed_ibuf|apply typed_cnt].
  - intros x h H. cbn [forward_step at_ vmap ibuf_it map app]. unfold local_step. args.
    rewrite shift_ibuf by assumption. cbn [bind].
    change (pyint_like (cnt h) (Z.of_nat p - 1)) with (Ok (isc (Z.of_nat p - 1))). cbn [bind].
    change (pyint_like (cnt h) 1) with (Ok (isc 1)). cbn [bind].
    assert (E1 : tadd (cnt h) (isc 1) = Ok (cnt (x :: h))) by exact (cnt_next x h). rewrite E1. cbn [bind].
    assert (E2 : tless (cnt h) (isc (Z.of_nat p - 1)) = Ok (bsc (S (length h) <? p))) by exact (cnt_lt_pred x h p Hp H).
    rewrite E2. cbn [bind].
    destruct (Nat.ltb_spec (S (length h)) p) as [L|L].
    + rewrite ibuf_slice by (auto; lia). cbn [bind]. rewrite !treduce_num_ints. cbn [bind].
      unfold ibuf at 1. rewrite treduce_num_ints. cbn [bind].
      rewrite tf_cond_pick'; [|apply solid_leaf..|reflexivity]. cbn [bind].
      rewrite (firstn_all2 (x :: h)) by (cbn [length]; lia). reflexivity.
    + match goal with |- context [tf_cond (bsc false) ?a (let* m := treduce_num red ired (ibuf p (x :: h)) in Ok (Leaf m))] => set (sl := a) end.
      assert (exists z, sl = Ok (Leaf (isc z))) as (z & Ez).
      { unfold sl, slice_to, cnt. cbn [sh dat isc]. unfold slice0, ibuf. cbn [sh dat dslice bind treduce_num]. eauto. }
      rewrite Ez. unfold ibuf at 1. rewrite treduce_num_ints. cbn [bind].
      rewrite tf_cond_pick'; [|apply solid_leaf..|reflexivity]. cbn [bind].
      rewrite window_full by (cbn [length]; lia). reflexivity.
  - intros x H. cbn [forward_step at_ vmap ibuf_it map app]. unfold local_step. args.
    now rewrite ibuf_zeros.
Qed.
(** what the extrema are *)
Lemma irunning_min h : h <> [] -> In (irunning Z.ltb h) h /\ Forall (fun x => (irunning Z.ltb h <= x)%Z) h.
Proof.
  induction h as [|x [|y h] IH]; intros NE; [easy|cbn; split; [now left|constructor; [lia|constructor]]|].
  destruct (IH ltac:(discriminate)) as [I1 I2].
  change (irunning Z.ltb (x :: y :: h)) with (if (x <? irunning Z.ltb (y :: h))%Z then x else irunning Z.ltb (y :: h)).
  destruct (Z.ltb_spec x (irunning Z.ltb (y :: h))) as [L|L].
  - split; [now left|]. constructor; [lia|]. eapply Forall_impl; [|exact I2]. cbn beta. lia.
  - split; [now right|]. constructor; [lia|exact I2].
Qed.
Lemma irunning_max h : h <> [] -> In (irunning Z.gtb h) h /\ Forall (fun x => (x <= irunning Z.gtb h)%Z) h.
Proof.
  induction h as [|x [|y h] IH]; intros NE; [easy|cbn; split; [now left|constructor; [lia|constructor]]|].
  destruct (IH ltac:(discriminate)) as [I1 I2].
  change (irunning Z.gtb (x :: y :: h)) with (if (x >? irunning Z.gtb (y :: h))%Z then x else irunning Z.gtb (y :: h)).
  rewrite Z.gtb_ltb. destruct (Z.ltb_spec (irunning Z.gtb (y :: h)) x) as [L|L].
  - split; [now left|]. constructor; [lia|]. eapply Forall_impl; [|exact I2]. cbn beta. lia.
  - split; [now right|]. constructor; [lia|exact I2].
Qed.
Lemma fold_min_spec l : forall a, (In (fold_left Z.min l a) l \/ fold_left Z.min l a = a) /\ Forall (fun x => (fold_left Z.min l a <= x)%Z) (a :: l).
Proof.
  induction l as [|x l IH]; intros a; [cbn; split; [now right|constructor; [lia|constructor]]|].
  destruct (IH (Z.min a x)) as [I1 I2]. inversion I2; subst. cbn [fold_left]. split.
  - destruct I1 as [I1|I1]; [left; now right|]. rewrite I1. destruct (Z.min_spec a x) as [[_ ->]|[_ ->]]; [now right|left; now left].
  - constructor; [lia|]. constructor; [lia|assumption].
Qed.
Lemma fold_max_spec l : forall a, (In (fold_left Z.max l a) l \/ fold_left Z.max l a = a) /\ Forall (fun x => (x <= fold_left Z.max l a)%Z) (a :: l).
Proof.
  induction l as [|x l IH]; intros a; [cbn; split; [now right|constructor; [lia|constructor]]|].
  destruct (IH (Z.max a x)) as [I1 I2]. inversion I2; subst. cbn [fold_left]. split.
  - destruct I1 as [I1|I1]; [left; now right|]. rewrite I1. destruct (Z.max_spec a x) as [[_ ->]|[_ ->]]; [left; now left|now right].
  - constructor; [lia|]. constructor; [lia|assumption].
Qed.
Lemma imin_spec l : l <> [] -> Forall int32 l -> In (imin_list l) l /\ Forall (fun x => (imin_list l <= x)%Z) l.
Proof.
  intros NE H. destruct (fold_min_spec l 2147483647) as [I1 I2]. fold (imin_list l) in *. inversion I2; subst. split; [|assumption].
  destruct I1 as [I1|I1]; [exact I1|]. destruct l as [|x l]; [easy|]. left. inversion H as [|? ? Hx _]; subst.
  match goal with K : Forall _ (x :: l) |- _ => inversion K; subst end. unfold int32 in Hx. lia.
Qed.
Lemma imax_spec l : l <> [] -> Forall int32 l -> In (imax_list l) l /\ Forall (fun x => (x <= imax_list l)%Z) l.
Proof.
  intros NE H. destruct (fold_max_spec l (-2147483648)) as [I1 I2]. fold (imax_list l) in *. inversion I2; subst. split; [|assumption].
  destruct I1 as [I1|I1]; [exact I1|]. destruct l as [|x l]; [easy|]. left. inversion H as [|? ? Hx _]; subst.
  match goal with K : Forall _ (x :: l) |- _ => inversion K; subst end. unfold int32 in Hx. lia.
Qed.
Lemma least_upto xs p n v : p >= 1 -> n < length xs -> In v (firstn p (upto n xs)) -> Forall (fun x => (v <= x)%Z) (firstn p (upto n xs)) -> least_of xs (S n - p) n v.
Proof.
  intros Hp Hn I H. split.
  - apply (In_nth _ _ 0%Z) in I as (i & Hi & <-). rewrite firstn_length, upto_length in Hi by exact Hn.
    exists (n - i). split; [lia|]. rewrite nth_firstn by lia. symmetry. apply nth_upto; lia.
  - intros i Hi. rewrite Forall_forall in H. apply H. replace i with (n - (n - i)) by lia. rewrite <- (nth_upto n (n - i)) by lia.
    rewrite <- (nth_firstn (n - i) p) by lia. apply nth_In. rewrite firstn_length, upto_length by exact Hn. lia.
Qed.
Lemma greatest_upto xs p n v : p >= 1 -> n < length xs -> In v (firstn p (upto n xs)) -> Forall (fun x => (x <= v)%Z) (firstn p (upto n xs)) -> greatest_of xs (S n - p) n v.
Proof.
  intros Hp Hn I H. split.
  - apply (In_nth _ _ 0%Z) in I as (i & Hi & <-). rewrite firstn_length, upto_length in Hi by exact Hn.
    exists (n - i). split; [lia|]. rewrite nth_firstn by lia. symmetry. apply nth_upto; lia.
  - intros i Hi. rewrite Forall_forall in H. apply H. replace i with (n - (n - i)) by lia. rewrite <- (nth_upto n (n - i)) by lia.
    rewrite <- (nth_firstn (n - i) p) by lia. apply nth_In. rewrite firstn_length, upto_length by exact Hn. lia.
Qed.
Lemma whole_upto {X} n (xs : list X) : n < length xs -> firstn (S n) (upto n xs) = upto n xs.
Proof. intros H. apply firstn_all2. now rewrite upto_length. Qed.
Lemma upto_nonempty {X} n (xs : list X) p : p >= 1 -> n < length xs -> firstn p (upto n xs) <> [].
Proof. intros Hp H E. apply (f_equal (@length X)) in E. rewrite firstn_length, upto_length in E by exact H. cbn [length] in E. lia. Qed.
Lemma firstn_int32 n xs p : Forall int32 xs -> Forall int32 (firstn p (upto n xs)).
Proof.
  intros H. rewrite Forall_forall in *. intros x Hx. apply H, (in_upto n). rewrite <- (firstn_skipn p (upto n xs)). apply in_or_app. now left.
Qed.
Theorem global_ints xs : xs <> [] ->
  (exists out sf s0, call GlobalMinimum (ints xs) None true = Ok (ints out, sf, s0) /\ length out = length xs /\
     forall n, n < length xs -> least_of xs 0 n (nth n out 0%Z)) /\
  (exists out sf s0, call GlobalMaximum (ints xs) None true = Ok (ints out, sf, s0) /\ length out = length xs /\
     forall n, n < length xs -> greatest_of xs 0 n (nth n out 0%Z)).
Proof.
  intros NE. split.
  - destruct (ints_positions GlobalMinimum (fun _ => True) (irunning Z.ltb)) with (xs := xs) as (out & sf & s0 & E & L & K); auto.
    { eapply ints_streams, iglobal_implements. reflexivity. }
    exists out, sf, s0. split; [exact E|]. split; [exact L|]. intros n Hn. rewrite K by exact Hn. replace 0 with (S n - S n) by lia.
    destruct (irunning_min (upto n xs)) as [A B]; [rewrite <- whole_upto by exact Hn; apply upto_nonempty; lia|].
    apply least_upto; rewrite ?whole_upto by exact Hn; auto. lia.
  - destruct (ints_positions GlobalMaximum (fun _ => True) (irunning Z.gtb)) with (xs := xs) as (out & sf & s0 & E & L & K); auto.
    { eapply ints_streams, iglobal_implements. reflexivity. }
    exists out, sf, s0. split; [exact E|]. split; [exact L|]. intros n Hn. rewrite K by exact Hn. replace 0 with (S n - S n) by lia.
    destruct (irunning_max (upto n xs)) as [A B]; [rewrite <- whole_upto by exact Hn; apply upto_nonempty; lia|].
    apply greatest_upto; rewrite ?whole_upto by exact Hn; auto. lia.
Qed.
Theorem local_ints p xs : p >= 1 -> (Z.of_nat p < 2147483648)%Z -> xs <> [] -> short xs -> Forall int32 xs ->
  (exists out sf s0, call (LocalMinimum (Z.of_nat p)) (ints xs) None true = Ok (ints out, sf, s0) /\ length out = length xs /\
     forall n, n < length xs -> least_of xs (S n - p) n (nth n out 0%Z)) /\
  (exists out sf s0, call (LocalMaximum (Z.of_nat p)) (ints xs) None true = Ok (ints out, sf, s0) /\ length out = length xs /\
     forall n, n < length xs -> greatest_of xs (S n - p) n (nth n out 0%Z)).
Proof.
  intros Hp Hb NE Hs HI. assert (Hs' : short (rev xs)) by (unfold short in *; now rewrite rev_length). split.
  - destruct (ints_positions (LocalMinimum (Z.of_nat p)) short (fun h => imin_list (firstn p h))) with (xs := xs) as (out & sf & s0 & E & L & K); auto.
    { eapply ints_streams, ilocal_implements; assumption. }
    exists out, sf, s0. split; [exact E|]. split; [exact L|]. intros n Hn. rewrite K by exact Hn.
    destruct (imin_spec (firstn p (upto n xs))) as [A B]; [now apply upto_nonempty|now apply firstn_int32|]. now apply least_upto.
  - destruct (ints_positions (LocalMaximum (Z.of_nat p)) short (fun h => imax_list (firstn p h))) with (xs := xs) as (out & sf & s0 & E & L & K); auto.
    { eapply ints_streams, ilocal_implements; assumption. }
    exists out, sf, s0. split; [exact E|]. split; [exact L|]. intros n Hn. rewrite K by exact Hn.
    destruct (imax_spec (firstn p (upto n xs))) as [A B]; [now apply upto_nonempty|now apply firstn_int32|]. now apply greatest_upto.
Qed.
(** ** Arithmetic *)
Lemma wrap32_int32 z : int32 (wrap32 z).
Proof. unfold int32, wrap32. assert (H := Z.mod_pos_bound (z + 2147483648) 4294967296 ltac:(lia)). lia. Qed.
Lemma wrap32_cong z : exists k, wrap32 z = (z + k * 2 ^ 32)%Z.
Proof. unfold wrap32. exists (- ((z + 2147483648) / 4294967296))%Z. rewrite Z.mod_eq by lia. change (2 ^ 32)%Z with 4294967296%Z. lia. Qed.
Lemma nth_wrapped (f : Z -> Z -> Z) (a b : list Z) i : length a = length b -> i < length a ->
  nth i (map (fun p => wrap32 (f (fst p) (snd p))) (combine a b)) 0%Z = wrap32 (f (nth i a 0%Z) (nth i b 0%Z)).
Proof.
  intros L Hi. set (g := fun p : Z * Z => wrap32 (f (fst p) (snd p))). rewrite (nth_indep _ 0%Z (g (0%Z, 0%Z))) by (rewrite map_length, combine_length; lia).
  rewrite (map_nth g), combine_nth by exact L. reflexivity.
Qed.
Theorem int_arithmetic n s (a b : list Z) st : n > 0 -> length a = prod (n :: s) -> length b = prod (n :: s) -> no_state st ->
  let v := Tup [Leaf (mkT (n :: s) (DI a)); Leaf (mkT (n :: s) (DI b))] in
  exists o1 o2 o3, call Add v st true = Ok (Leaf (mkT (n :: s) (DI o1)), Tup [], Tup []) /\ int_result Z.add a b o1 /\
    call Sub v st true = Ok (Leaf (mkT (n :: s) (DI o2)), Tup [], Tup []) /\ int_result Z.sub a b o2 /\
    call Mul v st true = Ok (Leaf (mkT (n :: s) (DI o3)), Tup [], Tup []) /\ int_result Z.mul a b o3.
Proof.
  intros Hn La Lb Hst v. destruct (arithmetic_i n s a b st Hn La Lb Hst) as (E1 & E2 & E3).
  assert (K : forall f, int_result f a b (map (fun p => wrap32 (f (fst p) (snd p))) (combine a b))).
  { intros f. split; [rewrite map_length, combine_length; lia|]. intros i Hi e. rewrite nth_wrapped by (auto; congruence). fold e.
    split; [apply wrap32_int32|]. split; [apply wrap32_cong|]. intros H. apply wrap32_small. unfold int32 in H. lia. }
  eauto 15.
Qed.
End IntFacts.
