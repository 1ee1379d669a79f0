(** * KeepFacts: a streamed call keeps the shapes of the state (C06). *)
From Coq Require Import List ZArith Bool Lia String.
From Verif Require Import Num Py PyFacts Tensor Streamable Spec EvalFacts StreamFacts TensorFacts StreamProofs Keep.
Import ListNotations.

Section KeepFacts.
Context {N : FOps}.

Lemma shape_eqb_eq a b : shape_eqb a b = true -> a = b.
Proof.
  revert b. induction a as [|x a IH]; intros [|y b] H; simpl in H; try discriminate; [reflexivity|].
  apply andb_true_iff in H as [H1 H2]. apply PeanoNat.Nat.eqb_eq in H1. subst y. f_equal. auto.
Qed.
Lemma shape_eqb_trans a b c : shape_eqb a b = true -> shape_eqb b c = true -> shape_eqb a c = true.
Proof. intros H1 H2. apply shape_eqb_eq in H1. now subst b. Qed.

(** Two values whose dtypes agree as nested Python objects, and whose shapes pass the
    traversal, have shapes that agree as nested Python objects. *)
Lemma shapes_of_traversal : forall s s' r, pyok s -> same_types s s' = true ->
  map_fn (fun l => match l with
       | [Leaf x; Leaf y] => if shape_eqb (sh x) (sh y) then Ok (Leaf tt) else Err EShape
       | _ => Err EType end) s [s; s'] = Ok r ->
  same_shapes s s' = true.
Proof.
  unfold same_types, same_shapes.
  set (f := fun l : list (pyval tensor) => match l with
       | [Leaf x; Leaf y] => if shape_eqb (sh x) (sh y) then Ok (Leaf tt) else Err EShape
       | _ => Err EType end).
  intros s. induction s as [a|l IH|l IH|l IH|l IH] using pyval_ind'; intros s' r Hok T H;
    destruct s' as [b|m|m|m|m]; try discriminate T.
  - simpl in H |- *. destruct (shape_eqb (sh a) (sh b)); [reflexivity|discriminate].
  - cbn [map_fn mapM iter bind] in H. apply bind_ok in H as (r' & H & _).
    apply pyok_tup in Hok. cbn [vmap pv_eqb] in T |- *. revert Hok m r' T H.
    induction IH as [|x l Hx _ IHl]; intros Hok [|y m] r' T H; try discriminate T; [reflexivity|].
    inversion Hok; subst.
    cbn [map] in T |- *. apply andb_true_iff in T as [T1 T2].
    cbn [heads] in H. apply bind_ok in H as (v' & Hv & H). apply bind_ok in H as (r2 & Hr & _).
    rewrite (Hx y v') by assumption. cbn [andb]. eapply IHl; eauto.
  - cbn [map_fn mapM iter bind] in H. apply bind_ok in H as (r' & H & _).
    apply pyok_lst in Hok. cbn [vmap pv_eqb] in T |- *. revert Hok m r' T H.
    induction IH as [|x l Hx _ IHl]; intros Hok [|y m] r' T H; try discriminate T; [reflexivity|].
    inversion Hok; subst.
    cbn [map] in T |- *. apply andb_true_iff in T as [T1 T2].
    cbn [heads] in H. apply bind_ok in H as (v' & Hv & H). apply bind_ok in H as (r2 & Hr & _).
    rewrite (Hx y v') by assumption. cbn [andb]. eapply IHl; eauto.
  - apply pyok_dct in Hok as [ND Hok]. cbn [map_fn] in H. apply bind_ok in H as (r' & H & _).
    cbn [vmap pv_eqb] in T |- *. rewrite !map_length in T |- *.
    apply andb_true_iff in T as [L T]. rewrite L. cbn [andb]. clear L.
    pose (l0 := l).
    assert (K : forall k x, In (k, x) l -> assoc k l0 = Some x).
    { intros k x Hin. now apply assoc_in. }
    change [Dct l; Dct m] with [Dct l0; Dct m] in H. clearbody l0. clear ND.
    revert Hok r' T H K.
    induction IH as [|[k x] l Hx _ IHl]; intros Hok r' T H K; [reflexivity|].
    inversion Hok; subst. cbn [fst snd] in *.
    apply bind_ok in H as (os & Hos & H). apply bind_ok in H as (v' & Hv & H).
    apply bind_ok in H as (r2 & Hr & _).
    cbn [map fst snd] in T |- *.
    rewrite (assoc_map (vmap dtype_of)) in T. rewrite (assoc_map (vmap sh)).
    cbn [mapM getkey] in Hos. rewrite (K k x) in Hos by now left.
    destruct (assoc k m) as [y|] eqn:E; [|discriminate T]. cbn [option_map] in T |- *.
    apply andb_true_iff in T as [T1 T2]. cbn [bind] in Hos. injection Hos as <-.
    rewrite (Hx y v') by assumption. cbn [andb].
    apply (IHl H3 r2 T2 Hr). intros k' x' Hin. apply K. now right.
Qed.

Lemma same_shapes_refl s : pyok s -> same_shapes s s = true.
Proof.
  intros H. unfold same_shapes. rewrite pv_eqb_vmap by assumption.
  apply forallb_forall. intros. apply shape_eqb_refl.
Qed.
Lemma state_check_shapes s s' : pyok s -> pyok s' -> state_check s s' = Ok tt -> same_shapes s s' = true.
Proof.
  intros H1 H2 H. pose proof (state_check_types s s' H1 H2 H) as T.
  unfold state_check in H. rewrite !to_type_ok in H by assumption. cbn [bind] in H.
  apply bind_ok in H as (u & _ & H). unfold check_shapes in H. apply bind_ok in H as (r & H & _).
  exact (shapes_of_traversal s s' r H1 T H).
Qed.
Lemma stepsC_shapes op : genuine_op op -> forall xs s os sf,
  genuine s -> Forall genuine xs -> stepsC op s xs = Ok (os, sf) -> same_shapes s sf = true.
Proof.
  intros Hop. induction xs as [|x xs IH]; intros s os sf Hs Hxs H; cbn [stepsC] in H.
  - injection H as <- <-. apply same_shapes_refl. apply Hs.
  - inversion Hxs; subst.
    apply bind_ok in H as ([[o s'] i0] & Hf & H). apply bind_ok in H as (u & Hc & H).
    apply bind_ok in H as ([os' sf'] & Hst & H). injection H as <- <-.
    destruct (Hop _ (Some s) _ _ _ H2 Hs Hf) as (G1 & G2 & _). destruct u.
    eapply pv_eqb_trans; [apply shape_eqb_trans|apply state_check_shapes; [apply Hs|apply G2|exact Hc]|].
    eapply IH; eauto.
Qed.
Theorem shapes_preserved op v st outs sf s0 :
  genuine v -> genuine_opt st -> genuine_op op ->
  call op v st true = Ok (outs, sf, s0) -> same_shapes s0 sf = true.
Proof.
  intros Gv Gst Gop H.
  destruct (series_of_call _ _ _ _ (genuine_pyok _ Gv) Gst H) as (n & Hn).
  destruct (streamed_start op v st n outs sf s0 Gv Gst Gop Hn H)
    as (Hpos & Gs0 & Hstart & o0 & s1 & i0 & os & tas & tasf & Hf & E0 & Go & HC & _).
  apply (stepsC_shapes op Gop (rows n v) s0 os sf Gs0); auto. now apply (genuine_rows n).
Qed.
Theorem shapes_rejected op v st n s0 i os s o s' s'' :
  genuine v -> genuine_opt st -> genuine_op op -> is_series n v -> i < n ->
  starts_from op st (row 0 v) s0 ->
  steps op s0 (rows i v) = Ok (os, s) ->
  call op (row i v) (Some s) false = Ok (o, s', s'') ->
  same_shapes s s' = false ->
  exists e, call op v st true = Err e.
Proof.
  intros Gv Gst Gop Hn Hi Hstart Hpre Hstep Hty.
  destruct (call op v st true) as [[[outs sf] s0']|e] eqn:C; [exfalso|eauto].
  destruct (streamed_start op v st n outs sf s0' Gv Gst Gop Hn C)
    as (Hpos & Gs0 & Hstart' & o0 & s1 & i0 & os' & tas & tasf & Hf & E0 & Go & HC & _).
  rewrite (starts_from_unique _ _ _ _ _ Hstart Hstart') in Hpre.
  assert (HR : rows n v = rows i v ++ row i v :: map (fun i => row i v) (seq (S i) (n - S i))).
  { unfold rows. replace n with (i + S (n - S i)) at 1 by lia. rewrite seq_app, map_app. reflexivity. }
  assert (Gx := genuine_rows n v Gv Hn). rewrite HR in Gx.
  apply Forall_app in Gx as [Gx1 Gx2]. inversion Gx2 as [|? ? Gxi Gx3]; subst.
  rewrite HR, stepsC_app in HC.
  apply bind_ok in HC as ([os1 s1'] & HC1 & HC).
  destruct (stepsC_sound op Gop _ _ _ _ Gs0 Gx1 HC1) as (HS & _ & Gs & _).
  rewrite Hpre in HS. injection HS as -> ->.
  apply bind_ok in HC as ([os2 s2] & HC2 & _). cbn [stepsC] in HC2.
  rewrite call_false_g in Hstep by (simpl; auto). rewrite Hstep in HC2. cbn [bind] in HC2.
  apply bind_ok in HC2 as ([] & Hck & _).
  destruct (Gop _ (Some s1') _ _ _ Gxi Gs Hstep) as (_ & Gs' & _).
  rewrite state_check_shapes in Hty; [discriminate|apply Gs|apply Gs'|exact Hck].
Qed.
End KeepFacts.
