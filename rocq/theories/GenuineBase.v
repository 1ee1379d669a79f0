(** * GenuineBase: how genuine values are built and taken apart; tactics. *)
From Coq Require Import String List ZArith Bool Lia.
From Verif Require Import Num Py PyFacts Tensor Streamable Spec StreamFacts TensorFacts StreamProofs
  WfFacts Meta Common Finance.
Import ListNotations.

Section GenuineBase.
Context {N : FOps}.

(** ** Building and taking apart genuine values *)
Lemma genuine_leaf t : genuine (Leaf t) <-> wf t.
Proof.
  split.
  - intros [_ H]. simpl in H. now inversion H.
  - intros H. split; [exact I|]. simpl. auto.
Qed.
Lemma genuine_tup l : genuine (Tup l) <-> Forall genuine l.
Proof.
  unfold genuine. rewrite pyok_tup. cbn [leaves]. rewrite Forall_flat_map. rewrite !Forall_forall.
  split; [intros [H1 H2] x Hx; auto|]. intros H. split; intros x Hx; now apply H.
Qed.
Lemma genuine_lst l : genuine (Lst l) <-> Forall genuine l.
Proof.
  unfold genuine. rewrite pyok_lst. cbn [leaves]. rewrite Forall_flat_map. rewrite !Forall_forall.
  split; [intros [H1 H2] x Hx; auto|]. intros H. split; intros x Hx; now apply H.
Qed.
Lemma genuine_no_gen l : ~ genuine (Gen l).
Proof. intros [[] _]. Qed.
Lemma genuine_nil : genuine (Tup []).
Proof. now apply genuine_tup. Qed.
Lemma genuine_iter v l : genuine v -> iter v = Ok l -> Forall genuine l.
Proof.
  destruct v; intros G H; try discriminate; injection H as <-.
  - now apply genuine_tup.
  - now apply genuine_lst.
  - now apply genuine_no_gen in G.
Qed.
Lemma genuine_nth args k v : Forall genuine args -> nth_error args k = Some v -> genuine v.
Proof. intros G H. apply nth_error_In in H. rewrite Forall_forall in G. auto. Qed.
Lemma genuine_nth_opt args k : Forall genuine args -> genuine_opt (nth_error args k).
Proof. intros G. destruct (nth_error args k) eqn:E; simpl; auto. eapply genuine_nth; eauto. Qed.
Lemma genuine_default (o : option val) (i : val) : genuine_opt o -> genuine i ->
  genuine (match o with Some s => s | None => i end).
Proof. destruct o; auto. Qed.
Lemma genuine_as_t v t : genuine v -> as_t v = Ok t -> wf t.
Proof. destruct v; intros G H; try discriminate. injection H as <-. now apply genuine_leaf. Qed.
Lemma genuine_item v k x : genuine v -> item v k = Ok x -> genuine x.
Proof.
  destruct v; intros G H; simpl in H; try discriminate.
  - apply bind_ok in H as (t & H & E). injection E as <-. apply genuine_leaf.
    eapply wf_index0; [|exact H]. now apply genuine_leaf.
  - destruct (nth_error l k) eqn:E; [|discriminate]. injection H as <-.
    eapply genuine_nth; [|exact E]. now apply genuine_tup.
  - destruct (nth_error l k) eqn:E; [|discriminate]. injection H as <-.
    eapply genuine_nth; [|exact E]. now apply genuine_lst.
Qed.
Lemma wf_targ args k t : Forall genuine args -> targ args k = Ok t -> wf t.
Proof.
  unfold targ. intros G. destruct (nth_error args k) eqn:E; [|discriminate].
  apply genuine_as_t. eapply genuine_nth; eauto.
Qed.
Lemma wf_targ_or args k d t : Forall genuine args -> (forall u, d = Ok u -> wf u) -> targ_or args k d = Ok t -> wf t.
Proof.
  unfold targ_or. intros G. destruct (nth_error args k) eqn:E; [|auto].
  intros _. apply genuine_as_t. eapply genuine_nth; eauto.
Qed.
Lemma genuine_unpack v : genuine v -> genuine (unpack_singleton v).
Proof.
  destruct v as [|[|x [|? ?]]|[|x [|? ?]]|?|?]; simpl; auto; intros G;
    [apply genuine_tup in G|apply genuine_lst in G]; now inversion G.
Qed.
Lemma genuine_run_branch v r : genuine v -> run_branch v = Ok r -> genuine r.
Proof.
  unfold run_branch. destruct (nonempty_result v); intros G H; [|discriminate]. injection H as <-.
  now apply genuine_unpack, genuine_unpack.
Qed.
Lemma genuine_tf_cond p a b r :
  (forall v, a = Ok v -> genuine v) -> (forall v, b = Ok v -> genuine v) ->
  tf_cond p a b = Ok r -> genuine r.
Proof.
  intros Ha Hb H. unfold tf_cond in H. apply bind_ok in H as (c & _ & H).
  assert (K : forall (x : res val) r, (forall v, x = Ok v -> genuine v) -> (let* v := x in run_branch v) = Ok r -> genuine r).
  { intros x r' Hx E. apply bind_ok in E as (v & -> & E). eapply genuine_run_branch; eauto. }
  destruct a as [t|[]]; destruct b as [f|[]]; try discriminate;
    try (destruct c; try discriminate; eapply K in H; eauto; fail).
  destruct (negb _); [discriminate|].
  apply bind_ok in H as (? & _ & H). apply bind_ok in H as (? & _ & H).
  destruct (pv_eqb _ _ _); [|discriminate]. injection H as <-.
  destruct c; apply genuine_unpack, genuine_unpack; auto.
Qed.
Lemma wf_tcond p a b r :
  (forall v, a = Ok v -> wf v) -> (forall v, b = Ok v -> wf v) -> tcond p a b = Ok r -> wf r.
Proof.
  intros Ha Hb H. unfold tcond in H. apply bind_ok in H as (v & H & E).
  eapply genuine_as_t; [|exact E]. eapply genuine_tf_cond; [| |exact H]; intros w Hw;
    apply bind_ok in Hw as (u & Hu & Hw); injection Hw as <-; apply genuine_leaf; auto.
Qed.
Lemma genuine_tf_case cases d e r :
  Forall (fun c => forall v, snd c = Ok v -> genuine v) cases -> (forall v, d = Ok v -> genuine v) ->
  tf_case cases d e = Ok r -> genuine r.
Proof.
  intros Hc Hd H. unfold tf_case in H. apply bind_ok in H as (? & _ & H). destruct (_ && _); [discriminate|].
  revert r H. induction Hc as [|[p v] cases Hv _ IH]; simpl; intros r H; [auto|].
  eapply genuine_tf_cond; [| |exact H]; auto.
Qed.

Lemma call_pyok op x st r : call op x st false = Ok r -> pyok x -> (forall s, st = Some s -> pyok s) ->
  forward_step op x st = Ok r.
Proof. intros H Hx Hs. now rewrite call_false in H. Qed.
Lemma genuine_call op x st o s' s0 : genuine_op op -> genuine x -> genuine_opt st ->
  call op x st false = Ok (o, s', s0) -> genuine o /\ genuine s' /\ genuine s0.
Proof. intros Hop Gx Gs H. rewrite call_false_g in H by assumption. eauto. Qed.

Definition step_genuine (step : list val -> res out3) : Prop :=
  forall args o s' s0, Forall genuine args -> step args = Ok (o, s', s0) ->
    genuine o /\ genuine s' /\ genuine s0.
Lemma genuine_plain step : step_genuine step -> genuine_op (Plain step).
Proof.
  intros H x st o s' s0 Gx Gs E. simpl in E. eapply H; [|exact E]. apply Forall_app. split.
  - destruct x; auto; try (now apply genuine_tup); now apply genuine_lst.
  - destruct st as [s|]; auto. simpl in Gs. destruct s; auto; try (now apply genuine_tup); now apply genuine_lst.
Qed.

(** ** map_fn preserves genuineness *)
Lemma map_fn_pyok {A B} (f : list (pyval A) -> res (pyval B)) :
  (forall l y, f l = Ok y -> pyok y) ->
  forall obj objs r, pyok obj -> map_fn f obj objs = Ok r -> pyok r.
Proof.
  intros Hf obj. induction obj as [a|l IH|l IH|l IH|l IH] using pyval_ind'; intros objs r Ho H.
  - simpl in H. eauto.
  - cbn [map_fn] in H. apply bind_ok in H as (its & _ & H). apply bind_ok in H as (r' & Hr & H).
    injection H as <-. apply pyok_tup in Ho. apply pyok_tup.
    revert its r' Hr. induction IH as [|x l Hx _ IHl]; intros its r' Hr.
    + injection Hr as <-. constructor.
    + destruct (heads its) as [[hs ts]|]; [|injection Hr as <-; constructor].
      apply bind_ok in Hr as (v' & Hv & Hr). apply bind_ok in Hr as (r'' & Hr' & Hr). injection Hr as <-.
      inversion Ho; subst. constructor; eauto.
  - cbn [map_fn] in H. apply bind_ok in H as (its & _ & H). apply bind_ok in H as (r' & Hr & H).
    injection H as <-. apply pyok_lst in Ho. apply pyok_lst.
    revert its r' Hr. induction IH as [|x l Hx _ IHl]; intros its r' Hr.
    + injection Hr as <-. constructor.
    + destruct (heads its) as [[hs ts]|]; [|injection Hr as <-; constructor].
      apply bind_ok in Hr as (v' & Hv & Hr). apply bind_ok in Hr as (r'' & Hr' & Hr). injection Hr as <-.
      inversion Ho; subst. constructor; eauto.
  - cbn [map_fn] in H. apply bind_ok in H as (r' & Hr & H). injection H as <-.
    apply pyok_dct in Ho as [Hn Ho]. apply pyok_dct.
    assert (E : map fst r' = map fst l /\ Forall (fun kv => pyok (snd kv)) r').
    { clear Hn. revert r' Hr. induction IH as [|[k x] l Hx _ IHl]; intros r' Hr.
      - injection Hr as <-. auto.
      - apply bind_ok in Hr as (os & Hos & Hr). apply bind_ok in Hr as (v' & Hv & Hr).
        apply bind_ok in Hr as (r'' & Hr' & Hr). injection Hr as <-. inversion Ho; subst.
        destruct (IHl H2 _ Hr') as [E1 E2]. simpl. split; [now f_equal|]. constructor; auto. eapply Hx; eauto. }
    destruct E as [-> E]. auto.
  - simpl in H. eauto.
Qed.
Lemma genuine_map_fn (f : list val -> res val) obj objs r :
  (forall l y, f l = Ok y -> pyok y) ->
  (forall l y, Forall (fun o => Forall wf (leaves o)) l -> f l = Ok y -> Forall wf (leaves y)) ->
  pyok obj -> Forall genuine objs -> map_fn f obj objs = Ok r -> genuine r.
Proof.
  intros H1 H2 Ho Hs H. split.
  - eapply map_fn_pyok; eauto.
  - eapply (map_fn_leaves wf wf f H2 obj objs); [|exact H]. eapply Forall_impl; [|exact Hs]. now intros ? [].
Qed.
Lemma genuine_map1 (f : list val -> res val) v r :
  (forall l y, f l = Ok y -> exists t, l = [Leaf t] /\ (wf t -> genuine y) /\ pyok y) ->
  genuine v -> map_fn f v [v] = Ok r -> genuine r.
Proof.
  intros Hf G H. eapply genuine_map_fn; [| |apply G| |exact H]; auto.
  - intros l y E. destruct (Hf _ _ E) as (t & -> & _ & K). exact K.
  - intros l y Hl E. destruct (Hf _ _ E) as (t & -> & K & _). apply K. inversion Hl; subst. now inversion H2.
Qed.
Lemma genuine_slice_at i v r : genuine v -> slice_at i v = Ok r -> genuine r.
Proof.
  intros G H. eapply genuine_map1; [|exact G|exact H]. intros [|[t|?|?|?|?] [|? ?]] y E; try discriminate.
  apply bind_ok in E as (u & E & Hy). injection Hy as <-. exists t. split; [reflexivity|]. split; [|exact I].
  intros W. apply genuine_leaf. eapply wf_index0; eauto.
Qed.

Lemma ok_inj {A} (a b : A) : Ok a = Ok b -> a = b.
Proof. congruence. Qed.
Lemma pair_inj {A B} (a c : A) (b d : B) : (a, b) = (c, d) -> a = c /\ b = d.
Proof. intros H. split; congruence. Qed.
End GenuineBase.

(** ** Inversion of the monadic code, and forward reasoning on well-formedness *)
Ltac unpair := repeat match goal with
  | H : (_, _) = (_, _) |- _ => let H1 := fresh in let H2 := fresh in apply pair_inj in H as [H1 H2] end.
Ltac fa := first [apply Forall_nil | apply Forall_cons; [|fa]].
Ltac binv H :=
  lazymatch type of H with
  | bind ?e ?k = Ok _ =>
      let v := fresh "v" in let E := fresh "E" in
      apply bind_ok in H as (v & E & H); cbn beta in H; binv E; binv H
  | (let (_, _) := ?v in _) = Ok _ => destruct v; binv H
  | Ok _ = Ok _ => apply ok_inj in H; unpair; subst
  | Err _ = Ok _ => discriminate H
  | leaf _ = Ok _ => unfold leaf in H; binv H
  | int_op _ _ _ = Ok _ => unfold int_op in H; binv H
  | first_slice _ _ = Ok _ => unfold first_slice in H; binv H
  | macd_diff _ _ _ _ = Ok _ => unfold macd_diff in H; binv H
  | sign _ = Ok _ => unfold sign in H; binv H
  | compute_rsi _ _ = Ok _ => unfold compute_rsi in H; binv H
  | compute_default_gain_loss _ _ _ _ _ = Ok _ => unfold compute_default_gain_loss in H; binv H
  | compute_first_gain_loss _ _ = Ok _ => unfold compute_first_gain_loss in H; binv H
  | with_rsi _ = Ok _ => unfold with_rsi in H; binv H
  | true_range _ _ _ = Ok _ => unfold true_range in H; binv H
  | compute_sharpe_ratio _ = Ok _ => unfold compute_sharpe_ratio in H; binv H
  | compute_skewness _ = Ok _ => unfold compute_skewness in H; binv H
  | compute_correlation _ _ = Ok _ => unfold compute_correlation in H; binv H
  | supertrend_default _ _ _ _ _ _ _ _ _ = Ok _ => unfold supertrend_default in H; binv H
  | _ => idtac
  end.
Ltac known r := lazymatch goal with _ : wf r |- _ => fail | |- _ => idtac end.
Ltac gknown r := lazymatch goal with _ : genuine r |- _ => fail | |- _ => idtac end.
Ltac wfa := first [assumption | apply wf_zeros_like | apply wf_zeros | apply wf_ones | apply wf_fsc | apply wf_isc | apply wf_bsc].
Ltac ga := first [assumption | apply genuine_leaf; wfa | apply genuine_nth_opt; assumption
                 | apply genuine_nil | apply genuine_default; ga | apply genuine_tup; fa; ga ].
Ltac fact L H r := let W := fresh "W" in assert (W : wf r) by (eapply L; try exact H; wfa).
Ltac clear_conds := repeat match goal with
  | H : tcond _ _ _ = Ok _ |- _ => clear H
  | H : tf_cond _ _ _ = Ok _ |- _ => clear H
  | H : tf_case _ _ _ = Ok _ |- _ => clear H end.
Ltac fwd := repeat match goal with
  | H : pyint_like _ _ = Ok ?r |- _ => known r; fact wf_pyint_like H r
  | H : pyfloat_like _ _ = Ok ?r |- _ => known r; fact wf_pyfloat_like H r
  | H : pynum_like _ _ = Ok ?r |- _ => known r; fact wf_pynum_like H r
  | H : fill _ _ = Ok ?r |- _ => known r; fact wf_fill H r
  | H : zeros_buffer _ _ = Ok ?r |- _ => known r; fact wf_zeros_buffer H r
  | H : index0 _ _ = Ok ?r |- _ => known r; fact wf_index0 H r
  | H : slice0 _ _ _ = Ok ?r |- _ => known r; fact wf_slice0 H r
  | H : concat0 (expand0 ?v) _ = Ok ?r |- _ => known r;
      assert (wf r) by (eapply wf_concat0; [apply wf_expand0| |exact H]; wfa)
  | H : tadd _ _ = Ok ?r |- _ => known r; fact wf_tadd H r
  | H : tsub _ _ = Ok ?r |- _ => known r; fact wf_tsub H r
  | H : tmul _ _ = Ok ?r |- _ => known r; fact wf_tmul H r
  | H : tdiv _ _ = Ok ?r |- _ => known r; fact wf_tdiv H r
  | H : tmaximum _ _ = Ok ?r |- _ => known r; fact wf_tmaximum H r
  | H : tminimum _ _ = Ok ?r |- _ => known r; fact wf_tminimum H r
  | H : tless _ _ = Ok ?r |- _ => known r; fact wf_tless H r
  | H : tgreater _ _ = Ok ?r |- _ => known r; fact wf_tgreater H r
  | H : tless_equal _ _ = Ok ?r |- _ => known r; fact wf_tless_equal H r
  | H : tgreater_equal _ _ = Ok ?r |- _ => known r; fact wf_tgreater_equal H r
  | H : tequal _ _ = Ok ?r |- _ => known r; fact wf_tequal H r
  | H : tlogical_and _ _ = Ok ?r |- _ => known r; fact wf_tlogical_and H r
  | H : tlogical_or _ _ = Ok ?r |- _ => known r; fact wf_tlogical_or H r
  | H : tlogical_not _ = Ok ?r |- _ => known r; fact wf_tlogical_not H r
  | H : tneg _ = Ok ?r |- _ => known r; fact wf_tneg H r
  | H : tabs _ = Ok ?r |- _ => known r; fact wf_tabs H r
  | H : tsqrt _ = Ok ?r |- _ => known r; fact wf_tsqrt H r
  | H : tlog _ = Ok ?r |- _ => known r; fact wf_tlog H r
  | H : tsign _ = Ok ?r |- _ => known r; fact wf_tsign H r
  | H : tpow _ _ = Ok ?r |- _ => known r; fact wf_tpow H r
  | H : tcast_i32 _ = Ok ?r |- _ => known r; fact wf_tcast_i32 H r
  | H : twhere _ _ _ = Ok ?r |- _ => known r; fact wf_twhere H r
  | H : treduce_sum0 _ = Ok ?r |- _ => known r; fact wf_treduce_sum0 H r
  | H : treduce_mean0 _ = Ok ?r |- _ => known r; fact wf_treduce_mean0 H r
  | H : tmoments0 _ = Ok (?m, ?v) |- _ => known m; destruct (wf_tmoments0 _ _ _ H)
  | H : treduce_all _ _ = Ok ?r |- _ => known r; fact wf_treduce_all H r
  | H : treduce_num _ _ _ = Ok ?r |- _ => known r; fact wf_treduce_num H r
  | H : roll _ _ = Ok ?r |- _ => known r; fact wf_roll H r
  | H : shift _ _ = Ok ?r |- _ => known r; fact wf_shift H r
  | H : slice_to _ _ = Ok ?r |- _ => known r; fact wf_slice_to H r
  | H : rsi_clip _ _ = Ok ?r |- _ => known r; fact wf_rsi_clip H r
  | H : tstack _ = Ok ?r |- _ => known r; assert (wf r) by (eapply wf_tstack; [|exact H]; repeat constructor; wfa)
  | H : targ _ _ = Ok ?r |- _ => known r; fact wf_targ H r
  | H : targ_or _ _ (Ok ?d) = Ok ?r |- _ => known r;
      assert (wf r) by (eapply wf_targ_or; [| |exact H]; [assumption|let u := fresh in let E := fresh in
        intros u E; injection E as <-; wfa])
  | H : targ_or _ _ (zeros_buffer _ _) = Ok ?r |- _ => known r;
      assert (wf r) by (eapply wf_targ_or; [| |exact H]; [assumption|apply wf_zeros_buffer])
  | H : tcond _ _ _ = Ok ?r |- _ => known r;
      assert (wf r) by (eapply wf_tcond; [| |exact H]; clear_conds; let u := fresh in let E := fresh in
        intros u E; binv E; fwd; wfa)
  | H : tf_cond _ _ _ = Ok ?r |- _ => gknown r;
      assert (genuine r) by (eapply genuine_tf_cond; [| |exact H]; clear_conds; let u := fresh in let E := fresh in
        intros u E; binv E; fwd; ga)
  | H : tf_case _ _ _ = Ok ?r |- _ => gknown r;
      assert (genuine r) by (eapply genuine_tf_case; [| |exact H]; clear_conds;
         [fa; cbn [snd]|]; let u := fresh in let E := fresh in
         intros u E; binv E; fwd; ga)
  | H : item _ _ = Ok ?r |- _ => gknown r;
      assert (genuine r) by (eapply genuine_item; [|exact H]; assumption)
  | H : as_t _ = Ok ?r |- _ => known r;
      assert (wf r) by (eapply genuine_as_t; [|exact H]; ga)
  | H : call ?op ?x ?st false = Ok (?o, ?s, ?i), Hop : genuine_op ?op |- _ => gknown o;
      let G := fresh "G" in
      assert (G : genuine o /\ genuine s /\ genuine i)
        by (apply (genuine_call op x st o s i Hop); [ga|ga|exact H]);
      destruct G as (? & ? & ?)
  end.
Ltac plain_genuine :=
  apply genuine_plain; let HH := fresh in intros args o s' s0 Gargs HH; binv HH; fwd; (split; [|split]); ga.

