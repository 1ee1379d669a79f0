(** * GenuineLib: every operator of the library computes genuine values. *)
From Coq Require Import String List ZArith Bool Lia.
From Verif Require Import Num Py PyFacts Tensor Streamable Spec StreamFacts TensorFacts StreamProofs
  WfFacts Meta Common Finance Library GenuineBase Genuine.
Import ListNotations.

Section GenuineLib.
Context {N : FOps}.

(** ** Stateless operators *)
Lemma genuine_make fn : user_fn fn -> genuine_op (make_streamable fn).
Proof.
  intros Hf. apply genuine_plain. intros args o s' s0 G H. binv H.
  split; [|split]; try apply genuine_nil. eapply Hf; eauto.
Qed.
Lemma user_bin f : (forall t u r, wf t -> wf u -> f t u = Ok r -> wf r) -> user_fn (bin_fn f).
Proof.
  intros Hf args r G H. unfold bin_fn in H. binv H. fwd. apply genuine_leaf. eapply Hf; [| |eassumption]; assumption.
Qed.
Lemma genuine_fork n : genuine_op (Fork n).
Proof.
  apply genuine_make. intros args r G H. destruct args as [|x [|? ?]]; try discriminate. apply ok_inj in H. subst.
  apply genuine_tup. apply Forall_forall. intros y Hy. apply repeat_spec in Hy. subst. now inversion G.
Qed.
Lemma genuine_identity : genuine_op Identity.
Proof.
  apply genuine_make. intros args r G H. destruct args as [|x [|? ?]]; try discriminate. apply ok_inj in H. subst.
  now inversion G.
Qed.
Lemma genuine_py_nth l i v : Forall genuine l -> py_nth l i = Ok v -> genuine v.
Proof.
  unfold py_nth. intros G. destruct (Z.ltb _ 0); [discriminate|].
  destruct (nth_error _ _) eqn:E; [|discriminate]. intros H. apply ok_inj in H. subst. eapply genuine_nth; eauto.
Qed.
Lemma genuine_select_list l : genuine_op (Select (IdxList l)).
Proof.
  apply genuine_make. intros args r G H. binv H. apply genuine_lst. apply mapM_ok_iff in E.
  induction E; constructor; eauto using genuine_py_nth.
Qed.
Lemma genuine_select_one i : genuine_op (Select (IdxOne i)).
Proof. apply genuine_make. intros args r G H. eapply genuine_py_nth; eauto. Qed.
Lemma genuine_positive : genuine_op Positive.
Proof. apply genuine_make. intros args r G H. unfold positive_fn in H. binv H. fwd.
  apply genuine_leaf. eapply wf_twhere; [| | |eassumption]; [eapply wf_tgreater; [| |eassumption]| |]; wfa. Qed.
Lemma genuine_negative : genuine_op Negative.
Proof. apply genuine_make. intros args r G H. unfold negative_fn in H. binv H. fwd.
  apply genuine_leaf. eapply wf_twhere; [| | |eassumption]; [eapply wf_tless; [| |eassumption]| |]; wfa. Qed.

(** ** Extrema *)
Lemma genuine_global cmp : (forall t u r, wf t -> wf u -> cmp t u = Ok r -> wf r) -> genuine_op (Plain (global_step cmp)).
Proof. intros Hc. unfold global_step. plain_genuine. Qed.
Lemma genuine_local red ired p : genuine_op (Plain (local_step red ired p)).
Proof. unfold local_step. plain_genuine. Qed.

(** ** SetDuring *)
Lemma tf_cond_either p a b r : tf_cond p a b = Ok r ->
  exists v, (a = Ok v \/ b = Ok v) /\ r = unpack_singleton (unpack_singleton v).
Proof.
  intros H. unfold tf_cond in H. apply bind_ok in H as (c & _ & H).
  assert (K : forall (x : res val) r, (let* v := x in run_branch v) = Ok r ->
    exists v, x = Ok v /\ r = unpack_singleton (unpack_singleton v)).
  { intros x r' E. apply bind_ok in E as (v & -> & E). unfold run_branch in E.
    destruct (nonempty_result v); [|discriminate]. apply ok_inj in E. subst. eauto. }
  destruct a as [t|[]]; destruct b as [f|[]]; try discriminate;
    try (destruct c; try discriminate; apply K in H as (v & E & ->); exists v; auto; fail).
  destruct (negb _); [discriminate|].
  apply bind_ok in H as (? & _ & H). apply bind_ok in H as (? & _ & H).
  destruct (pv_eqb _ _ _); [|discriminate]. apply ok_inj in H. subst.
  destruct c; eexists; split; [left| |right|]; reflexivity.
Qed.
Lemma genuine_set_during v p : wf v -> genuine_op (SetDuring v p).
Proof.
  intros Wv x st o s' s0 Gx Gs H. cbn [forward_step SetDuring] in H. unfold set_during_step in H.
  assert (G : genuine (match st with None => Tup [Leaf (isc 0)] | Some s => s end)) by (destruct st; ga).
  binv H. fwd.
  match goal with H : map_fn _ _ _ = Ok ?r |- _ => assert (genuine r) end.
  { eapply genuine_map1; [|exact Gx|eassumption]. intros [|[t|?|?|?|?] [|? ?]] y Hy; try discriminate.
    exists t. split; [reflexivity|]. binv Hy. split.
    - intros Wt. fwd. assumption.
    - match goal with H : tf_cond _ _ _ = Ok _ |- _ => apply tf_cond_either in H as (w & [E'|E'] & ->) end;
        binv E'; exact I. }
  split; [|split]; ga.
Qed.

(** ** Automaton *)
Lemma genuine_automaton trs i d :
  Forall (fun t => user_guard (tr_guard t) /\ user_fn (tr_action t)) trs -> user_fn d ->
  genuine_op (Automaton trs i d).
Proof.
  intros Ht Hd x st o s' s0 Gx Gs H. cbn [forward_step Automaton] in H. unfold automaton_step in H.
  binv H.
  assert (wf v). { destruct st; binv E; [|wfa]. eapply genuine_as_t; [|exact E]. exact Gs. }
  pose proof (genuine_iter _ _ Gx E0) as Gins.
  match goal with H : tf_case _ _ _ = Ok ?r |- _ => assert (genuine r) end.
  { eapply genuine_tf_case; [| |eassumption].
    - match goal with H : mapM _ trs = Ok ?r |- _ => rename H into Hm; apply mapM_ok_iff in Hm end.
      clear -Hm Ht Gins. induction Hm as [|t c trs cs E _ IH]; constructor.
      + inversion Ht as [|? ? [_ Ha] _]; subst. binv E. cbn [snd]. intros w Hw. binv Hw.
        match goal with H : tr_action _ _ = Ok _ |- _ => apply Ha in H; [|assumption] end. ga.
      + apply IH. now inversion Ht.
    - intros w Hw. binv Hw. match goal with H : d _ = Ok _ |- _ => apply Hd in H; [|assumption] end. ga. }
  fwd. split; [|split]; ga.
Qed.

(** ** Compose and Join *)
Lemma genuine_compose_loop l : forall x out o nexts inits,
  Forall (fun p => genuine_op (fst p) /\ genuine_opt (snd p)) l -> genuine x -> genuine_opt out ->
  compose_loop l x out = Ok (o, nexts, inits) ->
  genuine_opt o /\ Forall genuine nexts /\ Forall genuine inits.
Proof.
  induction l as [|[op st] l IH]; intros x out o nexts inits Hl Gx Go H; cbn [compose_loop] in H; binv H.
  - auto.
  - inversion Hl as [|? ? [Hop Hst] Hl']; subst. cbn [fst snd] in *.
    destruct (genuine_call _ _ _ _ _ _ Hop Gx Hst E) as (G1 & G2 & G3).
    eapply IH in E0 as (G4 & G5 & G6); eauto.
Qed.
Lemma combine_ops ops (sts : list (option val)) :
  Forall genuine_op ops -> Forall genuine_opt sts ->
  Forall (fun p => genuine_op (fst p) /\ genuine_opt (snd p)) (combine ops sts).
Proof.
  intros H. revert sts. induction H; intros sts Hs; simpl; [constructor|].
  destruct Hs; constructor; auto.
Qed.
Lemma genuine_states (ops : list operator) st l : genuine_opt st ->
  match st with
  | None => Ok (repeat None (List.length ops))
  | Some s => let* l := iter s in Ok (map Some l)
  end = Ok l -> Forall genuine_opt l.
Proof.
  destruct st as [s|]; intros G H; binv H.
  - apply Forall_map. eapply Forall_impl; [|eapply genuine_iter; eauto]. auto.
  - apply Forall_forall. intros x Hx. apply repeat_spec in Hx. subst. exact I.
Qed.
Lemma genuine_compose ops : Forall genuine_op ops -> genuine_op (Compose ops).
Proof.
  intros Ho x st o s' s0 Gx Gs H. cbn [forward_step Compose] in H. unfold compose_step in H. binv H.
  apply genuine_states in E; auto.
  apply genuine_compose_loop in E0 as (G1 & G2 & G3); auto.
  - match goal with H : match ?o with _ => _ end = Ok _ |- _ => destruct o; binv H end.
    split; [|split]; auto; now apply genuine_tup.
  - apply combine_ops; auto. apply Forall_rev. assumption.
  - exact I.
Qed.
Lemma genuine_join_loop l : forall outs nexts inits,
  Forall (fun p => genuine_op (fst p) /\ genuine (fst (snd p)) /\ genuine_opt (snd (snd p))) l ->
  join_loop l = Ok (outs, nexts, inits) ->
  Forall genuine outs /\ Forall genuine nexts /\ Forall genuine inits.
Proof.
  induction l as [|[op [x st]] l IH]; intros outs nexts inits Hl H; cbn [join_loop] in H; binv H.
  - auto.
  - inversion Hl as [|? ? (Hop & Hx & Hst) Hl']; subst. cbn [fst snd] in *.
    destruct (genuine_call _ _ _ _ _ _ Hop Hx Hst E) as (G1 & G2 & G3).
    destruct (IH _ _ _ Hl' E0) as (G4 & G5 & G6). auto.
Qed.
Lemma genuine_join ops : Forall genuine_op ops -> genuine_op (Join ops).
Proof.
  intros Ho x st o s' s0 Gx Gs H. cbn [forward_step Join] in H. unfold join_step in H. binv H.
  apply genuine_states in E; auto. pose proof (genuine_iter _ _ Gx E0) as Gi.
  match goal with H : join_loop _ = Ok _ |- _ => apply genuine_join_loop in H as (G1 & G2 & G3) end.
  - split; [|split]; now apply genuine_tup.
  - clear -Ho E Gi. revert v0 v Gi E. induction Ho as [|op ops Hop _ IH]; intros [|i is] [|s ss] Gi E; simpl; try constructor.
    + inversion Gi; inversion E; subst. auto.
    + inversion Gi; inversion E; subst. auto.
Qed.

(** ** FFill *)
Lemma genuine_ffill op : genuine_op op -> genuine_op (FFill op).
Proof.
  intros Ho x st o s' s0 Gx Gs H. cbn [forward_step FFill] in H. unfold ffill_step in H. binv H.
  match goal with H : match st with _ => _ end = Ok (?a, ?b) |- _ =>
    assert (Gab : genuine_opt a /\ genuine_opt b) by
     (destruct st; binv H; [|split; exact I]; simpl in Gs; split; eapply genuine_item; eauto) end.
  destruct Gab as [Ga Gb]. fwd.
  match goal with H : match ?po with _ => _ end = Ok ?r |- _ =>
    assert (genuine r) by (destruct po; [binv H; exact Ga|];
      eapply genuine_map1; [| |exact H]; [|assumption];
      intros [|[t|?|?|?|?] [|? ?]] y Hy; try discriminate; binv Hy;
      exists t; split; [reflexivity|]; split; [intros; ga|exact I]) end.
  fwd.
  match goal with H : (if _ then _ else _) = Ok ?r |- _ =>
    assert (genuine r) by (destruct (is_unit_tuple _); [binv H; apply genuine_nil|];
       eapply genuine_tf_cond; [| |exact H]; intros w Hw; binv Hw; ga) end.
  split; [|split]; ga.
Qed.

(** ** Map *)
Definition ta_wf (a : tarray) : Prop :=
  Forall (fun c => match c with Some t => wf t | None => True end) (ta_cells a).
Definition tas_ok (v : tavals) : Prop := pyok v /\ Forall ta_wf (leaves v).
Lemma ta_new_all_ok v n tas : pyok v -> ta_new_all v n = Ok tas -> tas_ok tas.
Proof.
  intros Hv H. split.
  - eapply map_fn_pyok; [|exact Hv|exact H]. intros [|[t|?|?|?|?] [|? ?]] y Hy; try discriminate. binv Hy. exact I.
  - eapply (map_fn_leaves (fun _ => True) ta_wf); [| |exact H].
    + intros [|[t|?|?|?|?] [|? ?]] y _ Hy; try discriminate. binv Hy. simpl. constructor; auto.
      unfold ta_wf. simpl. apply Forall_forall. intros c Hc. apply repeat_spec in Hc. now subst.
    + constructor; auto. apply Forall_forall. auto.
Qed.
Lemma Forall_set_nth {A} (P : A -> Prop) n x l : P x -> Forall P l -> Forall P (set_nth n x l).
Proof. intros Hx H. revert n. induction H; intros [|n]; simpl; auto. Qed.
Lemma ta_write_all_ok i o tas r : genuine o -> tas_ok tas -> ta_write_all i o tas = Ok r -> tas_ok r.
Proof.
  intros [Po Wo] [Pt Wt] H. unfold ta_write_all in H. apply bind_ok in H as (r' & H & E).
  destruct (pv_eqb _ _ _); [|discriminate]. apply ok_inj in E. subst. split.
  - eapply map_fn_pyok; [| |exact H].
    + intros l y Hy. destruct l as [|[[?|?]|?|?|?|?] [|[[?|?]|?|?|?|?] [|? ?]]]; try discriminate Hy. binv Hy. exact I.
    + now apply pyok_vmap.
  - eapply (map_fn_leaves (fun m : mixed => match m with inl t => wf t | inr a => ta_wf a end) ta_wf); [| |exact H].
    + intros l y Hl Hy. destruct l as [|[[x|?]|?|?|?|?] [|[[?|a]|?|?|?|?] [|? ?]]]; try discriminate Hy. binv Hy. simpl.
      constructor; auto. unfold ta_write in E. destruct (dtype_eqb _ _); [|discriminate].
      destruct (nth_error _ _) as [[|]|]; try discriminate. apply ok_inj in E. subst.
      inversion Hl as [|? ? H1 Hl']; subst. inversion Hl' as [|? ? H2 _]; subst. simpl in H1, H2.
      inversion H1; inversion H2; subst. apply Forall_set_nth; auto.
    + constructor; [|constructor; [|constructor]]; rewrite leaves_vmap, Forall_map; assumption.
Qed.
Lemma ta_stack_all_ok tas v : tas_ok tas -> ta_stack_all tas = Ok v -> genuine v.
Proof.
  intros [Pt Wt] H. split.
  - eapply map_fn_pyok; [|exact Pt|exact H]. intros [|[t|?|?|?|?] [|? ?]] y Hy; try discriminate. binv Hy. exact I.
  - eapply (map_fn_leaves ta_wf wf); [| |exact H].
    + intros [|[t|?|?|?|?] [|? ?]] y Hl Hy; try discriminate. binv Hy. simpl. constructor; auto.
      inversion Hl as [|? ? H1 _]; subst. simpl in H1. inversion H1 as [|? ? H2 _]; subst.
      unfold ta_stack in E. binv E. eapply wf_tstack; [|exact E]. apply mapM_ok_iff in E0.
      unfold ta_wf in H2. clear -H2 E0. induction E0 as [|c u cs us Hc _ IH]; constructor.
      * destruct c; [|discriminate]. apply ok_inj in Hc. subst. now inversion H2.
      * apply IH. now inversion H2.
    + constructor; auto.
Qed.
Lemma genuine_map op n : genuine_op op -> genuine_op (Map op n).
Proof.
  intros Ho x st o s' s0 Gx Gs H. cbn [forward_step Map] in H. unfold map_step in H. binv H.
  pose proof (genuine_slice_at _ _ _ Gx E) as Gx0.
  destruct (genuine_call _ _ None _ _ _ Ho Gx0 I E0) as (Gov & _ & Gi).
  match goal with H : match st with _ => _ end = Ok ?r |- _ => assert (Gst : genuine r) end.
  { destruct st; [binv E1; exact Gs|]. binv E1. apply genuine_tup. fa.
    eapply genuine_map1; [|exact Gi|eassumption].
    intros [|[t|?|?|?|?] [|? ?]] y Hy; try discriminate; binv Hy.
    exists t. split; [reflexivity|]. split; [|exact I]. intros. apply genuine_leaf. now apply wf_tile0. }
  fwd. match goal with H : tf_map_fn _ _ _ _ = Ok _ |- _ => rename H into Hm end.
  unfold tf_map_fn in Hm. binv Hm.
  match goal with H : tf_while _ _ _ _ = Ok _ |- _ => rename H into Hw end.
  repeat match goal with H : ta_new_all _ _ = Ok _ |- _ => apply ta_new_all_ok in H; [|now apply genuine_pyok] end.
  assert (W : forall ps ov, genuine ps -> forall fuel c i a b i' a' b', tas_ok a -> tas_ok b ->
     tf_while fuel c (map_body op x ps ov) (i, a, b) = Ok (i', a', b') -> tas_ok a' /\ tas_ok b').
  { clear -Ho Gx. intros ps ov Gps. induction fuel as [|fuel IH]; intros c i a b i' a' b' Ha Hb E; cbn [tf_while] in E;
      destruct (c (i, a, b)); try discriminate.
    - binv E. auto.
    - apply bind_ok in E as ([[i1 a1] b1] & E1 & E2). cbn [map_body] in E1. binv E1.
      match goal with
      | H1 : slice_at _ x = Ok _, H2 : slice_at _ ps = Ok _, H : call _ _ _ _ = Ok _ |- _ =>
        destruct (genuine_call _ _ (Some _) _ _ _ Ho (genuine_slice_at _ _ _ Gx H1) (genuine_slice_at _ _ _ Gps H2) H)
          as (G1 & G2 & _) end.
      eapply IH; [| |exact E2]; [eapply ta_write_all_ok; [exact G1|exact Ha|eassumption]
        |eapply ta_write_all_ok; [exact G2|exact Hb|eassumption]].
    - binv E. auto. }
  apply W in Hw as [W1 W2]; auto.
  repeat match goal with H : ta_stack_all _ = Ok _ |- _ => apply ta_stack_all_ok in H; [|assumption] end.
  split; [|split]; ga.
Qed.

Lemma basic_genuine op : basic op -> genuine_op op.
Proof.
  assert (B : forall f, (forall t u r, wf t -> wf u -> f t u = Ok r -> wf r) -> genuine_op (make_streamable (bin_fn f)))
    by (intros; now apply genuine_make, user_bin).
  assert (S : forall v p, wf v -> genuine_op (SetDuring v p)) by exact genuine_set_during.
  assert (Mo : forall p, genuine_op (Momentum p)).
  { intros. apply genuine_compose. fa; try (apply S, wf_fsc); try (apply B; apply wf_tsub); try apply genuine_fork.
    apply genuine_join. fa; [apply genuine_identity|apply genuine_lag]. }
  assert (Cr : forall s f, genuine_op (SimpleMovingAverageCrossover s f)).
  { intros. apply genuine_compose. fa; try (apply B; apply wf_tsub); try apply genuine_fork.
    apply genuine_join. fa; [|apply genuine_sma]. apply genuine_compose. fa; [apply S, wf_fsc|apply genuine_sma]. }
  intros [];
    eauto using genuine_lag, genuine_sma, genuine_ema, genuine_rma, genuine_msd, genuine_bollinger, genuine_ret,
    genuine_log_ret, genuine_macd, genuine_zero, genuine_rsi, genuine_atr, genuine_supertrend, genuine_heikin,
    genuine_drawdown, genuine_sharpe, genuine_skewness, genuine_risk, genuine_correlation, genuine_cross, genuine_auto,
    genuine_fork, genuine_identity, genuine_select_list, genuine_select_one, genuine_positive, genuine_negative,
    genuine_set_during, genuine_make, genuine_automaton, genuine_local.
  - apply B. apply wf_tsub.
  - apply B. apply wf_tadd.
  - apply B. apply wf_tmul.
  - apply genuine_global. apply wf_tless.
  - apply genuine_global. apply wf_tgreater.
  - apply genuine_compose. fa; [apply S, wf_isc|apply genuine_zero|apply genuine_select_one|apply genuine_macd].
  - apply genuine_compose. fa; [apply S, wf_isc|apply genuine_zero|apply Cr].
  - apply genuine_compose. fa; [apply S, wf_fsc|apply genuine_msd|apply genuine_log_ret].
Qed.
Theorem library_genuine op : library op -> genuine_op op.
Proof.
  revert op. apply library_ind'; auto using basic_genuine, genuine_compose, genuine_join, genuine_map, genuine_ffill.
Qed.
End GenuineLib.
