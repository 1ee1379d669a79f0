(** * ShapeInit: the initial state of an operator only depends on the shapes and dtypes of its inputs. *)
From Coq Require Import String List ZArith Bool Lia.
From Verif Require Import Num Py PyFacts Tensor Streamable Spec SpecMeta StreamFacts TensorFacts StreamProofs
  WfFacts Meta Common Finance Library GenuineBase Genuine GenuineLib InitFacts InitLib MapFacts Shapes ShapeFacts ShapeOps ShapeProofs.
Import ListNotations.

Section ShapeInit.
Context {N : FOps}.

Definition init_det (op : operator) (zx : ztype) : Prop :=
  forall x y o s i o' s' i', vhas x zx -> vhas y zx -> forward_step op x None = Ok (o, s, i) -> forward_step op y None = Ok (o', s', i') -> i = i'.
Definition step_det (step : list val -> res out3) (zs : list ztype) : Prop :=
  forall xs ys o s i o' s' i', Forall2 vhas xs zs -> Forall2 vhas ys zs -> step xs = Ok (o, s, i) -> step ys = Ok (o', s', i') -> i = i'.

Lemma parts_vhas x zx : vhas x zx -> (forall k, zx <> Dct k) -> (forall l, zx <> Gen l) -> Forall2 vhas (positional x) (parts zx).
Proof.
  intros H D G. destruct zx as [[s d]|l|l|l|l]; try (exfalso; eapply D; reflexivity); try (exfalso; eapply G; reflexivity).
  - destruct (vhas_leaf_inv _ _ _ H) as (t & -> & _). apply Forall2_cons; [exact H|apply Forall2_nil].
  - destruct (vhas_tup_inv _ _ H) as (vs & -> & K). exact K.
  - destruct (vhas_lst_inv _ _ H) as (vs & -> & K). exact K.
Qed.
Lemma det_call op zx x y o s i o' s' i' : init_det op zx -> vhas x zx -> vhas y zx ->
  call op x None false = Ok (o, s, i) -> call op y None false = Ok (o', s', i') -> i = i'.
Proof. intros H Hx Hy E E'. rewrite call_false_g in E; [|apply Hx|exact I]. rewrite call_false_g in E'; [|apply Hy|exact I]. exact (H x y _ _ _ _ _ _ Hx Hy E E'). Qed.
Lemma zb_det p t u r r' s d : has t s d -> has u s d -> zeros_buffer p t = Ok r -> zeros_buffer p u = Ok r' -> r = r'.
Proof. intros (_ & A & B) (_ & A' & B'). unfold zeros_buffer. rewrite A, B, A', B'. congruence. Qed.
Lemma zl_det t u s d : has t s d -> has u s d -> zeros_like t = zeros_like u.
Proof. intros (_ & A & B) (_ & A' & B'). unfold zeros_like. now rewrite A, B, A', B'. Qed.

Ltac inv_all := repeat match goal with
  | H : Forall2 vhas _ (_ :: _) |- _ => inversion H; clear H; subst
  | H : Forall2 vhas _ [] |- _ => inversion H; clear H; subst
  end.
Ltac leafy := repeat match goal with
  | H : vhas ?v _ |- _ => is_var v; let t := fresh "t" in let Ht := fresh "Ht" in
      destruct (vhas_leaf_inv v _ _ H) as (t & -> & Ht); clear H
  end.
Ltac dets := match goal with
  | |- Tup _ = Tup _ => f_equal
  | |- Leaf _ = Leaf _ => f_equal
  | |- _ :: _ = _ :: _ => f_equal
  | |- ?a = ?a => reflexivity
  | H : zeros_buffer ?p ?t = Ok ?r, H' : zeros_buffer ?p ?u = Ok ?r' |- ?r = ?r' => eapply zb_det; [| |exact H|exact H']; eassumption
  | |- zeros_like _ = zeros_like _ => eapply zl_det; eassumption
  end.
Ltac two f := let H := fresh in let K := fresh in let E := fresh in let E' := fresh in
  intros xs ys ? ? ? ? ? ? H K E E'; inv_all; leafy; unfold f in E, E'; tailed; binv E; binv E'; tailed; repeat dets.

Lemma d_lag p s d : step_det (lag_step p) [Leaf (s, d)].
Proof. two @lag_step. Qed.
Lemma d_sma p s : step_det (sma_step p) [tf s].
Proof. two @sma_step. Qed.
Lemma d_msd p s : step_det (msd_step p) [tf s].
Proof. two @msd_step. Qed.
Lemma d_return f p : step_det (return_step f p) [num].
Proof. two @return_step. Qed.
Lemma d_zero s : step_det zero_crossover_step [tf s].
Proof. two @zero_crossover_step. Qed.
Lemma d_global c d : step_det (global_step c) [Leaf ([], d)].
Proof. two @global_step. Qed.
Lemma d_local r ri p : step_det (local_step r ri p) [num].
Proof. two @local_step. Qed.
Lemma d_heikin : step_det heikin_ashi_step [num; num; num; num].
Proof. two @heikin_ashi_step. Qed.
Lemma d_drawdown : step_det drawdown_step [num].
Proof. two @drawdown_step. Qed.
Lemma d_sharpe p : step_det (sharpe_step p) [num; num].
Proof. two @sharpe_step. Qed.
Lemma d_skewness p : step_det (skewness_step p) [num].
Proof. two @skewness_step. Qed.
Lemma d_correlation p s : step_det (correlation_step p) [tf s; tf s].
Proof. two @correlation_step. Qed.

Lemma plain_det step zs zx : step_det step zs -> parts zx = zs -> Forall (fun z => exists s d, z = Leaf (s, d)) zs -> init_det (Plain step) zx.
Proof.
  intros H <- F x y o s i o' s' i' Hx Hy E E'.
  assert (D : (forall k, zx <> Dct k) /\ (forall l, zx <> Gen l)).
  { split; intros k ->; cbn in F; apply Forall_inv in F as (? & ? & F); discriminate. }
  cbn [forward_step] in E, E'. rewrite !app_nil_r in *. eapply H; [| |exact E|exact E']; apply parts_vhas; tauto.
Qed.
Ltac lf := repeat apply Forall_cons; try apply Forall_nil; do 2 eexists; reflexivity.
Ltac pd lem := eapply plain_det; [apply lem|reflexivity|lf].
Lemma lag_det p s d : init_det (Lag p) (Leaf (s, d)). Proof. pd d_lag. Qed.
Lemma sma_det p s : init_det (SimpleMovingAverage p) (tf s). Proof. pd d_sma. Qed.
Lemma msd_det p s : init_det (MovingStandardDeviation p) (tf s). Proof. pd d_msd. Qed.
Lemma correlation_det p s : init_det (Correlation p) (Tup [tf s; tf s]). Proof. pd d_correlation. Qed.
Ltac vl := first [ apply vhas_leaf; eassumption | apply vhas_tup; repeat (apply Forall2_cons; [vl|]); apply Forall2_nil ].
Ltac sub lem := match goal with
  | H : call ?op _ None false = Ok (_, _, ?i), H' : call ?op _ None false = Ok (_, _, ?i') |- context [?i] =>
      lazymatch i' with i => fail | _ => idtac end;
      replace i' with i in * by (eapply det_call; [apply lem| | |exact H|exact H']; vl) end.
Lemma d_ema p s : step_det (ema_step p) [tf s].
Proof. two @ema_step. sub sma_det. reflexivity. Qed.
Lemma d_rma p s : step_det (rma_step p) [tf s].
Proof. two @rma_step. sub sma_det. reflexivity. Qed.
Lemma d_bollinger p k s : step_det (bollinger_step p k) [tf s].
Proof. two @bollinger_step; [sub msd_det|sub sma_det]; reflexivity. Qed.
Lemma d_rsi p : step_det (rsi_step p) [num].
Proof. two @rsi_step; [sub lag_det]; reflexivity. Qed.
Lemma d_risk a b p m d : step_det (risk_ratio_step a b p m) [num; num; num; Leaf ([], d)].
Proof. two @risk_ratio_step; [sub msd_det]; reflexivity. Qed.
Lemma ema_det p s : init_det (ExponentialMovingAverage p) (tf s). Proof. pd d_ema. Qed.
Lemma rma_det p s : init_det (RollingMovingAverage p) (tf s). Proof. pd d_rma. Qed.
Lemma wp_got {A} (e : res A) (Q : A -> Prop) a : wp e Q -> e = Ok a -> Q a.
Proof. intros (b & E & H) E'. congruence. Qed.
Lemma lagged_has v b r l s : (1 <= l)%Z -> has v s F32 -> zeros_buffer l v = Ok b -> index0 b (l - 1) = Ok r -> has r s F32.
Proof.
  intros Hl Hv E. assert (Hb : has b (Z.to_nat l :: s) F32) by (apply (wp_got _ (fun b => has b (Z.to_nat l :: s) F32) _ (wp_zeros_buffer l v s F32 _ Hv Hl (fun r H => H)) E)).
  intros E'. refine (wp_got _ (fun r => has r s F32) _ (wp_index0 b _ s F32 _ _ Hb _ (fun r H => H)) E'). lia.
Qed.
Lemma d_cross p l s : (1 <= l)%Z -> step_det (cross_correlation_step p l) [tf s; tf s].
Proof.
  intros Hl. two @cross_correlation_step.
  repeat match goal with E : zeros_buffer l ?v = Ok ?b, E' : index0 ?b (l - 1) = Ok ?r |- _ =>
    assert (has r s F32) by (eapply (lagged_has v b r); eauto); clear E' end.
  sub correlation_det. reflexivity.
Qed.
Lemma cross_det p l s : (1 <= l)%Z -> init_det (CrossCorrelation p l) (Tup [tf s; tf s]).
Proof. intros H. eapply plain_det; [now apply d_cross|reflexivity|lf]. Qed.
Lemma d_auto p l s : (1 <= l)%Z -> step_det (auto_correlation_step p l) [tf s].
Proof. intros Hl. pose proof (fun s => cross_det p l s Hl). two @auto_correlation_step. sub H. reflexivity. Qed.
Lemma reduced_has f t r : treduce_all f t = Ok r -> has r [] F32.
Proof. unfold treduce_all. destruct (dat t); try discriminate. intros E. injection E as <-. apply has_fsc. Qed.
Lemma d_atr p s : step_det (atr_step p) [tf s; tf s; tf s].
Proof.
  two @atr_step. repeat match goal with E : treduce_all frmax _ = Ok _ |- _ => apply reduced_has in E end.
  sub rma_det. reflexivity.
Qed.
Lemma ema_has p v o s0 i t s : (1 <= p)%Z -> has v s F32 -> call (ExponentialMovingAverage p) (Leaf v) None false = Ok (o, s0, i) ->
  as_t o = Ok t -> has t s F32.
Proof.
  intros Hp Hv E. assert (Ho : vhas o (tf s)).
  { eapply (wp_got _ (fun r => vhas (fst (fst r)) (tf s))) in E; [exact E|].
    eapply wp_call; [exact (ema_safe p s Hp)|now apply vhas_leaf|exact I|cbn; auto]. }
  destruct (vhas_leaf_inv _ _ _ Ho) as (u & -> & Hu). intros E'. injection E' as <-. exact Hu.
Qed.
Lemma diff_has c a b r s : has c [] BOOL -> has a s F32 -> has b s F32 -> tcond c (Ok (zeros_like a)) (tsub a b) = Ok r -> has r s F32.
Proof.
  intros Hc Ha Hb E. refine (wp_got _ (fun r => has r s F32) _ _ E). apply (wp_tcond c _ _ s F32); [exact Hc| | |auto].
  - apply wp_ok. exact (has_zeros_like _ _ _ Ha).
  - eapply wp_tbin; [exact Ha|exact Hb|constructor|left; reflexivity|auto].
Qed.
Lemma d_macd a b m s : (1 <= a)%Z -> (1 <= b)%Z -> (1 <= m)%Z -> step_det (macd_step a b m) [tf s].
Proof.
  intros Ha Hb Hm.
  intros xs ys ? ? ? ? ? ? H K E E'. inv_all. leafy. unfold macd_step in E, E'. tailed.
  assert (D : forall v o1 s1 i1 t1 o2 s2 i2 t2 r, has v s F32 ->
    call (ExponentialMovingAverage a) (Leaf v) None false = Ok (o1, s1, i1) -> as_t o1 = Ok t1 ->
    call (ExponentialMovingAverage b) (Leaf v) None false = Ok (o2, s2, i2) -> as_t o2 = Ok t2 ->
    tcond (bsc (0 <? a - 1)%Z) (Ok (zeros_like t2)) (tsub t2 t1) = Ok r -> has r s F32).
  { intros. eapply diff_has; [apply has_bsc| | |eassumption]; [eapply (ema_has b)|eapply (ema_has a)]; eauto. }
  binv E. binv E'. tailed.
  repeat match goal with E : pyint_like (isc 0) _ = Ok _ |- _ => apply ok_inj in E; subst end.
  repeat match goal with E : tless (isc 0) (isc _) = Ok _ |- _ => apply ok_inj in E; subst end.
  repeat dets.
  - sub ema_det. reflexivity.
  - sub ema_det. reflexivity.
  - match goal with H : call (ExponentialMovingAverage m) (Leaf ?r) None false = Ok (_, _, ?i), H' : call (ExponentialMovingAverage m) (Leaf ?r') None false = Ok (_, _, ?i') |- ?i = ?i' =>
      assert (has r s F32) by (eapply D; revgoals; eassumption);
      assert (has r' s F32) by (eapply D; revgoals; eassumption);
      eapply (det_call _ (tf s)); [apply ema_det| | |exact H|exact H']; now apply vhas_leaf end.
Qed.

Definition all_det (ops : list operator) (zxs : list ztype) : Prop :=
  forall xs ys o s i o' s' i', Forall2 vhas xs zxs -> Forall2 vhas ys zxs ->
    join_loop (combine ops (combine xs (repeat None (length ops)))) = Ok (o, s, i) ->
    join_loop (combine ops (combine ys (repeat None (length ops)))) = Ok (o', s', i') -> i = i'.
Definition chain_det (ops : list operator) (zx : ztype) : Prop :=
  forall x y p q o s i o' s' i', vhas x zx -> vhas y zx ->
    compose_loop (combine ops (repeat None (length ops))) x p = Ok (o, s, i) ->
    compose_loop (combine ops (repeat None (length ops))) y q = Ok (o', s', i') -> i = i'.
Lemma out_vhas op zx zo zs x o s i : safe op zx zo zs -> vhas x zx -> call op x None false = Ok (o, s, i) -> vhas o zo.
Proof.
  intros H Hx E. eapply (wp_got _ (fun r => vhas (fst (fst r)) zo)) in E; [exact E|]. eapply wp_call; [exact H|exact Hx|exact I|cbn; auto].
Qed.
Lemma zeros_det (v w : val) : sig v = sig w -> vmap zeros_like v = vmap zeros_like w.
Proof.
  intros E. assert (K : forall u : val, vmap zeros_like u = vmap (fun p => zeros (fst p) (snd p)) (sig u)).
  { intros u. unfold sig. rewrite vmap_vmap. now apply vmap_ext. }
  now rewrite !K, E.
Qed.
Theorem well_shaped_det : (forall op zx zo zs, well_shaped op zx zo zs -> init_det op zx) /\
  (forall ops zxs zos zss, shaped_all ops zxs zos zss -> all_det ops zxs) /\
  (forall ops zx zo zss, shaped_chain ops zx zo zss -> chain_det ops zx).
Proof.
  destruct well_shaped_safe as (WS & _).
  apply well_shaped_mutual; intros.
  - destruct H; (eapply plain_det; [|eassumption|lf]).
    + apply d_lag.
    + apply d_sma.
    + apply d_ema.
    + apply d_rma.
    + apply d_msd.
    + apply d_bollinger.
    + apply d_return.
    + apply d_return.
    + now apply d_macd.
    + apply d_zero.
    + apply d_rsi.
    + apply d_atr.
    + apply d_heikin.
    + apply d_drawdown.
    + apply d_sharpe.
    + apply d_skewness.
    + apply d_global.
    + apply d_global.
    + apply d_local.
    + apply d_local.
    + apply d_correlation.
    + now apply d_cross.
    + now apply d_auto.
    + apply d_risk.
  - intros x y ? ? ? ? ? ? _ _ E E'. cbn [forward_step make_streamable] in E, E'. binv E. binv E'. reflexivity.
  - intros x y ? ? ? ? ? ? _ _ E E'. cbn [forward_step SetDuring] in E, E'. unfold set_during_step in E, E'. cbn [item nth_error bind as_t] in *.
    binv E. binv E'. reflexivity.
  - intros x y ? ? ? ? ? ? _ _ E E'. cbn [forward_step Automaton] in E, E'. unfold automaton_step in E, E'. cbn [bind] in *. binv E. binv E'. reflexivity.
  - intros x y ? ? ? ? ? ? Hx Hy E E'. cbn [forward_step Map] in E, E'. unfold map_step in E, E'.
    change 0%Z with (Z.of_nat 0) in *.
    assert (K : forall x, vhas x (wide n zx) -> slice_at (Z.of_nat 0) x = Ok (row 0 x) /\ vhas (row 0 x) zx).
    { intros u Hu. split; [apply (slice_at_ok n); [destruct Hu as [Gu _]; now destruct Gu|now apply (wide_series n u zx)|lia]|apply (row_vhas n); [auto|lia]]. }
    destruct (K x Hx) as [Rx Kx], (K y Hy) as [Ry Ky]. rewrite Rx in E. rewrite Ry in E'. cbn [bind] in *. binv E. binv E'. cbn [item nth_error] in *.
    match goal with A : call op (row 0 x) None false = Ok (_, _, ?i), B : call op (row 0 y) None false = Ok (_, _, ?j) |- _ =>
      assert (i = j) as <- by (eapply det_call; [exact H2| | |exact A|exact B]; assumption) end.
    congruence.
  - intros x y ? ? ? ? ? ? Hx Hy E E'. cbn [forward_step FFill] in E, E'. unfold ffill_step in E, E'. cbn [bind] in *.
    binv E. binv E'.
    match goal with A : call op x None false = Ok (?o, _, ?i), B : call op y None false = Ok (?o', _, ?j) |- _ =>
      assert (i = j) as <- by (eapply det_call; [exact H3| | |exact A|exact B]; assumption);
      assert (Vo : vhas o zo) by (eapply out_vhas; [apply WS; exact H2| |exact A]; assumption);
      assert (Vo' : vhas o' zo) by (eapply out_vhas; [apply WS; exact H2| |exact B]; assumption) end.
    destruct Vo as [Go Eo], Vo' as [Go' Eo'].
    assert (MF : forall u w : val, genuine u -> map_fn (fun l : list val => match l with [Leaf p] => Ok (Leaf (zeros_like p)) | _ => Err EType end) u [u] = Ok w -> w = vmap zeros_like u).
    { intros u w Gu A. symmetry. apply ok_inj. exact (eq_trans (eq_sym (map_fn1_pure zeros_like u (genuine_pyok _ Gu))) A). }
    repeat match goal with A : map_fn _ ?u [?u] = Ok _ |- _ => apply MF in A; [subst|assumption] end.
    do 2 f_equal. apply zeros_det. congruence.
  - intros x y ? ? ? ? ? ? Hx Hy E E'. cbn [forward_step Join] in E, E'. unfold join_step in E, E'. cbn [bind] in *.
    assert (K : forall x, vhas x zx -> exists ins, iter x = Ok ins /\ Forall2 vhas ins zxs).
    { intros u Hu. destruct H as [->| ->]; [apply vhas_tup_inv in Hu|apply vhas_lst_inv in Hu]; destruct Hu as (vs & -> & Hv); exists vs; (split; [reflexivity|exact Hv]). }
    destruct (K x Hx) as (xs & Ex & Hxs), (K y Hy) as (ys & Ey & Hys). rewrite Ex in E. rewrite Ey in E'. cbn [bind] in *.
    apply bind_ok in E as ([[? ?] ?] & E & Q). apply ok_inj in Q. injection Q as <- <- <-.
    apply bind_ok in E' as ([[? ?] ?] & E' & Q). apply ok_inj in Q. injection Q as <- <- <-. f_equal. eapply H1; [| |exact E|exact E']; eauto.
  - intros x y ? ? ? ? ? ? Hx Hy E E'. cbn [forward_step Compose] in E, E'. unfold compose_step in E, E'. cbn [bind] in *.
    apply bind_ok in E as ([[[?|] ?] ?] & E & Q); [|discriminate]. apply ok_inj in Q. injection Q as <- <- <-.
    apply bind_ok in E' as ([[[?|] ?] ?] & E' & Q); [|discriminate]. apply ok_inj in Q. injection Q as <- <- <-. f_equal. eapply H0; [| |exact E|exact E']; eauto.
  - intros xs ys ? ? ? ? ? ? _ _ E E'. cbn in E, E'. congruence.
  - intros xs ys ? ? ? ? ? ? Hx Hy E E'. inversion Hx; subst. inversion Hy; subst. cbn [length repeat combine join_loop] in E, E'.
    apply bind_ok in E as ([[? ?] ?] & E1 & E). apply bind_ok in E as ([[? ?] ?] & E2 & E). injection E as <- <- <-.
    apply bind_ok in E' as ([[? ?] ?] & E1' & E'). apply bind_ok in E' as ([[? ?] ?] & E2' & E'). injection E' as <- <- <-.
    f_equal; [eapply det_call; [exact H0| | |exact E1|exact E1']; assumption|eapply H2; [| |exact E2|exact E2']; assumption].
  - intros x y ? ? ? ? ? ? ? ? Hx Hy E E'. cbn [length repeat combine compose_loop] in E, E'.
    apply bind_ok in E as ([[? ?] ?] & E1 & E). injection E as <- <- <-.
    apply bind_ok in E' as ([[? ?] ?] & E1' & E'). injection E' as <- <- <-.
    f_equal. eapply det_call; [exact H0| | |exact E1|exact E1']; assumption.
  - intros x y ? ? ? ? ? ? ? ? Hx Hy E E'. cbn [length repeat combine compose_loop] in E, E'.
    apply bind_ok in E as ([[? ?] ?] & E1 & E). apply bind_ok in E as ([[? ?] ?] & E2 & E). injection E as <- <- <-.
    apply bind_ok in E' as ([[? ?] ?] & E1' & E'). apply bind_ok in E' as ([[? ?] ?] & E2' & E'). injection E' as <- <- <-.
    f_equal; [eapply det_call; [exact H0| | |exact E1|exact E1']; assumption|].
    eapply H2; [| |exact E2|exact E2']; (eapply out_vhas; [apply WS; exact H| |eassumption]; assumption).
Qed.

(** ** Such an operator can take its inputs *)
Lemma takes_inputs op zs zo zst : takes op zs zo zst -> inputs_of op (length zs).
Proof. intros H. destruct H; constructor. Qed.
Theorem well_shaped_wired : (forall op zx zo zs, well_shaped op zx zo zs -> forall x, vhas x zx -> wired op x) /\
  (forall ops zxs zos zss, shaped_all ops zxs zos zss -> forall l, Forall2 vhas l zxs -> wired_all ops l) /\
  (forall ops zx zo zss, shaped_chain ops zx zo zss -> forall x, vhas x zx -> wired_chain ops x).
Proof.
  destruct well_shaped_safe as (WS & _). destruct well_shaped_lib as (L1 & L2 & L3).
  apply well_shaped_mutual; intros.
  - eapply wired_step; [eapply takes_inputs; eauto|]. rewrite <- H0.
    assert (D : (forall k, zx <> Dct k) /\ (forall l, zx <> Gen l)) by (split; intros k ->; subst zs; cbn in H; inversion H).
    apply parts_vhas in H1; try tauto. clear -H1. induction H1; cbn; auto.
  - now apply wired_stateless.
  - now apply wired_set_during.
  - now apply wired_automaton.
  - apply wired_map. eapply L1; eauto.
  - apply wired_ffill; [eapply L1; eauto|auto].
  - assert (X : exists ins, iter x = Ok ins /\ Forall2 vhas ins zxs).
    { destruct H as [->| ->]; [apply vhas_tup_inv in H2|apply vhas_lst_inv in H2]; destruct H2 as (vs & -> & Hv); exists vs; (split; [reflexivity|exact Hv]). }
    destruct X as (ins & Ei & Hi). eapply wired_join; [eapply L2; eauto|exact Ei|auto].
  - apply wired_compose; [|auto]. rewrite <- (rev_involutive ops). apply Forall_rev. eapply L3; eauto.
  - apply wired_none. now left.
  - inversion H3; subst. apply wired_more; auto.
  - apply wired_cons; [auto|]. intros. constructor.
  - apply wired_cons; [auto|]. intros o s i E. apply H2. eapply out_vhas; [apply WS; exact H| |exact E]; assumption.
Qed.
End ShapeInit.
