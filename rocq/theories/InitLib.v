(** * InitLib: the reported initial state is the one used, for meta-operators and
    the whole library. *)
From Coq Require Import String List ZArith Bool Lia.
From Verif Require Import Num Py PyFacts Tensor Streamable Spec StreamFacts TensorFacts StreamProofs
  WfFacts Meta Common Finance Library GenuineBase Genuine GenuineLib InitFacts.
Import ListNotations.

Section InitLib.
Context {N : FOps}.

(** For operators whose forward_step is given, without [call]. *)
Lemma init_forward op x : genuine_op op -> genuine x ->
  (forall o s' s0, forward_step op x None = Ok (o, s', s0) -> forward_step op x (Some s0) = Ok (o, s', s0)) ->
  init_consistent op x.
Proof.
  intros Hg Gx Hs o s' s0 H. rewrite call_false_g in H by (simpl; auto).
  destruct (Hg _ None _ _ _ Gx I H) as (_ & _ & G0).
  rewrite call_false_g by (simpl; auto). auto.
Qed.
Lemma ic_make fn x : genuine_op (make_streamable fn) -> genuine x -> init_consistent (make_streamable fn) x.
Proof.
  intros G Gx. apply init_forward; auto. intros o s' s0 H. pose proof H as H'. cbn [forward_step make_streamable] in H.
  apply bind_ok in H as (v & E & H). apply ok_inj in H. unpair. subst. exact H'.
Qed.
Lemma ic_set_during v p x : wf v -> genuine x -> init_consistent (SetDuring v p) x.
Proof.
  intros W Gx. apply init_forward; auto using genuine_set_during. intros o s' s0 H. pose proof H as H'.
  cbn [forward_step SetDuring] in H. unfold set_during_step in H. cbn [item nth_error bind as_t] in H. binv H. exact H'.
Qed.
Lemma ic_automaton trs i d x : genuine_op (Automaton trs i d) -> genuine x -> init_consistent (Automaton trs i d) x.
Proof.
  intros G Gx. apply init_forward; auto. intros o s' s0 H. pose proof H as H'.
  cbn [forward_step Automaton] in H. unfold automaton_step in H. cbn [bind] in H. binv H. exact H'.
Qed.
Lemma ic_map op n x : genuine_op op -> genuine x -> init_consistent (Map op n) x.
Proof.
  intros G Gx. apply init_forward; auto using genuine_map. intros o s' s0 H.
  cbn [forward_step Map] in *. unfold map_step in *. binv H. cbn [item nth_error] in *.
  rwall. cbn [item nth_error bind]. rwall. reflexivity.
Qed.
Lemma ic_ffill op x : genuine_op op -> genuine x -> init_consistent op x -> init_consistent (FFill op) x.
Proof.
  intros G Gx I. apply init_forward; auto using genuine_ffill. intros o s' s0 H.
  cbn [forward_step FFill] in *. unfold ffill_step in *. binv H. cbn [item nth_error] in *. 
  match goal with E : call op x None false = _ |- _ => apply I in E end. rwall. reflexivity.
Qed.
Definition join_init (ops : list operator) (l : list val) : Prop :=
  forall outs nexts inits,
  join_loop (combine ops (combine l (repeat None (length ops)))) = Ok (outs, nexts, inits) ->
  join_loop (combine ops (combine l (map Some inits))) = Ok (outs, nexts, inits).
Definition compose_init (ops : list operator) (x : val) : Prop :=
  forall out o nexts inits,
  compose_loop (combine ops (repeat None (length ops))) x out = Ok (o, nexts, inits) ->
  compose_loop (combine ops (map Some inits)) x out = Ok (o, nexts, inits).
Lemma join_init_cons op ops x l : init_consistent op x -> join_init ops l -> join_init (op :: ops) (x :: l).
Proof.
  intros Hi IH outs nexts inits H. cbn [length repeat combine join_loop] in H. binv H.
  cbn [map combine join_loop]. apply Hi in E. rewrite E. cbn [bind].
  apply IH in E0. rewrite E0. reflexivity.
Qed.
Lemma compose_init_cons op ops x : init_consistent op x ->
  (forall o s i, call op x None false = Ok (o, s, i) -> compose_init ops o) -> compose_init (op :: ops) x.
Proof.
  intros Hi IH out o nexts inits H. cbn [length repeat combine compose_loop] in H. binv H.
  cbn [map combine compose_loop]. apply (IH _ _ _ E) in E0. apply Hi in E. rewrite E. cbn [bind].
  rewrite E0. reflexivity.
Qed.
Lemma ic_join ops x l : Forall genuine_op ops -> genuine x -> iter x = Ok l -> join_init ops l -> init_consistent (Join ops) x.
Proof.
  intros G Gx Hl Hi. apply init_forward; auto using genuine_join. intros o s' s0 H.
  cbn [forward_step Join] in *. unfold join_step in *. cbn [bind] in H. rewrite Hl in H. cbn [bind] in H.
  apply bind_ok in H as ([[outs nexts] inits] & E & H). apply ok_inj in H. unpair. subst. cbn [iter bind]. rewrite Hl. cbn [bind].
  apply Hi in E. match goal with |- bind ?e _ = _ => replace e with (Ok (outs, nexts, inits)) by (symmetry; exact E) end. reflexivity.
Qed.
Lemma ic_compose ops x : Forall genuine_op ops -> genuine x -> compose_init (rev ops) x -> init_consistent (Compose ops) x.
Proof.
  intros G Gx Hi. apply init_forward; auto using genuine_compose. intros o s' s0 H.
  cbn [forward_step Compose] in *. unfold compose_step in *. cbn [bind] in H.
  apply bind_ok in H as ([[o' nexts] inits] & E & H). destruct o' as [o'|]; [|discriminate].
  apply ok_inj in H. unpair. subst. cbn [iter bind].
  apply Hi in E. match goal with |- bind ?e _ = _ => replace e with (Ok (Some o, nexts, inits)) by (symmetry; exact E) end. reflexivity.
Qed.
Lemma ic_step op k x : inputs_of op k -> genuine x -> length (positional x) = k -> init_consistent op x.
Proof.
  intros H Gx Hx. destruct H; (eapply init_of_step; [| |exact Gx|exact Hx]);
    first [ apply init_lag | apply init_global | apply init_local | apply init_correlation | apply init_cross
          | apply init_auto | apply init_sma | apply init_ema | apply init_rma | apply init_msd | apply init_bollinger
          | apply init_return | apply init_macd | apply init_zero | apply init_rsi | apply init_atr
          | apply init_supertrend | apply init_heikin | apply init_drawdown | apply init_sharpe | apply init_skewness
          | apply init_risk | apply basic_genuine; constructor ].
Qed.
Lemma library_all ops : Forall library ops -> Forall genuine_op ops.
Proof. intros H. eapply Forall_impl; [|exact H]. exact library_genuine. Qed.

Scheme wired_mut := Induction for wired Sort Prop
  with wired_all_mut := Induction for wired_all Sort Prop
  with wired_chain_mut := Induction for wired_chain Sort Prop.

Theorem wired_init op x : wired op x -> genuine x -> init_consistent op x.
Proof.
  intros H. revert op x H.
  apply (wired_mut _ (fun op x _ => genuine x -> init_consistent op x)
           (fun ops l _ => Forall genuine l -> join_init ops l)
           (fun ops x _ => genuine x -> Forall genuine_op ops -> compose_init ops x)).
  - intros op k x Hk Hx Gx. eapply ic_step; eauto.
  - intros fn x L Gx. apply ic_make; auto using library_genuine.
  - intros v p x W Gx. now apply ic_set_during.
  - intros trs i d x L Gx. apply ic_automaton; auto using library_genuine.
  - intros op n x L Gx. apply ic_map; auto using library_genuine.
  - intros op x L _ IH Gx. apply ic_ffill; auto using library_genuine.
  - intros ops x l L Hl _ IH Gx. eapply ic_join; eauto using library_all. apply IH. eapply genuine_iter; eauto.
  - intros ops x L _ IH Gx. apply ic_compose; auto using library_all. apply IH; auto. apply Forall_rev. now apply library_all.
  - intros ops l [-> | ->] _ outs nexts inits H; simpl in *; [exact H|]. destruct ops; simpl in *; binv H; reflexivity.
  - intros op ops x l _ IH1 _ IH2 G. inversion G; subst. apply join_init_cons; auto.
  - intros x _ _ out o nexts inits H. exact H.
  - intros op r x _ IH _ IHr Gx G. inversion G; subst. apply compose_init_cons; auto.
    intros o s i E. eapply IHr; eauto. eapply genuine_call in E; [apply E|assumption|assumption|exact I].
Qed.
Lemma wired_library op x : wired op x -> library op.
Proof.
  intros H. destruct H; try (constructor; assumption); try assumption.
  - apply lib_basic. destruct H; constructor.
  - apply lib_basic. now constructor.
Qed.
(** ... and the same for a series. *)
Theorem wired_init_streamed op v o sf s0 : genuine v -> wired op (row 0 v) ->
  call op v None true = Ok (o, sf, s0) -> call op v (Some s0) true = Ok (o, sf, s0).
Proof.
  intros Gv Hw H. pose proof (library_genuine _ (wired_library _ _ Hw)) as Gop.
  destruct (series_of_call op v None _ (genuine_pyok _ Gv) I H) as (n & Hn).
  destruct (streamed_start op v None n o sf s0 Gv I Gop Hn H)
    as (Hpos & Gs0 & Hstart & o0 & s1 & i0 & os & tas & tasf & Hf & E0 & Go & HC & HS & Gos & L & Gsf & Ht & Hw' & Hstk).
  subst i0. rewrite call_true by (auto using genuine_pyok; intros ? [= <-]; apply Gs0).
  apply (streamed_iff op v (Some s0) n); auto using genuine_pyok. split; auto.
  exists o0, s1, s0, tas, os, tasf. repeat split; auto.
  assert (G0 : genuine (row 0 v)) by (apply (genuine_row n); auto).
  pose proof (wired_init op (row 0 v) Hw G0 o0 s1 s0) as K. rewrite !call_false_g in K by (simpl; auto). auto.
Qed.

(** ** The operators shipped as compositions are wired for a single tensor *)
Ltac lib1 := first
  [ apply lib_basic; first [apply lib_sub|apply lib_fork|apply lib_identity|apply lib_lag|apply lib_sma|apply lib_msd
      |apply lib_log_return|apply lib_macd|apply lib_select_one|apply lib_zero|apply lib_crossover
      |apply lib_set_during; first [apply wf_fsc|apply wf_isc]]
  | apply lib_join; libs | apply lib_compose; libs ]
with libs := first [apply Forall_nil | apply Forall_cons; [lib1|libs]].
Ltac stage := apply wired_cons; [|let E := fresh "E" in intros ? ? ? E; cbv [call convert] in E; cbn [map_fn bind] in E].
Lemma wired_momentum p t : wired (Momentum p) (Leaf t).
Proof.
  apply wired_compose; [libs|]. cbn [rev app].
  stage; [apply wired_stateless, lib_basic, lib_fork|]. cbn in E. apply ok_inj in E. unpair. subst.
  stage; [|stage; [apply wired_stateless, lib_basic, lib_sub|]].
  - eapply wired_join; [libs|reflexivity|].
    apply wired_more; [apply wired_stateless, lib_basic, lib_identity|].
    apply wired_more; [|apply wired_none; auto]. eapply wired_step; [constructor|reflexivity].
  - stage; [apply wired_set_during, wf_fsc|]. apply wired_nil.
Qed.
Lemma wired_crossover s f t : wired (SimpleMovingAverageCrossover s f) (Leaf t).
Proof.
  apply wired_compose; [libs|].
  - cbn [rev app]. stage; [apply wired_stateless, lib_basic, lib_fork|]. cbn in E. apply ok_inj in E. unpair. subst.
    stage; [|stage; [apply wired_stateless, lib_basic, lib_sub|apply wired_nil]].
    eapply wired_join; [libs|reflexivity|].
    apply wired_more; [|apply wired_more; [|apply wired_none; auto]].
    + apply wired_compose; [libs|]. cbn [rev app].
      stage; [eapply wired_step; [constructor|reflexivity]|]. stage; [apply wired_set_during, wf_fsc|]. apply wired_nil.
    + eapply wired_step; [constructor|reflexivity].
Qed.
Lemma crossover_leaf s f t o s' i : call (SimpleMovingAverageCrossover s f) (Leaf t) None false = Ok (o, s', i) ->
  exists u, o = Leaf u.
Proof.
  intros H. unfold SimpleMovingAverageCrossover in H. cbv [call convert] in H. cbn [map_fn bind forward_step Compose] in H.
  unfold compose_step in H. cbn [rev app length repeat combine bind] in H.
  apply bind_ok in H as ([[o' nexts] inits] & E & H). cbn [compose_loop] in E. binv E.
  apply ok_inj in H. unpair. subst.
  match goal with E : call Sub _ _ _ = _ |- _ => cbv [call] in E; binv E end.
  match goal with E : forward_step Sub _ _ = _ |- _ => cbn [forward_step Sub make_streamable] in E; binv E end.
  match goal with E : bin_fn _ _ = _ |- _ => unfold bin_fn in E; binv E end. eauto.
Qed.
Lemma wired_crossover_signal s f t : wired (SimpleMovingAverageCrossoverSignal s f) (Leaf t).
Proof.
  apply wired_compose; [libs|]. cbn [rev app].
  apply wired_cons; [apply wired_crossover|]. intros o s' i E. apply crossover_leaf in E as (u & ->).
  stage; [eapply wired_step; [constructor|reflexivity]|]. stage; [apply wired_set_during, wf_isc|]. apply wired_nil.
Qed.
Lemma wired_macd_signal s f m t : wired (MovingAverageConvergenceDivergenceSignal s f m) (Leaf t).
Proof.
  apply wired_compose; [libs|]. cbn [rev app].
  stage; [eapply wired_step; [constructor|reflexivity]|].
  cbn [forward_step MovingAverageConvergenceDivergence] in E. unfold macd_step in E. binv E.
  apply wired_cons; [apply wired_stateless, lib_basic, lib_select_one|]. intros o s' i' H.
  rewrite call_false in H; [|simpl; tauto|discriminate].
  cbn [forward_step Select make_streamable] in H. binv H.
  match goal with E : py_nth _ _ = Ok _ |- _ => cbn in E; apply ok_inj in E; subst end.
  stage; [eapply wired_step; [constructor|reflexivity]|]. stage; [apply wired_set_during, wf_isc|]. apply wired_nil.
Qed.
Lemma wired_volatility m r t : wired (Volatility m r) (Leaf t).
Proof.
  apply wired_compose; [libs|]. cbn [rev app].
  stage; [eapply wired_step; [constructor|reflexivity]|].
  cbn [forward_step LogarithmicReturn] in E. unfold return_step in E. binv E.
  stage; [eapply wired_step; [constructor|reflexivity]|]. stage; [apply wired_set_during, wf_fsc|]. apply wired_nil.
Qed.
End InitLib.
