(** * StructProofs: consequences of the structure of outputs and states (C48), and the properties of
    streaming, Compose, Map and FFill without hypotheses on structures. *)
From Coq Require Import String List ZArith Bool Lia.
From Verif Require Import Num Py PyFacts Tensor Streamable Spec SpecMeta StreamFacts TensorFacts StreamProofs
  WfFacts EvalFacts Meta Common Finance Library GenuineBase Genuine GenuineLib InitFacts InitLib RunFacts JoinFacts
  ComposeFacts FillFacts MapFacts Structure StructFacts StructLib.
Import ListNotations.

Section StructProofs.
Context {N : FOps}.
Hint Resolve genuine_pyok genuine_opt_pyok : core.

(** ** The stateless operators *)
Lemma bin_typed f zs : fn_typed (bin_fn f) zs one.
Proof.
  intros args r _ _ H. unfold bin_fn in H. repeat (apply bind_ok in H as (? & _ & H)). apply ok_inj in H. now subst.
Qed.
Lemma ty_sub zx : typed Sub zx one (Tup []).
Proof. apply ty_stateless; [apply lib_basic, lib_sub|apply bin_typed]. Qed.
Lemma ty_add zx : typed Add zx one (Tup []).
Proof. apply ty_stateless; [apply lib_basic, lib_add|apply bin_typed]. Qed.
Lemma ty_mul zx : typed Mul zx one (Tup []).
Proof. apply ty_stateless; [apply lib_basic, lib_mul|apply bin_typed]. Qed.
Lemma one_arg (args : list val) z : map sk args = [z] -> exists x, args = [x] /\ sk x = z.
Proof. destruct args as [|x [|y l]]; try discriminate. cbn [map]. intros E. injection E as E. eauto. Qed.
Lemma ty_fork n zx z : elems zx = [z] -> typed (Fork n) zx (Tup (repeat z n)) (Tup []).
Proof.
  intros E. apply ty_stateless; [apply lib_basic, lib_fork|]. intros args r _ Ez H. rewrite E in Ez.
  apply one_arg in Ez as (x & -> & Ex). apply ok_inj in H. subst r. rewrite sk_tup. f_equal.
  clear E. induction n as [|n IH]; [reflexivity|]. cbn [repeat map]. congruence.
Qed.
Lemma ty_identity zx z : elems zx = [z] -> typed Identity zx z (Tup []).
Proof.
  intros E. apply ty_stateless; [apply lib_basic, lib_identity|]. intros args r _ Ez H. rewrite E in Ez.
  apply one_arg in Ez as (x & -> & Ex). apply ok_inj in H. now subst r.
Qed.
(** Python indexing, negative indices included. *)
Definition index_of (zs : list (pyval unit)) (i : Z) (z : pyval unit) : Prop :=
  let j := if Z.ltb i 0 then (i + Z.of_nat (length zs))%Z else i in
  (0 <= j)%Z /\ nth_error zs (Z.to_nat j) = Some z.
Lemma py_nth_sk args i r z : index_of (map sk args) i z -> py_nth args i = Ok r -> sk r = z.
Proof.
  unfold index_of, py_nth. rewrite map_length. set (j := if Z.ltb i 0 then _ else _). intros [Hj E] H.
  destruct (Z.ltb j 0); [discriminate|]. rewrite nth_error_map in E. unfold val in *.
  destruct (nth_error args (Z.to_nat j)) as [x|]; [|discriminate]. apply ok_inj in H. subst. cbn in E. congruence.
Qed.
Lemma ty_select zx i z : index_of (elems zx) i z -> typed (Select (IdxOne i)) zx z (Tup []).
Proof.
  intros E. apply ty_stateless; [apply lib_basic, lib_select_one|]. intros args r _ Ez H. rewrite <- Ez in E.
  eapply py_nth_sk; eauto.
Qed.
Lemma ty_select_list zx l zs : Forall2 (index_of (elems zx)) l zs -> typed (Select (IdxList l)) zx (Lst zs) (Tup []).
Proof.
  intros E. apply ty_stateless; [apply lib_basic, lib_select_list|]. intros args r _ Ez H. rewrite <- Ez in E. clear Ez.
  apply bind_ok in H as (vs & H & Er). apply ok_inj in Er. subst r. rewrite sk_lst. f_equal.
  revert zs vs E H. induction l as [|i l IH]; intros zs vs E H; inversion E; subst.
  - apply ok_inj in H. now subst.
  - cbn [mapM] in H. apply bind_ok in H as (v & Hv & H). apply bind_ok in H as (vs' & Hvs & H). apply ok_inj in H. subst.
    cbn [map]. f_equal; [eapply py_nth_sk; eauto|eauto].
Qed.
Lemma ty_positive zx : typed Positive zx one (Tup []).
Proof.
  apply ty_stateless; [apply lib_basic, lib_positive|]. intros args r _ _ H. unfold positive_fn in H.
  repeat (apply bind_ok in H as (? & _ & H)). apply ok_inj in H. now subst.
Qed.
Lemma ty_negative zx : typed Negative zx one (Tup []).
Proof.
  apply ty_stateless; [apply lib_basic, lib_negative|]. intros args r _ _ H. unfold negative_fn in H.
  repeat (apply bind_ok in H as (? & _ & H)). apply ok_inj in H. now subst.
Qed.

(** ** The operators shipped as compositions *)
Definition z_momentum := Tup [Tup []; Tup [Tup []; one]; Tup []; Tup [one]].
Lemma ty_momentum p : typed (Momentum p) one one z_momentum.
Proof.
  apply ty_compose. cbn [rev app]. eapply ty_next; [now apply (ty_fork 2 one one)|].
  eapply ty_next.
  - eapply ty_join; [left; reflexivity|]. eapply ty_more; [now apply (ty_identity one one)|].
    eapply ty_more; [eapply ty_step; [apply sg_lag|reflexivity]|apply ty_none].
  - eapply ty_next; [apply ty_sub|]. apply ty_last. apply ty_set_during, wf_fsc.
Qed.
Definition z_crossover := Tup [Tup []; Tup [Tup [z_sma; Tup [one]]; z_sma]; Tup []].
Lemma ty_crossover s f : typed (SimpleMovingAverageCrossover s f) one one z_crossover.
Proof.
  apply ty_compose. cbn [rev app]. eapply ty_next; [now apply (ty_fork 2 one one)|].
  eapply ty_next; [|apply ty_last, ty_sub].
  eapply ty_join; [left; reflexivity|]. eapply ty_more.
  - apply ty_compose. cbn [rev app]. eapply ty_next; [eapply ty_step; [apply sg_sma|reflexivity]|].
    apply ty_last, ty_set_during, wf_fsc.
  - eapply ty_more; [eapply ty_step; [apply sg_sma|reflexivity]|apply ty_none].
Qed.
Lemma ty_crossover_signal s f :
  typed (SimpleMovingAverageCrossoverSignal s f) one one (Tup [z_crossover; many 2; Tup [one]]).
Proof.
  apply ty_compose. cbn [rev app]. eapply ty_next; [apply ty_crossover|].
  eapply ty_next; [eapply ty_step; [apply sg_zero|reflexivity]|]. apply ty_last, ty_set_during, wf_isc.
Qed.
Lemma ty_macd_signal s f m : typed (MovingAverageConvergenceDivergenceSignal s f m) one one
  (Tup [Tup [one; z_ema; z_ema; z_ema]; Tup []; many 2; Tup [one]]).
Proof.
  apply ty_compose. cbn [rev app]. eapply ty_next; [eapply ty_step; [apply sg_macd|reflexivity]|].
  eapply ty_next; [apply (ty_select _ 4 one); split; [discriminate|reflexivity]|].
  eapply ty_next; [eapply ty_step; [apply sg_zero|reflexivity]|]. apply ty_last, ty_set_during, wf_isc.
Qed.
Lemma ty_volatility m r : typed (Volatility m r) one one (Tup [many 2; many 2; Tup [one]]).
Proof.
  apply ty_compose. cbn [rev app]. eapply ty_next; [eapply ty_step; [apply sg_log_return|reflexivity]|].
  eapply ty_next; [eapply ty_step; [apply sg_msd|reflexivity]|]. apply ty_last, ty_set_during, wf_fsc.
Qed.

(** ** Streaming *)
Theorem structured_streaming op v st outs sf s0 zo zs :
  typed op (sk v) zo zs -> genuine v -> genuine_opt st -> state_like st zs ->
  call op v st true = Ok (outs, sf, s0) ->
  exists n os, n > 0 /\ is_series n v /\ starts_from op st (row 0 v) s0 /\
    steps op s0 (rows n v) = Ok (os, sf) /\ length os = n /\ genuine outs /\
    (forall i, i < n -> row i outs = nth i os (Tup [])) /\
    sk outs = zo /\ sk sf = zs /\ sk s0 = zs.
Proof.
  intros T Gv Gs Es H. assert (Gop := typed_genuine _ _ _ _ T).
  destruct (streaming_sound op v st outs sf s0 Gv Gs Gop H) as (n & os & Hn & Hv & S0 & R & L & U).
  destruct (U (typed_uniform op v st n zo zs T Gv Gs Hv Hn Es)) as [Go Ro].
  assert (G0 : genuine (row 0 v)) by (apply (genuine_row n); auto).
  assert (T0 : typed op (sk (row 0 v)) zo zs) by now rewrite sk_row.
  assert (K : genuine s0 /\ sk s0 = zs).
  { destruct st as [s|]; cbn in S0.
    - subst. auto.
    - destruct S0 as (o & s' & S0). destruct (typed_call op zo zs (row 0 v) None o s' s0 T0 G0 I I S0) as (_ & _ & K).
      destruct (genuine_call _ _ None _ _ _ Gop G0 I S0) as (_ & _ & G). auto. }
  destruct K as [G E0].
  destruct (steps_sk op (sk v) zo zs T (rows n v) s0 os sf) as [F1 F2]; auto.
  { intros x Hx. unfold rows in Hx. apply in_map_iff in Hx as (i & <- & Hi).
    apply in_seq in Hi. split; [apply (genuine_row n); auto; lia|apply sk_row]. }
  exists n, os. do 7 (split; [assumption|]). split; [|auto]. transitivity (sk (row 0 outs)); [symmetry; apply sk_row|].
  rewrite Ro by lia. rewrite Forall_forall in F1. apply F1, nth_In. lia.
Qed.
Lemma series_n op v st r n : genuine v -> is_series n v -> call op v st true = Ok r -> genuine_op op -> genuine_opt st -> n > 0.
Proof.
  intros Gv Hv H Gop Gs. destruct r as [[outs sf] s0].
  now destruct (streamed_start op v st n outs sf s0 Gv Gs Gop Hv H) as (Hp & _).
Qed.
(** *** C02, C03 *)
Theorem structured_split op a b v st n m o s2 i1 zo zs :
  typed op (sk v) zo zs -> genuine a -> genuine b -> genuine v -> genuine_opt st -> state_like st zs ->
  is_concat n m a b v -> n > 0 -> m > 0 ->
  call op v st true = Ok (o, s2, i1) ->
  exists o1 s1 o2,
    call op a st true = Ok (o1, s1, i1) /\
    call op b (Some s1) true = Ok (o2, s2, s1) /\
    (forall i, i < n -> row i o = row i o1) /\ (forall i, i < m -> row (n + i) o = row i o2).
Proof.
  intros T Ga Gb Gv Gs Es C Hn Hm H. apply (resume_split op a b v st n m o s2 i1); auto; [eapply typed_genuine; eauto|].
  eapply typed_uniform; eauto; [apply C|lia].
Qed.
Theorem structured_causal op a v st n m o s2 i1 zo zs :
  typed op (sk v) zo zs -> genuine a -> genuine v -> genuine_opt st -> state_like st zs ->
  is_series n a -> is_series m v -> n <= m -> n > 0 -> (forall i, i < n -> row i a = row i v) ->
  call op v st true = Ok (o, s2, i1) ->
  exists o1 s1, call op a st true = Ok (o1, s1, i1) /\ (forall i, i < n -> row i o1 = row i o).
Proof.
  intros T Ga Gv Gs Es Sa Sv L Hn R H. apply (causal op a v st n m o s2 i1); auto; [eapply typed_genuine; eauto|].
  eapply typed_uniform; eauto. lia.
Qed.
(** Two chunks make one series when the outputs of both have elements of the same shapes and dtypes. *)
Theorem structured_join op a b v st n m o1 s1 i1 o2 s2 i2 zo zs :
  typed op (sk v) zo zs -> genuine a -> genuine b -> genuine v -> genuine_opt st -> state_like st zs ->
  is_concat n m a b v -> sig (row 0 o1) = sig (row 0 o2) ->
  call op a st true = Ok (o1, s1, i1) ->
  call op b (Some s1) true = Ok (o2, s2, i2) ->
  exists o, call op v st true = Ok (o, s2, i1) /\ genuine o /\
    (forall i, i < n -> row i o = row i o1) /\ (forall i, i < m -> row (n + i) o = row i o2).
Proof.
  intros T Ga Gb Gv Gs Es C Eq H1 H2. assert (Gop := typed_genuine _ _ _ _ T).
  assert (HR := rows_concat _ _ _ _ _ C).
  assert (C' := C). destruct C' as (Sa & Sb & Sv & R1 & R2).
  assert (Hn := series_n op a st _ n Ga Sa H1 Gop Gs).
  assert (R0 : row 0 a = row 0 v) by (symmetry; apply R1; lia).
  assert (Ta : typed op (sk a) zo zs) by (rewrite <- (sk_row 0 a), R0, sk_row; exact T).
  destruct (structured_streaming op a st o1 s1 i1 zo zs Ta Ga Gs Es H1)
    as (n' & os & _ & Sa' & Hst & St & L & Go & Ro & E1 & E2 & E3).
  assert (En : n' = n) by (eapply series_unique; eauto). rewrite En in *; clear En.
  assert (Gsf : genuine s1).
  { destruct (streamed_start op a st n o1 s1 i1 Ga Gs Gop Sa H1) as (_ & _ & _ & ? & ? & ? & ? & ? & ? & _ & _ & _ & _ & _ & _ & _ & Q & _). exact Q. }
  assert (Hm := series_n op b (Some s1) _ m Gb Sb H2 Gop Gsf).
  assert (Rm : row 0 b = row n v) by (rewrite <- (R2 0) by lia; f_equal; lia).
  assert (Tb : typed op (sk b) zo zs) by (rewrite <- (sk_row 0 b), Rm, sk_row; exact T).
  destruct (structured_streaming op b (Some s1) o2 s2 i2 zo zs Tb Gb Gsf E2 H2)
    as (m' & os' & _ & Sb' & Hst' & St' & L' & Go' & Ro' & E1' & E2' & E3').
  assert (Em' : m' = m) by (eapply series_unique; eauto). rewrite Em' in *; clear Em'. cbn in Hst'. subst i2.
  apply (resume_join op a b v st n m o1 s1 i1 o2 s2 s1); auto.
  assert (G0 : genuine (row 0 a)) by (apply (genuine_row n); auto).
  exists (sig (row 0 o1)). rewrite <- R0. split.
  - intros o s' i Hq. rewrite Ro by lia. destruct os as [|y os]; [cbn in L; lia|]. cbn [nth].
    destruct n as [|n]; [lia|]. unfold rows in St. cbn [seq map steps] in St.
    apply bind_ok in St as ([[y' s''] i'] & Q & St). apply bind_ok in St as ([os1 sf1] & _ & St). apply ok_inj, pair_inj in St as [St _].
    injection St as -> ->. f_equal. destruct st as [s|]; cbn in Hst.
    + subst s. assert (E := eq_trans (eq_sym Hq) Q). apply ok_inj, pair_inj in E as [E _]. now apply pair_inj in E as [-> _].
    + destruct Hst as (o3 & s3 & Hst). assert (E := eq_trans (eq_sym Hq) Hst). apply ok_inj, pair_inj in E as [E ->]. apply pair_inj in E as [-> ->].
      assert (W := typed_wired op (row 0 a) zo zs). rewrite sk_row in W. specialize (W Ta G0).
      apply (wired_init op (row 0 a) W G0) in Hq. assert (E := eq_trans (eq_sym Hq) Q). apply ok_inj, pair_inj in E as [E _]. now apply pair_inj in E as [-> _].
  - intros s0 os2 sf Hst2 St2.
    assert (s0 = i1).
    { destruct st as [s|]; cbn in Hst, Hst2; [congruence|]. destruct Hst as (? & ? & Q1), Hst2 as (? & ? & Q2).
      assert (E := eq_trans (eq_sym Q1) Q2). apply ok_inj, pair_inj in E as [_ E]. congruence. }
    subst s0. rewrite HR, steps_app, St in St2. cbn [bind] in St2. rewrite St' in St2. cbn [bind] in St2.
    apply ok_inj, pair_inj in St2 as [<- <-]. apply Forall_app. split; apply Forall_forall; intros y Hy.
    + apply (In_nth _ _ (Tup [])) in Hy as (k & Hk & <-). rewrite <- Ro by (rewrite <- L; exact Hk). now rewrite !sig_row.
    + apply (In_nth _ _ (Tup [])) in Hy as (k & Hk & <-). rewrite <- Ro' by (rewrite <- L'; exact Hk). rewrite Eq. now rewrite !sig_row.
Qed.
(** *** C04 *)
Theorem structured_init op v o sf s0 zo zs : typed op (sk v) zo zs -> genuine v ->
  call op v None true = Ok (o, sf, s0) -> call op v (Some s0) true = Ok (o, sf, s0).
Proof.
  intros T Gv H. destruct (series_of_call op v None _ (genuine_pyok _ Gv) I H) as (n & Hn).
  assert (Hp := series_n op v None _ n Gv Hn H (typed_genuine _ _ _ _ T) I).
  apply wired_init_streamed; auto. eapply typed_wired; [rewrite sk_row; eauto|]. apply (genuine_row n); auto.
Qed.

(** ** Compose *)
Lemma structured_turn n ops zx zo zss : typed_chain ops zx zo zss -> forall v sts o ss is,
  genuine v -> sk v = zx -> is_series n v -> Forall2 state_like sts zss -> Forall genuine_opt sts ->
  called_in_turn true ops v sts o ss is -> streamed_in_turn n ops v sts o ss is.
Proof.
  induction 1 as [op zx zo zs T|op ops zx zm zo zs zss T Tc IH]; intros v sts o ss is Gv Ev Hv F G H.
  - inversion H as [? ? ? ? ? ? Hc|? ? ? ? ? ? ? ? ? ? ? Hc Hr]; subst; [|inversion Hr]. now constructor.
  - inversion H as [? ? ? ? ? ? Hc|? ? ? mid ? ? ? ? ? ? ? Hc Hr]; [subst; inversion Tc|]. subst op0 ops0 v0 sts o0 ss is zx.
    inversion F as [|? ? ? ? Fs F']; subst. inversion G as [|? ? Gs G']; subst.
    destruct (structured_streaming op v st mid s i zm zs T Gv Gs Fs Hc) as (n' & os & Hn & Hv' & _ & _ & _ & Gm & _ & Em & _).
    assert (En : n' = n) by (eapply series_unique; eauto). rewrite En in *; clear En.
    assert (NL : leaves mid <> []).
    { assert (Q : exists op' st' r, call op' mid st' true = Ok r /\ genuine_opt st').
      { inversion Hr; subst; inversion G'; subst; eauto 6. }
      destruct Q as (op' & st' & r & Q & Gq). destruct (series_of_call op' mid st' r (genuine_pyok _ Gm) Gq Q) as (k & Hk & _). exact Hk. }
    assert (Sm : is_series n mid).
    { split; [exact NL|]. exact (output_lengths op v st mid s i n (genuine_pyok _ Gv) Hv Hc). }
    eapply streamed_next; [exact Hc| |apply IH; auto].
    split; [exact Hv|]. split; [eapply typed_uniform; eauto|]. split; [exact NL|].
    intros -> o1 s' s0 H1. assert (G0 : genuine (row 0 v)) by (apply (genuine_row n); auto).
    apply (wired_init op (row 0 v)); auto. eapply typed_wired; [rewrite sk_row; eauto|auto].
Qed.
Lemma chain_states (zss : list (pyval unit)) sts : (forall ss, sts = Some ss -> map sk ss = zss) ->
  Forall2 state_like (states_for (length zss) sts) zss.
Proof.
  destruct sts as [ss|]; cbn [states_for]; intros H.
  - specialize (H ss eq_refl). subst. induction ss; constructor; auto. reflexivity.
  - clear H. induction zss; constructor; auto. exact I.
Qed.
Lemma typed_chain_length ops zx zo zss : typed_chain ops zx zo zss -> length zss = length ops.
Proof. intros H. apply (proj2 (proj2 typed_good)), good_chain_length in H. now destruct H. Qed.
Theorem structured_compose ops v sts zo zss o ss is :
  typed_chain (rev ops) (sk v) zo zss -> genuine v -> given_states (length ops) sts ->
  (forall l, sts = Some l -> map sk l = zss) ->
  called_in_turn true (rev ops) v (states_for (length ops) sts) o ss is ->
  call (Compose ops) v (tuple_state sts) true = Ok (o, Tup ss, Tup is).
Proof.
  intros T Gv G Es H. assert (L := typed_chain_length _ _ _ _ T). rewrite rev_length in L.
  assert (GO : Forall genuine_opt (states_for (length ops) sts)).
  { destruct sts as [l|]; cbn [states_for].
    - destruct G as [_ G]. now apply Forall_map.
    - apply Forall_forall. intros q Hq. apply repeat_spec in Hq. subst. exact I. }
  assert (Q : exists op' st' r, call op' v st' true = Ok r /\ genuine_opt st').
  { inversion H as [? ? ? ? ? ? Hc Hq Hw Hs|? ? ? ? ? ? ? ? ? ? ? Hc Hr Hq Hw Hs]; subst; rewrite <- Hs in GO; inversion GO; subst; eauto 6. }
  destruct Q as (op' & st' & r & Q & Gq). destruct (series_of_call op' v st' r (genuine_pyok _ Gv) Gq Q) as (n & Hn).
  assert (Gops : Forall genuine_op ops).
  { apply (proj2 (proj2 typed_good)), good_chain_length in T as [_ F]. rewrite <- (rev_involutive ops). apply Forall_rev.
    eapply Forall_impl; [|exact F]. intros a. apply library_genuine. }
  apply (compose_in_turn n); auto. eapply structured_turn; eauto.
  rewrite <- L. now apply chain_states.
Qed.

(** ** Series made of given elements *)
Lemma series_exists x0 xs : genuine x0 -> leaves x0 <> [] -> Forall genuine xs -> Forall (fun x => sig x = sig x0) xs -> xs <> [] ->
  exists w, genuine w /\ is_series (length xs) w /\ rows (length xs) w = xs.
Proof.
  intros G0 NE G E Hx. assert (Hp : length xs > 0) by (destruct xs; [easy|cbn; lia]).
  assert (Ek : Forall (fun x => sk x = sk x0) xs) by (eapply Forall_impl; [|exact E]; intros a; apply sig_sk).
  destruct (arr_exists (length xs) x0 xs) as (w & A); auto.
  destruct (arr_facts (length xs) x0 xs w) as (Gw & Tw & Ew & Rw); auto.
  exists w. split; [exact Gw|]. split; [|exact Rw]. split; [|exact Tw].
  intros L. apply NE. apply length_zero_iff_nil.
  assert (L2 : length (leaves (sk w)) = length (leaves (sk x0))) by now rewrite Ew.
  unfold sk in L2. rewrite !leaves_vmap, !map_length, L in L2. symmetry. exact L2.
Qed.
Lemma leaves_row i v : leaves v <> [] -> leaves (row i v) <> [].
Proof. unfold row. rewrite leaves_vmap. destruct (leaves v); [easy|discriminate]. Qed.
Lemma sig_row2 i j v : sig (row i v) = sig (row j v).
Proof. now rewrite !sig_row. Qed.
Theorem column_exists T m v j : genuine v -> has_columns T m v -> T > 0 -> j < m -> exists w, is_column T j v w.
Proof.
  intros Gv Hc HT Hj.
  assert (G : forall i, i < T -> genuine (row j (row i v))).
  { intros i Hi. apply (genuine_row m); [apply (genuine_row T); [auto|apply Hc|lia]|now apply (row_series T)|lia]. }
  assert (NE : leaves (row j (row 0 v)) <> []) by (do 2 apply leaves_row; destruct Hc as [[? _] _]; assumption).
  destruct (series_exists (row j (row 0 v)) (map (fun i => row j (row i v)) (seq 0 T))) as (w & Gw & Sw & Rw); auto.
  - apply Forall_map, Forall_forall. intros i Hi. apply in_seq in Hi. apply G. lia.
  - apply Forall_map, Forall_forall. intros i Hi. rewrite !(sig_row j). f_equal. apply sig_row2.
  - destruct T; [lia|discriminate].
  - rewrite map_length, seq_length in *. exists w. split; [exact Gw|]. split; [exact Sw|]. intros i Hi.
    assert (E : nth i (rows T w) (Tup []) = nth i (map (fun i => row j (row i v)) (seq 0 T)) (Tup [])) by (f_equal; exact Rw).
    rewrite FillFacts.rows_nth in E by exact Hi. rewrite E.
    rewrite (nth_indep _ _ (row j (row 0 v))) by (now rewrite map_length, seq_length).
    rewrite (map_nth (fun i => row j (row i v))). now rewrite seq_nth.
Qed.
Theorem present_exists n v : genuine v -> is_series n v -> present (rows n v) <> [] ->
  exists m pv, m > 0 /\ genuine pv /\ is_series m pv /\ rows m pv = present (rows n v).
Proof.
  intros Gv Hn Hp. assert (Gx := genuine_rows n v Gv Hn). assert (n > 0) by (destruct n; [now elim Hp|lia]).
  assert (In_rows : forall x, In x (present (rows n v)) -> In x (rows n v)) by (intros x Hx; now apply filter_In in Hx).
  destruct (series_exists (row 0 v) (present (rows n v))) as (w & Gw & Sw & Rw); auto.
  - apply (genuine_row n); auto.
  - apply leaves_row. apply Hn.
  - apply Forall_forall. intros x Hx. rewrite Forall_forall in Gx. auto.
  - apply Forall_forall. intros x Hx. apply In_rows in Hx. apply in_map_iff in Hx as (i & <- & _). apply sig_row2.
  - exists (length (present (rows n v))), w. split; [|auto]. destruct (present (rows n v)); [easy|cbn; lia].
Qed.

(** ** Map *)
Lemma elements_sk T m v : genuine v -> has_columns T m v ->
  forall x, In x (SpecMeta.elements T m v) -> genuine x /\ sk x = sk v.
Proof.
  intros Gv Hc x Hx. apply in_flat_map in Hx as (r & Hr & Hx). unfold rows in *.
  apply in_map_iff in Hr as (i & <- & Hi). apply in_map_iff in Hx as (j & <- & Hj). apply in_seq in Hi, Hj.
  split; [|now rewrite !sk_row]. apply (genuine_row m); [apply (genuine_row T); [auto|apply Hc|lia]|now apply (row_series T)|lia].
Qed.
Theorem structured_map op n T m v s outs sf s0 zo :
  typed op (sk v) zo (sk s) -> genuine v -> genuine s -> has_columns T m v -> m > 0 ->
  call (Map op n) v (Some (Tup [s])) true = Ok (outs, sf, s0) ->
  s0 = Tup [s] /\ exists ns, sf = Tup [ns] /\
    forall j w, j < m -> is_column T j v w -> exists out,
      call op w (Some (row j s)) true = Ok (out, row j ns, row j s) /\
      forall i, i < T -> row i out = row j (row i outs).
Proof.
  intros Ty Gv Gs Hc Hm H. apply (map_columns op n T m v s outs sf s0 zo); auto.
  - eapply typed_genuine; eauto.
  - eapply typed_keeps; [eauto|]. now apply elements_sk.
  - intros i o t i' Hi E. assert (G : genuine (row 0 (row i v))).
    { apply (genuine_row m); [apply (genuine_row T); [auto|apply Hc|lia]|now apply (row_series T)|lia]. }
    eapply (typed_call op zo (sk s) (row 0 (row i v)) None); eauto; try exact I. now rewrite !sk_row.
Qed.
Theorem structured_map_fresh op n T m v outs sf s0 zo zs i0 :
  typed op (sk v) zo zs -> genuine v -> has_columns T m v -> m > 0 ->
  (forall j, j < m -> exists o t, call op (row j (row 0 v)) None false = Ok (o, t, i0)) ->
  call (Map op n) v None true = Ok (outs, sf, s0) ->
  (leaves i0 <> [] -> m = n) /\
  exists s ns, s0 = Tup [s] /\ sf = Tup [ns] /\ forall j w, j < m -> row j s = i0 /\
    (is_column T j v w -> exists out, call op w None true = Ok (out, row j ns, i0) /\
       forall i, i < T -> row i out = row j (row i outs)).
Proof.
  intros Ty Gv Hc Hm Hi H. assert (Gop := typed_genuine _ _ _ _ Ty).
  assert (HT := series_n (Map op n) v None _ T Gv (proj1 Hc) H (genuine_map op n Gop) I).
  assert (G : forall i j, i < T -> j < m -> genuine (row j (row i v))).
  { intros i j Hi' Hj. apply (genuine_row m); [apply (genuine_row T); [auto|apply Hc|lia]|now apply (row_series T)|lia]. }
  apply (map_columns_fresh op n T m v outs sf s0 zo i0); auto.
  - intros j Hj. split; [|auto]. apply wired_init; [|auto]. eapply typed_wired; [rewrite !sk_row; eauto|auto].
  - destruct (Hi 0) as (o & t & E); [lia|].
    destruct (typed_call op zo zs (row 0 (row 0 v)) None o t i0) as (_ & _ & Ez); auto; try exact I; [now rewrite !sk_row|].
    rewrite Ez. eapply typed_keeps; [eauto|]. now apply elements_sk.
  - intros i o t i' Hi' E. eapply (typed_call op zo zs (row 0 (row i v)) None); eauto; try exact I. now rewrite !sk_row.
Qed.

(** ** FFill *)
Lemma rows_sk n v : genuine v -> is_series n v -> forall x, In x (rows n v) -> genuine x /\ sk x = sk v.
Proof.
  intros Gv Hn x Hx. unfold rows in Hx. apply in_map_iff in Hx as (i & <- & Hi). apply in_seq in Hi.
  split; [apply (genuine_row n); auto; lia|apply sk_row].
Qed.
Lemma ffill_state op v st n outs sf po ps zo zs :
  typed op (sk v) zo zs -> genuine v -> genuine_opt st -> is_series n v ->
  state_like st (Tup [zo; zs]) ->
  call (FFill op) v st true = Ok (outs, sf, Tup [po; ps]) ->
  keeps_structure op (sk ps) (sk po) (rows n v) /\ genuine ps.
Proof.
  intros Ty Gv Gs Hn Es H. assert (Gop := typed_genuine _ _ _ _ Ty).
  assert (K : sk ps = zs /\ sk po = zo /\ genuine ps).
  { destruct (streamed_start (FFill op) v st n outs sf _ Gv Gs (genuine_ffill op Gop) Hn H) as (Hp & Gz & Hst & _).
    apply genuine_pair in Gz as [_ Gz]. destruct st as [s|]; cbn in Es.
    - cbn in Hst. subst s. rewrite sk_tup in Es. cbn [map] in Es. injection Es as E1 E2. auto.
    - destruct Hst as (o & s' & Hst).
      assert (G0 : genuine (row 0 v)) by (apply (genuine_row n); auto).
      rewrite call_false_g in Hst by (auto; exact I).
      apply ffill_fwd_none in Hst as (_ & o1 & s1 & i1 & s2 & F & _ & _ & _ & E); auto. injection E as -> ->.
      rewrite sk_zeros.
      destruct (typed_call op zo zs (row 0 v) None o1 s1 i1) as (A & _ & B); auto; try exact I; [now rewrite sk_row|].
      now rewrite call_false_g by (auto; exact I). }
  destruct K as (-> & -> & G). split; [|exact G]. eapply typed_keeps; eauto. now apply rows_sk.
Qed.
Theorem structured_ffill op v st n outs sf po ps zo zs :
  typed op (sk v) zo zs -> genuine v -> genuine_opt st -> is_series n v ->
  state_like st (Tup [zo; zs]) ->
  call (FFill op) v st true = Ok (outs, sf, Tup [po; ps]) ->
  (st = None -> all_zero po /\ starts_from op None (row 0 v) ps) /\
  (forall i, i < n -> missing (row i v) = true -> row i outs = match i with 0 => po | S k => row k outs end) /\
  exists sp, sf = Tup [row (n - 1) outs; sp] /\
    steps op ps (present (rows n v)) =
      Ok (map (fun i => row i outs) (filter (fun i => negb (missing (row i v))) (seq 0 n)), sp).
Proof.
  intros Ty Gv Gs Hn Es H. apply (ffill_streams op v st n outs sf po ps); auto; [eapply typed_genuine; eauto|].
  now destruct (ffill_state op v st n outs sf po ps zo zs Ty Gv Gs Hn Es H).
Qed.
(** Streaming the operator over the present rows. *)
Theorem structured_ffill_present op v st n outs sf po ps zo zs pv m :
  typed op (sk v) zo zs -> genuine v -> genuine_opt st -> is_series n v -> state_like st (Tup [zo; zs]) ->
  call (FFill op) v st true = Ok (outs, sf, Tup [po; ps]) ->
  genuine pv -> is_series m pv -> m > 0 -> rows m pv = present (rows n v) ->
  exists pouts sp, call op pv (Some ps) true = Ok (pouts, sp, ps) /\ sf = Tup [row (n - 1) outs; sp] /\
    rows m pouts = map (fun i => row i outs) (filter (fun i => negb (missing (row i v))) (seq 0 n)).
Proof.
  intros Ty Gv Gs Hn Es H Gp Hm Hp Er. assert (Gop := typed_genuine _ _ _ _ Ty).
  destruct (ffill_state op v st n outs sf po ps zo zs Ty Gv Gs Hn Es H) as [K Gps].
  apply (ffill_present op v st n outs sf po ps pv m (Some ps)); auto; [reflexivity|discriminate].
Qed.
(** Without a state, when the first row is not missing the operator is streamed without a state. *)
Theorem structured_ffill_present_fresh op v n outs sf po ps zo zs pv m :
  typed op (sk v) zo zs -> genuine v -> is_series n v -> missing (row 0 v) = false ->
  call (FFill op) v None true = Ok (outs, sf, Tup [po; ps]) ->
  genuine pv -> is_series m pv -> m > 0 -> rows m pv = present (rows n v) ->
  exists pouts sp, call op pv None true = Ok (pouts, sp, ps) /\ sf = Tup [row (n - 1) outs; sp] /\
    rows m pouts = map (fun i => row i outs) (filter (fun i => negb (missing (row i v))) (seq 0 n)).
Proof.
  intros Ty Gv Hn Hmiss H Gp Hm Hp Er. assert (Gop := typed_genuine _ _ _ _ Ty).
  assert (Hnp := series_n (FFill op) v None _ n Gv Hn H (genuine_ffill op Gop) I).
  destruct (ffill_state op v None n outs sf po ps zo zs Ty Gv I Hn I H) as [K Gps].
  assert (E0 : row 0 pv = row 0 v).
  { destruct m as [|m]; [lia|]. destruct n as [|n]; [lia|]. unfold rows, present in Er. cbn [seq map filter] in Er. rewrite Hmiss in Er.
    cbn [negb] in Er. now injection Er. }
  assert (G0 : genuine (row 0 pv)) by (apply (genuine_row m); auto).
  destruct (ffill_streams op v None n outs sf po ps Gv I Gop Hn K H) as (S0 & _). destruct (S0 eq_refl) as [_ S1].
  apply (ffill_present op v None n outs sf po ps pv m None); auto; try exact I.
  - now rewrite E0.
  - intros _. apply wired_init; [|exact G0]. eapply typed_wired; [|exact G0]. rewrite E0, sk_row. eauto.
Qed.
End StructProofs.
