(** * ComposeFacts: Compose streams each operator over the output of the one before it. *)
From Coq Require Import String List ZArith Bool Lia.
From Verif Require Import Num Py PyFacts Tensor Streamable Spec StreamFacts TensorFacts StreamProofs
  WfFacts Meta Common Finance Library GenuineBase Genuine GenuineLib RunFacts SpecMeta JoinFacts.
Import ListNotations.

Section ComposeFacts.
Context {N : FOps}.
Hint Resolve genuine_pyok genuine_opt_pyok : core.

(** Compose with its operators in order of application. *)
Definition Chain (ops : list operator) : operator := Meta (compose_step ops).
Lemma Compose_Chain ops : Compose ops = Chain (rev ops).
Proof. reflexivity. Qed.
Lemma genuine_chain ops : Forall genuine_op ops -> genuine_op (Chain ops).
Proof.
  intros H. rewrite <- (rev_involutive ops). change (Chain (rev (rev ops))) with (Compose (rev ops)).
  apply genuine_compose. now apply Forall_rev.
Qed.

(** The loop when the output is never unbound. *)
Fixpoint ploop (l : list (operator * option val)) (x : val) : res (val * list val * list val) :=
  match l with
  | [] => Ok (x, [], [])
  | (op, st) :: r =>
      let* (m, s, i) := call op x st false in
      let* (o, ss, is) := ploop r m in Ok (o, s :: ss, i :: is)
  end.
Lemma loop_some l : forall x, compose_loop l x (Some x) = let* (o, ss, is) := ploop l x in Ok (Some o, ss, is).
Proof.
  induction l as [|[op st] l IH]; intros x; cbn [compose_loop ploop]; [reflexivity|].
  destruct (call op x st false) as [[[m s] i]|]; cbn [bind]; [|reflexivity]. rewrite IH.
  now destruct (ploop l m) as [[[o ss] is]|].
Qed.
Lemma loop_none l x : l <> [] -> compose_loop l x None = let* (o, ss, is) := ploop l x in Ok (Some o, ss, is).
Proof. intros H. destruct l as [|[op st] l]; [easy|]. rewrite <- loop_some. reflexivity. Qed.
Lemma states_length k sts : given_states k sts -> length (states_for k sts) = k.
Proof. destruct sts; simpl; intros H; [rewrite map_length; tauto|apply repeat_length]. Qed.
Lemma chain_fwd ops x sts : ops <> [] -> given_states (length ops) sts ->
  forward_step (Chain ops) x (tuple_state sts) =
  let* (o, ss, is) := ploop (combine ops (states_for (length ops) sts)) x in Ok (o, Tup ss, Tup is).
Proof.
  intros NE G. cbn [forward_step Chain]. unfold compose_step.
  assert (E : match tuple_state sts with
     | None => Ok (repeat None (length ops)) | Some s => let* l := iter s in Ok (map Some l) end
     = Ok (states_for (length ops) sts)) by (destruct sts; reflexivity).
  rewrite E. cbn [bind]. rewrite loop_none.
  - now destruct (ploop _ x) as [[[o ss] is]|].
  - assert (L := states_length _ _ G). destruct ops; [easy|]. destruct (states_for _ _); simpl in *; congruence.
Qed.
Lemma ploop_length l : forall x o ss is, ploop l x = Ok (o, ss, is) -> length ss = length l /\ length is = length l.
Proof.
  induction l as [|[op st] l IH]; intros x o ss is H; cbn [ploop] in H.
  - injection H as <- <- <-. auto.
  - apply bind_ok in H as ([[m s] i] & _ & H). apply bind_ok in H as ([[o' ss'] is'] & H1 & H).
    injection H as <- <- <-. apply IH in H1. simpl. lia.
Qed.
Lemma chain_shape ops x sts o s i : ops <> [] -> given_states (length ops) sts ->
  forward_step (Chain ops) x (tuple_state sts) = Ok (o, s, i) ->
  exists ss is, s = Tup ss /\ i = Tup is /\ length ss = length ops /\ length is = length ops.
Proof.
  intros NE G H. rewrite chain_fwd in H by assumption. apply bind_ok in H as ([[o' ss] is] & H & E).
  injection E as <- <- <-. apply ploop_length in H. rewrite combine_length, states_length, Nat.min_id in H by assumption.
  destruct H. exists ss, is. auto.
Qed.
Lemma chain_fwd_cons op ops x sts r :
  ops <> [] -> genuine x -> given_states (S (length ops)) sts ->
  forward_step (Chain (op :: ops)) x (tuple_state sts) = Ok r <->
  exists m s i o ss is, forward_step op x (hd_st sts) = Ok (m, s, i) /\
    forward_step (Chain ops) m (tuple_state (tl_st sts)) = Ok (o, Tup ss, Tup is) /\
    r = (o, Tup (s :: ss), Tup (i :: is)).
Proof.
  intros NE Gx G. destruct (states_cons _ _ G) as (G1 & G2 & _ & ES).
  rewrite chain_fwd by (auto; discriminate). cbn [length]. rewrite ES. cbn [combine ploop].
  rewrite call_false_g by assumption. split.
  - intros H. apply bind_ok in H as ([[o ss] is] & H & E). injection E as <-.
    apply bind_ok in H as ([[m s] i] & H1 & H). apply bind_ok in H as ([[o' ss'] is'] & H2 & H).
    injection H as <- <- <-. exists m, s, i, o', ss', is'. rewrite chain_fwd by assumption. rewrite H2. auto.
  - intros (m & s & i & o & ss & is & H1 & H2 & ->). rewrite H1. cbn [bind].
    rewrite chain_fwd in H2 by assumption. apply bind_ok in H2 as ([[o' ss'] is'] & H2 & E).
    injection E as -> -> ->. rewrite H2. reflexivity.
Qed.
Lemma chain_one op x st r : genuine x -> genuine_opt st ->
  forward_step (Chain [op]) x (option_map (fun s => Tup [s]) st) = Ok r <->
  exists o s i, forward_step op x st = Ok (o, s, i) /\ r = (o, Tup [s], Tup [i]).
Proof.
  intros Gx Gs. replace (option_map (fun s => Tup [s]) st) with (tuple_state (option_map (fun s => [s]) st))
    by now destruct st.
  rewrite chain_fwd; [|discriminate|destruct st; simpl in *; auto].
  replace (states_for (length [op]) (option_map (fun s => [s]) st)) with [st] by now destruct st.
  cbn [combine ploop]. rewrite call_false_g by assumption. split.
  - intros H. apply bind_ok in H as ([[o ss] is] & H & E). injection E as <-.
    apply bind_ok in H as ([[m s] i] & H1 & H). injection H as <- <- <-. eauto 6.
  - intros (o & s & i & H & ->). now rewrite H.
Qed.

(** ** Runs *)
Lemma chain_steps chk op ops : splits chk -> ops <> [] -> genuine_op op -> Forall genuine_op ops ->
  forall xs s ss os sf,
  Forall genuine xs -> genuine s -> Forall genuine ss -> length ss = length ops ->
  stepsG chk (Chain (op :: ops)) (Tup (s :: ss)) xs = Ok (os, sf) <->
  exists ms sf1 sfs, stepsG chk op s xs = Ok (ms, sf1) /\
    stepsG chk (Chain ops) (Tup ss) ms = Ok (os, Tup sfs) /\ sf = Tup (sf1 :: sfs).
Proof.
  intros [Hchk _] NE Gop Gops. assert (GC := genuine_chain ops Gops).
  induction xs as [|x xs IH]; intros s ss os sf Gxs Gs Gss L.
  - cbn [stepsG]. split.
    + intros H. injection H as <- <-. exists [], s, ss. auto.
    + intros (ms & sf1 & sfs & H1 & H2 & ->). injection H1 as <- <-. injection H2 as <- <-. reflexivity.
  - inversion Gxs as [|? ? Gx Gxs']; subst.
    assert (GT : given_states (S (length ops)) (Some (s :: ss))) by (simpl; auto).
    assert (GT2 : given_states (length ops) (Some ss)) by (simpl; auto).
    assert (Gt : genuine (Tup ss)) by now apply genuine_tup.
    rewrite stepsG_cons. split.
    + intros (o & s' & i & os' & H1 & H2 & H3 & ->).
      apply (chain_fwd_cons op ops x (Some (s :: ss))) in H1; auto.
      destruct H1 as (m & s1 & i1 & o1 & ss1 & is & Ho & Hr & E). injection E as -> -> ->.
      cbn [hd_st tl_st tl option_map tuple_state] in Ho, Hr.
      destruct (chain_shape ops m (Some ss) _ _ _ NE GT2 Hr) as (ss1' & is' & E1 & E2 & L1 & L2).
      injection E1 as <-. injection E2 as <-.
      destruct (Gop _ (Some s) _ _ _ Gx Gs Ho) as (Gm & Gs1 & _).
      destruct (GC _ (Some (Tup ss)) _ _ _ Gm Gt Hr) as (_ & Gs2 & _). apply genuine_tup in Gs2.
      apply Hchk in H2; try (apply genuine_tup; constructor; auto). destruct H2 as [C1 C2].
      apply IH in H3; auto. destruct H3 as (ms & sf1 & sfs & A1 & A2 & ->).
      exists (m :: ms), sf1, sfs. rewrite !stepsG_cons.
      split; [eauto 10|]. split; [exists o1, (Tup ss1), (Tup is), os'; auto|]. auto.
    + intros (ms & sf1 & sfs & A1 & A2 & ->).
      apply stepsG_cons in A1 as (m & s1 & i1 & ms' & Ho & C1 & A1 & ->).
      apply stepsG_cons in A2 as (o2 & s2 & i2 & os2 & Hr & C2 & A2 & ->).
      destruct (chain_shape ops m (Some ss) _ _ _ NE GT2 Hr) as (ss2 & is & -> & -> & L1 & L2).
      destruct (Gop _ (Some s) _ _ _ Gx Gs Ho) as (Gm & Gs1 & _).
      destruct (GC _ (Some (Tup ss)) _ _ _ Gm Gt Hr) as (_ & Gs2 & _). apply genuine_tup in Gs2.
      exists o2, (Tup (s1 :: ss2)), (Tup (i1 :: is)), os2.
      split. { apply (chain_fwd_cons op ops x (Some (s :: ss))); auto. exists m, s1, i1, o2, ss2, is. auto. }
      split. { apply Hchk; try (apply genuine_tup; constructor; auto). auto. }
      split; [|reflexivity]. apply IH; auto. exists ms', sf1, sfs. auto.
Qed.
Lemma chain_steps_one chk op : splits chk -> genuine_op op -> forall xs s os sf,
  Forall genuine xs -> genuine s ->
  stepsG chk (Chain [op]) (Tup [s]) xs = Ok (os, sf) <->
  exists sf1, stepsG chk op s xs = Ok (os, sf1) /\ sf = Tup [sf1].
Proof.
  intros [Hchk Hnil] Gop. induction xs as [|x xs IH]; intros s os sf Gxs Gs.
  - cbn [stepsG]. split.
    + intros H. injection H as <- <-. eauto.
    + intros (sf1 & H1 & ->). injection H1 as <- <-. reflexivity.
  - inversion Gxs as [|? ? Gx Gxs']; subst. rewrite stepsG_cons. split.
    + intros (o & s' & i & os' & H1 & H2 & H3 & ->).
      apply (chain_one op x (Some s)) in H1; auto. destruct H1 as (o1 & s1 & i1 & Ho & E). injection E as -> -> ->.
      destruct (Gop _ (Some s) _ _ _ Gx Gs Ho) as (_ & Gs1 & _).
      apply Hchk in H2; try (apply genuine_tup; constructor; auto). destruct H2 as [C1 _].
      apply IH in H3 as (sf1 & A & ->); auto. exists sf1. rewrite stepsG_cons. split; [|reflexivity].
      exists o1, s1, i1, os'. auto.
    + intros (sf1 & A & ->). apply stepsG_cons in A as (o1 & s1 & i1 & os' & Ho & C & A & ->).
      destruct (Gop _ (Some s) _ _ _ Gx Gs Ho) as (_ & Gs1 & _).
      exists o1, (Tup [s1]), (Tup [i1]), os'.
      split; [apply (chain_one op x (Some s)); eauto 6|].
      split; [apply Hchk; try (apply genuine_tup; constructor; auto); auto|].
      split; [|reflexivity]. apply IH; eauto.
Qed.

(** ** Compose of one operator *)
Lemma compose_one_runs op st x0 xs o s i : genuine_op op -> genuine x0 -> Forall genuine xs -> genuine_opt st ->
  runs (Chain [op]) (option_map (fun s => Tup [s]) st) x0 xs o s i <->
  exists s1 i1, runs op st x0 xs o s1 i1 /\ s = Tup [s1] /\ i = Tup [i1].
Proof.
  intros Gop G0 Gx Gs. unfold runs.
  assert (ES : forall i0, start_of (option_map (fun s => Tup [s]) st) (Tup [i0]) = Tup [start_of st i0]) by now destruct st.
  split.
  - intros (o0 & s1 & i0 & os & H1 & -> & H3 & H4). apply chain_one in H1; auto.
    destruct H1 as (o1 & s1' & i1 & Ho & E). injection E as -> -> ->. rewrite ES in *. rewrite stepsC_G in H3.
    destruct (Gop _ _ _ _ _ G0 Gs Ho) as (_ & _ & Gi).
    apply chain_steps_one in H3; auto using splits_state. 2:{ destruct st; auto. }
    destruct H3 as (sf1 & H3 & ->). exists sf1, (start_of st i1). split; [|auto].
    exists o1, s1', i1, os. rewrite stepsC_G. auto.
  - intros (s1 & i1 & (o0 & s1' & i0 & os & H1 & -> & H3 & H4) & -> & ->).
    destruct (Gop _ _ _ _ _ G0 Gs H1) as (_ & _ & Gi).
    exists o0, (Tup [s1']), (Tup [i0]), os. rewrite ES, stepsC_G. rewrite stepsC_G in H3.
    split; [apply chain_one; eauto 6|]. split; [reflexivity|]. split; [|assumption].
    apply chain_steps_one; auto using splits_state; [destruct st; auto|eauto].
Qed.
Theorem compose_one op v st b o s i : genuine v -> genuine_opt st -> genuine_op op ->
  call (Compose [op]) v (option_map (fun s => Tup [s]) st) b = Ok (o, s, i) <->
  exists s1 i1, call op v st b = Ok (o, s1, i1) /\ s = Tup [s1] /\ i = Tup [i1].
Proof.
  intros Gv Gs Gop. rewrite Compose_Chain. cbn [rev app].
  assert (GS : genuine_opt (option_map (fun s => Tup [s]) st)).
  { destruct st; [|exact I]. apply genuine_tup. constructor; auto. }
  destruct b.
  - split.
    + intros H. destruct (series_of_call _ _ _ _ (genuine_pyok _ Gv) GS H) as (n & Hn).
      rewrite (call_iff _ v _ n) in H by auto. destruct H as [Hp H].
      apply compose_one_runs in H; auto; [|now apply (genuine_row n)|now apply genuine_rows].
      destruct H as (s1 & i1 & H & -> & ->). exists s1, i1. split; auto. apply (call_iff _ v _ n); auto.
    + intros (s1 & i1 & H & -> & ->). destruct (series_of_call _ _ _ _ (genuine_pyok _ Gv) Gs H) as (n & Hn).
      rewrite (call_iff _ v _ n) in H by auto. destruct H as [Hp H]. apply (call_iff _ v _ n); auto. split; auto.
      apply compose_one_runs; auto; [now apply (genuine_row n)|now apply genuine_rows|eauto].
  - rewrite !call_false_g by auto. rewrite chain_one by assumption. split.
    + intros (o1 & s1 & i1 & H & E). injection E as -> -> ->. eauto.
    + intros (s1 & i1 & H & -> & ->). eauto 6.
Qed.

(** ** The stream of an operator as the input of the next *)
Lemma arr_series n o0 os outs : pyok o0 -> Forall (fun o => sk o = sk o0) os -> length os = n ->
  arr n o0 os outs -> leaves outs <> [] -> is_series n outs.
Proof.
  intros Po Ez L (tas & tasf & Ht & Hw & Hstk) NE. split; auto.
  assert (Eos := numbered_list os o0 Ez). assert (Eo0 := numbered o0 o0 eq_refl).
  assert (A := proj1 (arrays_iff (number 0 o0) (getleaf o0) (map getleaf os) n outs
     (pyok_number o0 Po) ltac:(now rewrite map_length))).
  rewrite <- Eos, <- Eo0 in A. destruct A as [A1 A2]; [eauto|]. subst outs.
  rewrite leaves_vmap, Forall_map. apply Forall_forall. intros j Hj.
  destruct (A1 j Hj) as (_ & t & Et). rewrite Et. cbn [getok]. apply tstack_iff in Et as (_ & _ & ->).
  unfold stackT. cbn [sh]. rewrite !map_length. eexists. f_equal. exact L.
Qed.
Lemma rows_eq n v os : length os = n -> (forall i, i < n -> row i v = nth i os (Tup [])) -> rows n v = os.
Proof.
  intros L H. apply (nth_ext _ _ (row n v) (Tup [])).
  - now rewrite rows_length.
  - rewrite rows_length. intros i Hi. unfold rows. rewrite (map_nth (fun k => row k v) (seq 0 n) n i). rewrite seq_nth by assumption. auto.
Qed.
Lemma stream_rows op v st n mid s i :
  genuine v -> genuine_opt st -> genuine_op op -> is_series n v -> uniform sk op st v n ->
  (st = None -> init_consistent op (row 0 v)) ->
  call op v st true = Ok (mid, s, i) ->
  n > 0 /\ genuine mid /\ genuine s /\ genuine i /\ (leaves mid <> [] -> is_series n mid) /\
  (exists s1 i1, forward_step op (row 0 v) st = Ok (row 0 mid, s1, i1) /\ i = start_of st i1) /\
  stepsG state_check op i (rows n v) = Ok (rows n mid, s).
Proof.
  intros Gv Gs Gop Hn (z & U1 & U2) IC H.
  destruct (streamed_start op v st n mid s i Gv Gs Gop Hn H)
    as (Hpos & Gs0 & Hstart & o0 & s1 & i0 & os & tas & tasf & Hf & E0 & Go & HC & HS & Gos & L & Gsf & Ht & Hw & Hstk).
  assert (G0 : genuine (row 0 v)) by now apply (genuine_row n).
  assert (Ez : sk o0 = z) by (apply (U1 o0 s1 i0); rewrite call_false_g; auto).
  assert (U := U2 _ _ _ Hstart HS). subst z.
  destruct (arrays_rows o0 os n tas tasf mid Go Gos U L Ht Hw Hstk) as [Gm R].
  assert (ER := rows_eq n mid os L R).
  destruct (Gop _ _ _ _ _ G0 Gs Hf) as (_ & _ & Gi0).
  split; auto. split; auto. split; auto. split; auto. split.
  { apply (arr_series n o0 os); auto. exists tas, tasf. auto. }
  split; [|now rewrite ER, <- stepsC_G].
  destruct n as [|n]; [lia|]. rewrite stepsC_G in HC. unfold rows in HC. cbn [seq map] in HC.
  apply stepsG_cons in HC as (o1 & s2 & i2 & os' & F1 & _ & _ & ->).
  rewrite (R 0) by lia. cbn [nth].
  destruct st as [s'|]; cbn [start_of] in *.
  - subst i. rewrite Hf in F1. injection F1 as <- <- <-. eauto.
  - subst i. specialize (IC eq_refl o0 s1 i0). rewrite !call_false_g in IC by auto. rewrite IC in F1 by assumption.
    injection F1 as <- <- <-. eauto.
Qed.

Lemma tuple_genuine k sts : given_states k sts -> genuine_opt (tuple_state sts).
Proof. destruct sts; [|now intros]. intros [_ H]. now apply genuine_tup. Qed.
Theorem chain_next n op ops v mid sts o s ss i is :
  genuine v -> given_states (S (length ops)) sts -> genuine_op op -> Forall genuine_op ops -> ops <> [] ->
  good_stage n op (hd_st sts) v mid ->
  call op v (hd_st sts) true = Ok (mid, s, i) ->
  call (Chain (op :: ops)) v (tuple_state sts) true = Ok (o, Tup (s :: ss), Tup (i :: is)) <->
  call (Chain ops) mid (tuple_state (tl_st sts)) true = Ok (o, Tup ss, Tup is).
Proof.
  intros Gv G Gop Gops NE (Hn & U & NL & IC) H.
  destruct (states_cons _ _ G) as (G1 & G2 & NS & ES).
  destruct (stream_rows op v _ n mid s i Gv G1 Gop Hn U IC H)
    as (Hp & Gm & Gsf & Gi & Sm & (s1 & i1 & F1 & Ei) & ST).
  specialize (Sm NL).
  assert (GC := genuine_chain ops Gops).
  assert (G0 : genuine (row 0 v)) by now apply (genuine_row n).
  assert (Gm0 : genuine (row 0 mid)) by now apply (genuine_row n).
  assert (GX := genuine_rows n v Gv Hn).
  assert (Gt2 := tuple_genuine _ _ G2).
  rewrite (call_iff _ v _ n) by eauto using tuple_genuine. rewrite (call_iff _ mid _ n) by auto.
  unfold runs. rewrite !rows_length. split.
  - intros (_ & o0 & s1' & i0 & os & H1 & H2 & H3 & H4). split; [assumption|].
    apply chain_fwd_cons in H1; auto. destruct H1 as (m & s2 & i2 & o2 & ss2 & is2 & F2 & F3 & E).
    rewrite F1 in F2. injection F2 as <- <- <-. injection E as -> -> ->.
    assert (Eis : Tup is = start_of (tuple_state (tl_st sts)) (Tup is2)).
    { destruct sts as [[|? ?]|]; simpl in *; injection H2; congruence. }
    destruct (GC _ _ _ _ _ Gm0 Gt2 F3) as (_ & _ & Gis2). apply genuine_tup in Gis2.
    destruct (chain_shape ops _ _ _ _ _ NE G2 F3) as (ss2' & is2' & E1 & E2 & L1 & L2). injection E1 as <-. injection E2 as <-.
    assert (Gis : Forall genuine is /\ length is = length ops).
    { destruct sts as [[|? ?]|]; simpl in Eis, G2; injection Eis as ->; tauto. }
    rewrite stepsC_G in H3. apply chain_steps in H3; auto using splits_state; try tauto.
    destruct H3 as (ms & sf1 & sfs & A1 & A2 & E). injection E as <- <-. rewrite ST in A1. injection A1 as <-.
    exists o2, (Tup ss2), (Tup is2), os. rewrite stepsC_G. auto.
  - intros (_ & o0 & s1' & i0 & os & H1 & H2 & H3 & H4). split; [assumption|].
    destruct (chain_shape ops _ _ _ _ _ NE G2 H1) as (ss2 & is2 & -> & -> & L1 & L2).
    destruct (GC _ _ _ _ _ Gm0 Gt2 H1) as (_ & _ & Gis2). apply genuine_tup in Gis2.
    assert (Gis : Forall genuine is /\ length is = length ops).
    { destruct sts as [[|? ?]|]; simpl in H2, G2; injection H2 as ->; tauto. }
    exists o0, (Tup (s1 :: ss2)), (Tup (i1 :: is2)), os.
    split. { apply chain_fwd_cons; auto. exists (row 0 mid), s1, i1, o0, ss2, is2. auto. }
    split. { etransitivity; [|symmetry; now apply (start_cons sts i1 is2)]. subst i. destruct sts as [[|? ?]|]; simpl in *; injection H2 as ->; auto.
    }
    split; [|assumption]. rewrite stepsC_G in *. apply chain_steps; auto using splits_state; try tauto.
    exists (rows n mid), s, ss. auto.
Qed.
Lemma stepsG_length chk op xs : forall s os sf, stepsG chk op s xs = Ok (os, sf) -> length os = length xs.
Proof.
  induction xs as [|x xs IH]; intros s os sf H; [now injection H as <- _|].
  apply stepsG_cons in H as (o & s' & i & os' & _ & _ & H & ->). simpl. f_equal. eauto.
Qed.
Lemma stepsG_weak chk op xs : forall s os sf, stepsG chk op s xs = Ok (os, sf) -> stepsG no_check op s xs = Ok (os, sf).
Proof.
  induction xs as [|x xs IH]; intros s os sf H; [exact H|].
  apply stepsG_cons in H as (o & s' & i & os' & F & _ & H & ->). apply stepsG_cons. exists o, s', i, os'.
  repeat split; auto.
Qed.
(** When the chain streams, so does its first operator. *)
Theorem chain_first n op ops v sts o s i :
  genuine v -> given_states (S (length ops)) sts -> genuine_op op -> Forall genuine_op ops -> ops <> [] ->
  is_series n v -> uniform sig op (hd_st sts) v n ->
  call (Chain (op :: ops)) v (tuple_state sts) true = Ok (o, s, i) ->
  exists mid s1 i1, call op v (hd_st sts) true = Ok (mid, s1, i1).
Proof.
  intros Gv G Gop Gops NE Hn (z & U1 & U2) H.
  destruct (states_cons _ _ G) as (G1 & G2 & NS & ES).
  assert (GX := genuine_rows n v Gv Hn).
  assert (GC := genuine_chain ops Gops).
  rewrite (call_iff _ v _ n) in H by eauto using tuple_genuine.
  destruct H as (Hp & o0 & s1 & i0 & os & F & Ei & R & A).
  assert (G0 : genuine (row 0 v)) by now apply (genuine_row n).
  apply chain_fwd_cons in F; auto. destruct F as (m & s2 & i2 & o2 & ss2 & is2 & F1 & F2 & E). injection E as -> -> ->.
  destruct (Gop _ _ _ _ _ G0 G1 F1) as (Gm & _ & Gi2).
  assert (Gt2 := tuple_genuine _ _ G2).
  destruct (GC _ _ _ _ _ Gm Gt2 F2) as (_ & _ & Gis2). apply genuine_tup in Gis2.
  destruct (chain_shape ops _ _ _ _ _ NE G2 F2) as (ss2' & is2' & E1 & E2 & L1 & L2). injection E1 as <-. injection E2 as <-.
  assert (K : exists j js, i = Tup (j :: js) /\ j = start_of (hd_st sts) i2 /\ genuine j /\ Forall genuine js /\ length js = length ops).
  { subst i. destruct sts as [[|s3 ss3]|]; simpl in *; [now destruct G| |].
    - exists s3, ss3. destruct G as [G3 G4]. injection G3 as G3. inversion G4; auto.
    - exists i2, is2. auto. }
  destruct K as (j & js & Ei' & Ej & Gj & Gjs & Ljs). rewrite stepsC_G in R. rewrite Ei' in R.
  apply chain_steps in R; auto using splits_state. destruct R as (ms & sf1 & sfs & R1 & R2 & E).
  assert (Lm := stepsG_length _ _ _ _ _ _ R1). rewrite rows_length in Lm.
  assert (Uo : sig m = z) by (apply (U1 m s2 i2); rewrite call_false_g; auto).
  assert (Us : Forall (fun o => sig o = sig m) ms).
  { rewrite Uo. apply (U2 j ms sf1).
    - destruct (hd_st sts); simpl in *; [now subst|]. subst j. exists m, s2. rewrite call_false_g; auto.
    - rewrite steps_G by auto. now apply (stepsG_weak _ _ _ _ _ _ R1). }
  destruct (arrays_exist m ms n (genuine_pyok _ Gm) Us Lm Hp) as (tas & tasf & outs & A1 & A2 & A3).
  exists outs, sf1, j. apply (call_iff _ v _ n); auto. split; auto.
  exists m, s2, i2, ms. rewrite stepsC_G, Ej. rewrite Ej in R1. repeat (split; auto). exists tas, tasf. rewrite rows_length. auto.
Qed.
Lemma streamed_nonempty n ops v sts o ss is : streamed_in_turn n ops v sts o ss is -> ops <> [].
Proof. intros H; inversion H; discriminate. Qed.
Theorem chain_in_turn n ops : forall v sts o ss is,
  genuine v -> given_states (length ops) sts -> Forall genuine_op ops ->
  streamed_in_turn n ops v (states_for (length ops) sts) o ss is ->
  call (Chain ops) v (tuple_state sts) true = Ok (o, Tup ss, Tup is).
Proof.
  induction ops as [|op ops IH]; intros v sts o ss is Gv G Gops H; [inversion H|].
  cbn [length] in *. destruct (states_cons _ _ G) as (G1 & G2 & NS & ES). rewrite ES in H.
  inversion Gops as [|? ? Gop Gops']; subst.
  inversion H as [? ? ? ? ? ? Hn Hc|? ? ? mid ? ? ? s1 ss1 i1 is1 Hc Hg Hr]; subst.
  - assert (E : tuple_state sts = option_map (fun s => Tup [s]) (hd_st sts)).
    { destruct sts as [[|s0 [|? ?]]|]; try reflexivity; simpl in *; [now destruct (NS [] eq_refl)|]. destruct G; discriminate. }
    rewrite E. apply (compose_one op v (hd_st sts) true); eauto.
  - apply (chain_next n op ops v mid sts); auto; [eapply streamed_nonempty; eauto|].
    destruct Hg as (Hn & U & NL & IC).
    destruct (stream_rows op v _ n mid s1 i1 Gv G1 Gop Hn U IC Hc) as (_ & Gm & _). auto.
Qed.
Theorem compose_in_turn n ops v sts o ss is :
  genuine v -> given_states (length ops) sts -> Forall genuine_op ops ->
  streamed_in_turn n (rev ops) v (states_for (length ops) sts) o ss is ->
  call (Compose ops) v (tuple_state sts) true = Ok (o, Tup ss, Tup is).
Proof.
  intros Gv G Gops H. rewrite Compose_Chain. apply (chain_in_turn n); auto using Forall_rev; rewrite rev_length; auto.
Qed.
Theorem compose_first n op ops v sts o s i :
  genuine v -> given_states (S (length ops)) sts -> genuine_op op -> Forall genuine_op ops -> ops <> [] ->
  is_series n v -> uniform sig op (hd_st sts) v n ->
  call (Compose (ops ++ [op])) v (tuple_state sts) true = Ok (o, s, i) ->
  exists mid s1 i1, call op v (hd_st sts) true = Ok (mid, s1, i1).
Proof.
  intros Gv G Gop Gops NE Hn U. rewrite Compose_Chain, rev_app_distr. cbn [rev app].
  apply (chain_first n); auto using Forall_rev.
  - now rewrite rev_length.
  - intros E. apply NE. rewrite <- (rev_involutive ops), E. reflexivity.
Qed.
Theorem compose_next n op ops v mid sts o s ss i is :
  genuine v -> given_states (S (length ops)) sts -> genuine_op op -> Forall genuine_op ops -> ops <> [] ->
  good_stage n op (hd_st sts) v mid ->
  call op v (hd_st sts) true = Ok (mid, s, i) ->
  call (Compose (ops ++ [op])) v (tuple_state sts) true = Ok (o, Tup (s :: ss), Tup (i :: is)) <->
  call (Compose ops) mid (tuple_state (tl_st sts)) true = Ok (o, Tup ss, Tup is).
Proof.
  intros Gv G Gop Gops NE Hg H. rewrite !Compose_Chain, rev_app_distr. cbn [rev app].
  apply (chain_next n); auto using Forall_rev.
  - now rewrite rev_length.
  - intros E. apply NE. rewrite <- (rev_involutive ops), E. reflexivity.
Qed.
(** One call *)
Lemma ploop_turn ops : ops <> [] -> forall x sts o ss is, length sts = length ops ->
  ploop (combine ops sts) x = Ok (o, ss, is) <-> called_in_turn false ops x sts o ss is.
Proof.
  induction ops as [|op ops IH]; intros NE x sts o ss is L; [easy|].
  destruct sts as [|st sts]; [discriminate|]. injection L as L. cbn [combine ploop].
  destruct ops as [|op2 ops].
  - destruct sts; [|discriminate]. cbn [combine ploop]. split.
    + intros H. apply bind_ok in H as ([[m s] i] & H1 & H). injection H as <- <- <-. now constructor.
    + intros H. inversion H as [? ? ? ? ? ? Hc|? ? ? ? ? ? ? ? ? ? ? Hc Hr]; subst; [now rewrite Hc|inversion Hr].
  - split.
    + intros H. apply bind_ok in H as ([[m s] i] & H1 & H). apply bind_ok in H as ([[o' ss'] is'] & H2 & H).
      injection H as <- <- <-. apply (turn_next _ _ _ _ m); auto. apply IH; auto. discriminate.
    + intros H. inversion H as [? ? ? ? ? ? Hc|? ? ? ? ? ? ? ? ? ? ? Hc Hr]; subst.
      rewrite Hc. cbn [bind]. apply IH in Hr; auto; [|discriminate]. now rewrite Hr.
Qed.
Theorem compose_once ops x sts o s i :
  genuine x -> given_states (length ops) sts -> ops <> [] ->
  call (Compose ops) x (tuple_state sts) false = Ok (o, s, i) <->
  exists ss is, s = Tup ss /\ i = Tup is /\
    called_in_turn false (rev ops) x (states_for (length ops) sts) o ss is.
Proof.
  intros Gx G NE. rewrite Compose_Chain, call_false_g by eauto using tuple_genuine.
  rewrite <- (rev_length ops) in *.
  assert (NR : rev ops <> []). { intros E. apply NE. rewrite <- (rev_involutive ops), E. reflexivity. }
  rewrite chain_fwd by auto.
  split.
  - intros H. apply bind_ok in H as ([[o' ss] is] & H & E). injection E as <- <- <-. exists ss, is.
    split; [reflexivity|]. split; [reflexivity|]. apply ploop_turn; auto. now apply states_length.
  - intros (ss & is & -> & -> & H). apply ploop_turn in H; auto; [|now apply states_length]. now rewrite H.
Qed.
(** The loop of single calls *)
Lemma chain_steps_turn ops : ops <> [] -> Forall genuine_op ops -> forall ss xs os sf,
  Forall genuine xs -> Forall genuine ss -> length ss = length ops ->
  steps (Chain ops) (Tup ss) xs = Ok (os, sf) <->
  exists sfs, sf = Tup sfs /\ stepped_in_turn ops ss xs os sfs.
Proof.
  induction ops as [|op ops IH]; intros NE Gops ss xs os sf Gx Gs L; [easy|].
  assert (GC := genuine_chain _ Gops). assert (GT : genuine (Tup ss)) by now apply genuine_tup.
  rewrite steps_G by auto.
  inversion Gops as [|? ? Gop Gops']; subst. destruct ss as [|s ss]; [discriminate|]. injection L as L.
  inversion Gs; subst. destruct ops as [|op2 ops].
  - destruct ss; [|discriminate]. rewrite (chain_steps_one _ op splits_no) by auto. split.
    + intros (sf1 & H & ->). exists [sf1]. split; [reflexivity|]. constructor. now rewrite steps_G.
    + intros (sfs & -> & H). inversion H as [? ? ? ? ? Hc|? ? ? ? ? ? ? ? ? Hc Hr]; subst; [|inversion Hr].
      rewrite steps_G in Hc by auto. eauto.
  - rewrite (chain_steps _ op (op2 :: ops) splits_no) by (auto; discriminate). split.
    + intros (ms & sf1 & sfs & A1 & A2 & ->).
      assert (Gms := proj1 (stepsG_genuine _ _ Gop _ _ _ _ H1 Gx A1)).
      exists (sf1 :: sfs). split; [reflexivity|]. apply (stepped_next _ _ _ _ _ ms); [now rewrite steps_G|].
      rewrite <- steps_G in A2; auto using genuine_chain; [|now apply genuine_tup].
      apply IH in A2; auto; [|discriminate]. destruct A2 as (sfs' & E & A2). injection E as ->. assumption.
    + intros (sfs & -> & H). inversion H as [? ? ? ? ? Hc|? ? ? ? ? ms ? sf1 sfs1 Hc Hr]; subst.
      rewrite steps_G in Hc by auto.
      assert (Gms := proj1 (stepsG_genuine _ _ Gop _ _ _ _ H1 Gx Hc)).
      exists ms, sf1, sfs1. split; [assumption|]. split; [|reflexivity].
      rewrite <- steps_G; auto using genuine_chain; [|now apply genuine_tup].
      apply IH; auto; [discriminate|]. eauto.
Qed.
Theorem compose_steps ops ss xs os sf :
  ops <> [] -> Forall genuine_op ops -> Forall genuine xs -> Forall genuine ss -> length ss = length ops ->
  steps (Compose ops) (Tup ss) xs = Ok (os, sf) <->
  exists sfs, sf = Tup sfs /\ stepped_in_turn (rev ops) ss xs os sfs.
Proof.
  intros NE Gops Gx Gs L. rewrite Compose_Chain. apply chain_steps_turn; auto using Forall_rev.
  - intros E. apply NE. rewrite <- (rev_involutive ops), E. reflexivity.
  - now rewrite rev_length.
Qed.
End ComposeFacts.
