(** * JoinFacts: Join runs its operators independently. *)
From Coq Require Import String List ZArith Bool Lia.
From Verif Require Import Num Py PyFacts Tensor Streamable Spec StreamFacts TensorFacts StreamProofs
  WfFacts Meta Common Finance Library GenuineBase Genuine GenuineLib RunFacts SpecMeta.
Import ListNotations.

Section JoinFacts.
Context {N : FOps}.
Hint Resolve genuine_pyok genuine_opt_pyok : core.

Lemma states_cons k sts : given_states (S k) sts ->
  genuine_opt (hd_st sts) /\ given_states k (tl_st sts) /\ (forall ss, sts = Some ss -> ss <> []) /\
  states_for (S k) sts = hd_st sts :: states_for k (tl_st sts).
Proof.
  destruct sts as [[|s ss]|]; simpl; intros H.
  - now destruct H.
  - destruct H as [L H]. injection L as L. inversion H; subst. split; [assumption|]. split; [auto|]. split; [|reflexivity].
    intros ss' E. injection E as <-. discriminate.
  - repeat split; auto. discriminate.
Qed.

Lemma join_fwd ops x st r : forward_step (Join ops) x st = Ok r ->
  exists os ss is, r = (Tup os, Tup ss, Tup is).
Proof.
  cbn [forward_step Join]. unfold join_step. intros H. apply bind_ok in H as (sl & _ & H).
  apply bind_ok in H as (ins & _ & H). apply bind_ok in H as ([[os ss] is] & _ & H). injection H as <-. eauto.
Qed.
Lemma join_fwd_cons op ops x xs sts r :
  genuine x -> genuine_opt (hd_st sts) -> (forall ss, sts = Some ss -> ss <> []) ->
  forward_step (Join (op :: ops)) (Tup (x :: xs)) (tuple_state sts) = Ok r <->
  exists o s i os ss is, forward_step op x (hd_st sts) = Ok (o, s, i) /\
    forward_step (Join ops) (Tup xs) (tuple_state (tl_st sts)) = Ok (Tup os, Tup ss, Tup is) /\
    r = (Tup (o :: os), Tup (s :: ss), Tup (i :: is)).
Proof.
  intros Gx Gs NE. cbn [forward_step Join]. unfold join_step.
  assert (K : forall sl, sl = hd_st sts :: states_for (length ops) (tl_st sts) ->
    (let* (outs, nexts, inits) := join_loop (combine (op :: ops) (combine (x :: xs) sl)) in
       Ok (Tup outs, Tup nexts, Tup inits)) = Ok r <->
    exists o s i os ss is, forward_step op x (hd_st sts) = Ok (o, s, i) /\
      (let* (outs, nexts, inits) := join_loop (combine ops (combine xs (states_for (length ops) (tl_st sts)))) in
       Ok (Tup outs, Tup nexts, Tup inits)) = Ok (Tup os, Tup ss, Tup is) /\
      r = (Tup (o :: os), Tup (s :: ss), Tup (i :: is))).
  { intros sl ->. cbn [combine join_loop]. rewrite call_false_g by assumption. split.
    - intros H. apply bind_ok in H as ([[os ss] is] & H & E). injection E as <-.
      apply bind_ok in H as ([[o s] i] & Ho & H). apply bind_ok in H as ([[os' ss'] is'] & Hr & H).
      injection H as <- <- <-. exists o, s, i, os', ss', is'. rewrite Hr. auto.
    - intros (o & s & i & os & ss & is & H1 & H2 & ->). rewrite H1. cbn [bind].
      apply bind_ok in H2 as ([[os' ss'] is'] & Hr & H). injection H as -> -> ->. now rewrite Hr. }
  destruct sts as [[|s ss]|].
  - now destruct (NE [] eq_refl).
  - cbn [tuple_state option_map tl_st tl iter bind hd_st]. rewrite (K _ eq_refl). reflexivity.
  - cbn [tuple_state option_map tl_st iter bind hd_st]. rewrite (K (None :: repeat None (length ops)) eq_refl). reflexivity.
Qed.
Lemma join_fwd_nil st : given_states 0 st ->
  forward_step (Join []) (Tup []) (tuple_state st) = Ok (Tup [], Tup [], Tup []).
Proof. destruct st as [[|? ?]|]; intros [? ?] || intros _; try discriminate; reflexivity. Qed.

Lemma join_false ops : forall vs sts o s i,
  Forall genuine vs -> given_states (length ops) sts -> length vs = length ops ->
  forward_step (Join ops) (Tup vs) (tuple_state sts) = Ok (o, s, i) <->
  exists os ss is, o = Tup os /\ s = Tup ss /\ i = Tup is /\
    called_each false ops vs (states_for (length ops) sts) os ss is.
Proof.
  induction ops as [|op ops IH]; intros vs sts o s i Gv Gs L.
  - destruct vs; [|discriminate]. rewrite join_fwd_nil by assumption. split.
    + intros H. injection H as <- <- <-. exists [], [], []. repeat split; auto.
      destruct sts as [[|? ?]|]; simpl; try constructor. destruct Gs; discriminate.
    + intros (os & ss & is & -> & -> & -> & H). inversion H; subst. reflexivity.
  - destruct vs as [|v vs]; [discriminate|]. injection L as L. inversion Gv; subst.
    cbn [length] in Gs. destruct (states_cons _ _ Gs) as (G1 & G2 & NE & ES). cbn [length]. rewrite ES.
    rewrite join_fwd_cons by assumption. split.
    + intros (o1 & s1 & i1 & os & ss & is & H3 & H4 & E). injection E as -> -> ->.
      apply IH in H4 as (os' & ss' & is' & E1 & E2 & E3 & H4); auto.
      injection E1 as ->. injection E2 as ->. injection E3 as ->.
      exists (o1 :: os'), (s1 :: ss'), (i1 :: is'). repeat (split; [reflexivity|]). constructor; auto.
      rewrite call_false_g; auto.
    + intros (os & ss & is & -> & -> & -> & H). inversion H as [|? ? ? ? ? ? o1 os' s1 ss' i1 is' Hc Hr]; subst.
      exists o1, s1, i1, os', ss', is'. rewrite call_false_g in Hc by auto. repeat (split; [assumption|]).
      split; [|reflexivity]. apply IH; auto. exists os', ss', is'. auto.
Qed.

(** ** Runs *)
Lemma join_steps chk op ops : splits chk -> genuine_op op -> Forall genuine_op ops -> forall l s ss outs sf,
  Forall (fun p => genuine (fst p) /\ Forall genuine (snd p)) l -> genuine s -> Forall genuine ss ->
  stepsG chk (Join (op :: ops)) (Tup (s :: ss)) (map tcons l) = Ok (outs, sf) <->
  exists l' sf1 sfs, stepsG chk op s (map fst l) = Ok (map fst l', sf1) /\
    stepsG chk (Join ops) (Tup ss) (map trest l) = Ok (map trest l', Tup sfs) /\
    outs = map tcons l' /\ sf = Tup (sf1 :: sfs).
Proof.
  intros [Hchk _] Gop Gops. induction l as [|[x xs] l IH]; intros s ss outs sf Gl Gs Gss; cbn [map].
  - cbn [stepsG]. split.
    + intros H. injection H as <- <-. exists [], s, ss. auto.
    + intros (l' & sf1 & sfs & H1 & H2 & -> & ->). destruct l'; [|discriminate].
      injection H1 as <-. injection H2 as <-. reflexivity.
  - inversion Gl as [|? ? [Gx Gxs] Gl']; subst. cbn [fst snd] in Gx, Gxs.
    assert (GJ := genuine_join ops Gops).
    assert (NE : forall ss', Some (s :: ss) = Some ss' -> ss' <> []) by (intros ss' E; injection E as <-; discriminate).
    unfold tcons at 1, trest at 1. cbn [fst snd].
    rewrite stepsG_cons. split.
    + intros (o & s' & i & os' & H1 & H2 & H3 & ->).
      apply (join_fwd_cons op ops x xs (Some (s :: ss))) in H1; auto.
      destruct H1 as (o1 & s1 & i1 & os & ss1 & is & Ho & Hr & E). injection E as -> -> ->.
      cbn [hd_st tl_st tl option_map tuple_state] in Ho, Hr.
      destruct (Gop _ (Some s) _ _ _ Gx Gs Ho) as (_ & Gs1 & _).
      assert (Gt : genuine (Tup ss)) by now apply genuine_tup.
      assert (Gxt : genuine (Tup xs)) by now apply genuine_tup.
      destruct (GJ _ (Some (Tup ss)) _ _ _ Gxt Gt Hr) as (_ & Gs2 & _).
      apply genuine_tup in Gs2.
      apply Hchk in H2; try (apply genuine_tup; constructor; auto). destruct H2 as [C1 C2].
      apply IH in H3; auto. destruct H3 as (l' & sf1 & sfs & A1 & A2 & -> & ->).
      exists ((o1, os) :: l'), sf1, sfs. rewrite !stepsG_cons.
      split; [eauto 10|]. split; [exists (Tup os), (Tup ss1), (Tup is), (map trest l'); auto|]. auto.
    + intros (l' & sf1 & sfs & A1 & A2 & -> & ->).
      apply stepsG_cons in A1 as (o1 & s1 & i1 & os1 & Ho & C1 & A1 & E1).
      apply stepsG_cons in A2 as (o2 & s2 & i2 & os2 & Hr & C2 & A2 & E2).
      destruct l' as [|[o1' os] l']; [discriminate|]. cbn [map fst] in E1, E2. injection E1 as -> <-.
      unfold trest at 1 in E2. cbn [snd] in E2. injection E2 as <- <-.
      destruct (join_fwd _ _ _ _ Hr) as (os' & ss2 & is & E). injection E as <- -> ->.
      destruct (Gop _ (Some s) _ _ _ Gx Gs Ho) as (_ & Gs1 & _).
      assert (Gt : genuine (Tup ss)) by now apply genuine_tup.
      assert (Gxt : genuine (Tup xs)) by now apply genuine_tup.
      destruct (GJ _ (Some (Tup ss)) _ _ _ Gxt Gt Hr) as (_ & Gs2 & _).
      apply genuine_tup in Gs2.
      exists (tcons (o1, os)), (Tup (s1 :: ss2)), (Tup (i1 :: is)), (map tcons l').
      split. { apply (join_fwd_cons op ops x xs (Some (s :: ss))); auto. exists o1, s1, i1, os, ss2, is. auto. }
      split. { apply Hchk; try (apply genuine_tup; constructor; auto). auto. }
      split; [|reflexivity]. apply IH; auto. exists l', sf1, sfs. auto.
Qed.

Lemma start_cons sts i is : (forall ss, sts = Some ss -> ss <> []) ->
  start_of (tuple_state sts) (Tup (i :: is)) =
  Tup (start_of (hd_st sts) i :: match tl_st sts with Some ss => ss | None => is end).
Proof. destruct sts as [[|s ss]|]; intros NE; try reflexivity. now destruct (NE [] eq_refl). Qed.

Lemma join_runs_cons op ops sts x xs l outs sf s0 :
  genuine_op op -> Forall genuine_op ops -> genuine x -> Forall genuine xs ->
  Forall (fun p => genuine (fst p) /\ Forall genuine (snd p)) l -> given_states (S (length ops)) sts ->
  runs (Join (op :: ops)) (tuple_state sts) (Tup (x :: xs)) (map tcons l) outs sf s0 <->
  exists o s i os ss is, runs op (hd_st sts) x (map fst l) o s i /\
    runs (Join ops) (tuple_state (tl_st sts)) (Tup xs) (map trest l) (Tup os) (Tup ss) (Tup is) /\
    outs = Tup (o :: os) /\ sf = Tup (s :: ss) /\ s0 = Tup (i :: is).
Proof.
  intros Gop Gops Gx Gxs Gl Gst. destruct (states_cons _ _ Gst) as (G1 & G2 & NE & ES).
  assert (GJ := genuine_join ops Gops). assert (Gxt : genuine (Tup xs)) by now apply genuine_tup.
  assert (Gtl : genuine_opt (tuple_state (tl_st sts))).
  { destruct sts as [ss|]; [|exact I]. simpl in *. apply genuine_tup. now destruct G2. }
  unfold runs. rewrite !map_length. split.
  - intros (o0 & s1 & i0 & os & H1 & H2 & H3 & H4). rewrite stepsC_G in H3.
    apply join_fwd_cons in H1; auto. destruct H1 as (o1 & s1' & i1 & os1 & ss1 & is1 & Ho & Hr & E).
    injection E as -> -> ->. rewrite start_cons in H2 by auto. subst s0.
    destruct (Gop _ _ _ _ _ Gx G1 Ho) as (_ & _ & Gi). destruct (GJ _ _ _ _ _ Gxt Gtl Hr) as (_ & _ & Gis).
    apply genuine_tup in Gis.
    apply join_steps in H3; auto using splits_state.
    2:{ destruct (hd_st sts); auto. } 2:{ destruct (tl_st sts); auto. now destruct G2. }
    destruct H3 as (l' & sf1 & sfs & A1 & A2 & -> & ->).
    apply arr_cons in H4 as (u & us & B1 & B2 & ->).
    exists u, sf1, (start_of (hd_st sts) i1), us, sfs, (match tl_st sts with Some ss => ss | None => is1 end).
    split. { exists o1, s1', i1, (map fst l'). rewrite stepsC_G. auto. }
    split; [|auto]. exists (Tup os1), (Tup ss1), (Tup is1), (map trest l'). rewrite stepsC_G.
    split; [assumption|]. split; [destruct sts as [[|? ?]|]; reflexivity|]. auto.
  - intros (o & s & i & os & ss & is & (o1 & s1 & i1 & os1 & H1 & H2 & H3 & H4) & (o2 & s2 & i2 & os2 & K1 & K2 & K3 & K4) & -> & -> & ->).
    rewrite stepsC_G in H3, K3.
    destruct (join_fwd _ _ _ _ K1) as (o2' & s2' & i2' & E). injection E as -> -> ->.
    assert (Ei : Tup (i :: is) = start_of (tuple_state sts) (Tup (i1 :: i2'))).
    { rewrite start_cons by auto. subst i. f_equal. f_equal.
      destruct sts as [[|? ?]|]; simpl in K2; injection K2 as ->; reflexivity. }
    destruct (Gop _ _ _ _ _ Gx G1 H1) as (_ & _ & Gi1). destruct (GJ _ _ _ _ _ Gxt Gtl K1) as (_ & _ & Gis2).
    apply genuine_tup in Gis2.
    assert (Gi : genuine i) by (subst i; destruct (hd_st sts); auto).
    assert (Gis : Forall genuine is).
    { destruct sts as [[|? ?]|]; simpl in K2; injection K2 as ->; auto; now destruct G2. }
    assert (EL : exists l', os1 = map fst l' /\ os2 = map trest l').
    { assert (GF1 : Forall genuine (map fst l)) by (rewrite Forall_map; eapply Forall_impl; [|exact Gl]; now intros ? []).
      assert (GF2 : Forall genuine (map trest l)).
      { rewrite Forall_map. eapply Forall_impl; [|exact Gl]. intros ? []. now apply genuine_tup. }
      assert (L1 := proj2 (proj2 (stepsG_genuine _ _ Gop _ _ _ _ Gi GF1 H3))).
      assert (L2 := proj2 (proj2 (stepsG_genuine _ _ GJ _ _ _ _ (proj2 (genuine_tup is) Gis)
         GF2 K3))).
      rewrite map_length in L1, L2.
      assert (T2 : Forall (fun o => exists t, o = Tup t) os2).
      { clear -K3. revert is os2 K3. generalize (map trest l) as xs. induction xs as [|x xs IH]; intros is os2 K3.
        - injection K3 as <- _. constructor.
        - apply stepsG_cons in K3 as (o & s' & j & os' & F & _ & R & ->).
          destruct (join_fwd _ _ _ _ F) as (a & b & c & E). injection E as -> -> ->. constructor; eauto. }
      rewrite <- L2 in L1. clear -L1 T2. revert os2 L1 T2. induction os1 as [|o os1 IH]; intros [|o2 os2] L T; try discriminate.
      - exists []. auto.
      - injection L as L. inversion T as [|? ? (t & ->) T']; subst. destruct (IH os2 L T') as (l' & -> & ->).
        exists ((o, t) :: l'). auto. }
    destruct EL as (l' & -> & ->).
    exists (Tup (o1 :: o2')), (Tup (s1 :: s2')), (Tup (i1 :: i2')), (map tcons l').
    split. { apply join_fwd_cons; auto. exists o1, s1, i1, o2', s2', i2'. auto. }
    split; [assumption|]. rewrite stepsC_G. split.
    { apply join_steps; auto using splits_state. exists l', s, ss. auto. }
    apply arr_cons. exists o, os. auto.
Qed.

(** Rows of a tuple *)
Lemma rows_tup n v vs : rows n (Tup (v :: vs)) = map tcons (map (fun k => (row k v, map (row k) vs)) (seq 0 n)).
Proof. unfold rows. rewrite map_map. apply map_ext. reflexivity. Qed.
Lemma rows_fst n v vs : map fst (map (fun k => (row k v, map (row k) vs)) (seq 0 n)) = rows n v.
Proof. rewrite map_map. reflexivity. Qed.
Lemma rows_rest n v vs : map trest (map (fun k => (row k v, map (row k) vs)) (seq 0 n)) = rows n (Tup vs).
Proof. rewrite map_map. reflexivity. Qed.

Lemma is_series_tup n vs : vs <> [] -> Forall (is_series n) vs -> is_series n (Tup vs).
Proof.
  intros NE H. split.
  - destruct vs as [|v vs]; [easy|]. inversion H as [|? ? [Hv _] _]; subst. simpl. intros E.
    apply app_eq_nil in E as [E _]. auto.
  - cbn [leaves]. apply Forall_flat_map. eapply Forall_impl; [|exact H]. now intros v [].
Qed.

Lemma join_runs n ops : n > 0 -> forall vs sts outs sf s0,
  Forall genuine_op ops -> Forall genuine vs -> Forall (is_series n) vs -> given_states (length ops) sts ->
  length vs = length ops ->
  runs (Join ops) (tuple_state sts) (row 0 (Tup vs)) (rows n (Tup vs)) outs sf s0 <->
  exists os ss is, outs = Tup os /\ sf = Tup ss /\ s0 = Tup is /\
    called_each true ops vs (states_for (length ops) sts) os ss is.
Proof.
  intros Hn. induction ops as [|op ops IH]; intros vs sts outs sf s0 Gops Gv Sv Gs L.
  - destruct vs; [|discriminate].
    assert (ER : rows n (Tup (@nil val)) = repeat (Tup []) n).
    { unfold rows. change (fun i => row i (Tup (@nil val))) with (fun _ : nat => @Tup tensor []). clear.
      generalize 0. induction n; intros k; simpl; f_equal; auto. }
    assert (ES : start_of (tuple_state sts) (Tup []) = Tup []).
    { destruct sts as [[|? ?]|]; simpl; try reflexivity. now destruct Gs. }
    assert (EC : forall k, stepsG state_check (Join []) (Tup []) (repeat (Tup []) k) = Ok (repeat (Tup []) k, Tup [])).
    { induction k as [|k IHk]; [reflexivity|]. cbn [repeat]. apply stepsG_cons.
      exists (Tup []), (Tup []), (Tup []), (repeat (Tup []) k).
      split; [exact (join_fwd_nil (Some []) (conj eq_refl (Forall_nil _)))|]. auto. }
    rewrite ER. unfold runs. rewrite repeat_length. cbn [row vmap map].
    rewrite join_fwd_nil by assumption. split.
    + intros (o0 & s1 & i0 & os & H1 & H2 & H3 & H4). injection H1 as <- <- <-. rewrite ES in H2. subst s0.
      rewrite stepsC_G, EC in H3. injection H3 as <- <-.
      exists [], [], []. split.
      { destruct H4 as (tas & tasf & A & B & C). destruct (arr_nil n n) as (tas' & tasf' & A' & B' & C').
        rewrite A in A'. injection A' as ->. rewrite B in B'. injection B' as ->. congruence. }
      repeat split; auto. destruct sts as [[|? ?]|]; simpl; try constructor. destruct Gs; discriminate.
    + intros (os & ss & is & -> & -> & -> & H). inversion H; subst.
      exists (Tup []), (Tup []), (Tup []), (repeat (Tup []) n). rewrite ES, stepsC_G, EC. auto using arr_nil.
  - destruct vs as [|v vs]; [discriminate|]. injection L as L. inversion Gv; subst. inversion Sv; subst.
    inversion Gops; subst. cbn [length] in Gs. destruct (states_cons _ _ Gs) as (G1 & G2 & NE & ES).
    cbn [length]. rewrite ES. rewrite rows_tup. change (row 0 (Tup (v :: vs))) with (Tup (row 0 v :: map (row 0) vs)).
    assert (GR : forall k, k < n -> genuine (row k v) /\ Forall genuine (map (row k) vs)).
    { intros k Hk. split; [eapply genuine_row; eauto|]. rewrite Forall_map, Forall_forall in *.
      intros w Hw. eapply genuine_row; eauto. }
    destruct (GR 0 Hn) as [GR1 GR2].
    rewrite join_runs_cons; auto.
    2:{ rewrite Forall_map. apply Forall_forall. intros k Hk. apply in_seq in Hk. cbn [fst snd]. apply GR. lia. }
    rewrite rows_fst, rows_rest. change (Tup (map (row 0) vs)) with (row 0 (Tup vs)).
    split.
    + intros (o & s & i & os & ss & is & R1 & R2 & -> & -> & ->).
      apply IH in R2; auto. destruct R2 as (os' & ss' & is' & E1 & E2 & E3 & R2).
      injection E1 as ->. injection E2 as ->. injection E3 as ->.
      exists (o :: os'), (s :: ss'), (i :: is'). repeat (split; [reflexivity|]). constructor; auto.
      apply (call_iff op v _ n); auto.
    + intros (os & ss & is & -> & -> & -> & H). inversion H as [|? ? ? ? ? ? o1 os' s1 ss' i1 is' Hc Hr]; subst.
      exists o1, s1, i1, os', ss', is'. split; [apply (call_iff op v _ n) in Hc; auto; tauto|].
      split; [|auto]. apply IH; auto. exists os', ss', is'. auto.
Qed.

Theorem join_true n ops vs sts outs sf s0 :
  Forall genuine_op ops -> Forall genuine vs -> Forall (is_series n) vs -> given_states (length ops) sts ->
  length vs = length ops -> ops <> [] ->
  call (Join ops) (Tup vs) (tuple_state sts) true = Ok (outs, sf, s0) <->
  exists os ss is, outs = Tup os /\ sf = Tup ss /\ s0 = Tup is /\
    called_each true ops vs (states_for (length ops) sts) os ss is.
Proof.
  intros Gops Gv Sv Gs L NE.
  assert (NV : vs <> []) by (destruct vs, ops; simpl in L; congruence).
  assert (GV : genuine (Tup vs)) by now apply genuine_tup.
  assert (GS : genuine_opt (tuple_state sts)).
  { destruct sts; [|exact I]. simpl. apply genuine_tup. now destruct Gs. }
  rewrite (call_iff (Join ops) (Tup vs) _ n) by auto using is_series_tup.
  split.
  - intros [Hn H]. apply join_runs in H; auto.
  - intros H. assert (Hn : n > 0).
    { destruct H as (os & ss & is & _ & _ & _ & H). destruct ops as [|op ops]; [easy|]. destruct vs as [|v vs]; [easy|].
      cbn [length] in H, Gs. destruct (states_cons _ _ Gs) as (G1 & _ & _ & ES). rewrite ES in H.
      inversion H as [|? ? ? ? ? ? ? ? ? ? ? ? Hc _]; subst. inversion Sv; subst. inversion Gv; subst.
      apply (call_iff op v _ n) in Hc; tauto. }
    split; auto. apply join_runs; auto.
Qed.
Theorem join_once ops vs sts o s i :
  Forall genuine vs -> given_states (length ops) sts -> length vs = length ops ->
  call (Join ops) (Tup vs) (tuple_state sts) false = Ok (o, s, i) <->
  exists os ss is, o = Tup os /\ s = Tup ss /\ i = Tup is /\
    called_each false ops vs (states_for (length ops) sts) os ss is.
Proof.
  intros Gv Gs L. rewrite call_false_g.
  - now apply join_false.
  - now apply genuine_tup.
  - destruct sts; [|exact I]. simpl. apply genuine_tup. now destruct Gs.
Qed.
Theorem factory_true {A} (cls : A -> operator) args n vs sts outs sf s0 :
  (forall a, genuine_op (cls a)) -> Forall genuine vs -> Forall (is_series n) vs ->
  given_states (length args) sts -> length vs = length args -> args <> [] ->
  call (Factory cls args) (Tup vs) (tuple_state sts) true = Ok (outs, sf, s0) <->
  exists os ss is, outs = Tup os /\ sf = Tup ss /\ s0 = Tup is /\
    called_each true (map cls args) vs (states_for (length args) sts) os ss is.
Proof.
  intros Gc Gv Sv Gs L NE. unfold Factory. rewrite <- (map_length cls args) in *.
  apply (join_true n); auto.
  - apply Forall_map, Forall_forall. auto.
  - destruct args; [easy|discriminate].
Qed.
End JoinFacts.
