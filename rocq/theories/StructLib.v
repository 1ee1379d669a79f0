(** * StructLib: every typed operator keeps its structures, is part of the library and is wired. *)
From Coq Require Import String List ZArith Bool Lia.
From Verif Require Import Num Py PyFacts Tensor Streamable Spec SpecMeta StreamFacts TensorFacts StreamProofs
  WfFacts Meta Common Finance Library GenuineBase Genuine GenuineLib Structure StructFacts.
Import ListNotations.

Section StructLib.
Context {N : FOps}.
Hint Resolve genuine_pyok genuine_opt_pyok : core.

Lemma signature_obeys op k zo zs zx : signature op k zo zs -> length (elems zx) = k -> obeys op zx zo zs.
Proof.
  intros H L. destruct H; (eapply plain_obeys; [|exact L]);
    first [apply so_lag | apply so_sma | apply so_ema | apply so_rma | apply so_msd | apply so_bollinger | apply so_macd
          | apply so_zero | apply so_rsi | apply so_atr | apply so_supertrend | apply so_heikin | apply so_drawdown
          | apply so_sharpe | apply so_skewness | apply so_local | apply so_correlation | apply so_cross | apply so_auto
          | apply so_risk | apply so_global; first [apply wf_tless|apply wf_tgreater] | apply so_return; intros; fwd; wfa].
Qed.
Lemma signature_inputs op k zo zs : signature op k zo zs -> inputs_of op k.
Proof. intros []; constructor. Qed.
Lemma signature_library op k zo zs : signature op k zo zs -> library op.
Proof. intros []; apply lib_basic; constructor. Qed.

Lemma ob_stateless fn zx zo : fn_typed fn (elems zx) zo -> obeys (make_streamable fn) zx zo (Tup []).
Proof.
  intros Hf x st o s' i Gx Gs Ex Es H. cbn [forward_step make_streamable] in H.
  assert (Gp : Forall genuine (positional x)).
  { destruct x; cbn [positional]; auto; [now apply genuine_tup|now apply genuine_lst]. }
  assert (H' : (let* output := fn (positional x) in Ok (output, Tup [], Tup [])) = Ok (o, s', i)).
  { destruct st as [s|].
    - cbn in Es. destruct s as [|l|?|?|?]; try discriminate. rewrite sk_tup in Es. injection Es as Es.
      apply map_eq_nil in Es. subst l. rewrite app_nil_r in H. exact H.
    - rewrite app_nil_r in H. exact H. }
  clear H. binv H'. split; [|split; auto]. eapply (Hf (positional x)); eauto. symmetry. apply elems_sk.
Qed.

Lemma map1_sk (f : list val -> res val) v r : pyok v -> (forall t y, f [Leaf t] = Ok y -> sk y = one) ->
  map_fn f v [v] = Ok r -> sk r = sk v.
Proof.
  intros P Hf H.
  pose proof (map_fn_vmap f v P (fun t => t) [fun t => t]) as E. cbn [map] in E. rewrite !vmap_id in E. rewrite E in H. clear E.
  assert (Hd : forall a, In a (leaves v) -> f [Leaf a] =
    (let* y := (match f [Leaf a] with Ok (Leaf b) => Ok b | Ok _ => Err EType | Err e => Err e end) in Ok (Leaf y))).
  { intros a _. destruct (f [Leaf a]) as [y|e] eqn:E; [|reflexivity]. apply Hf in E. destruct y; try discriminate. reflexivity. }
  rewrite (vmapM_ext _ _ _ Hd) in H. apply (vmapM_iff dummy) in H as [_ ->]; [|exact P]. apply sk_vmap.
Qed.
Lemma ob_set_during v p zx : obeys (SetDuring v p) zx zx (Tup [one]).
Proof.
  intros x st o s' i Gx Gs Ex Es H. cbn [forward_step SetDuring] in H. unfold set_during_step in H. binv H.
  split; [|auto]. eapply map1_sk; [now apply genuine_pyok| |eassumption].
  intros t y Hy. cbn beta iota in Hy. binv Hy. eapply tf_cond_sk; [reflexivity| | |eassumption]; intros w Hw; binv Hw; reflexivity.
Qed.
Lemma sk_iter (x : val) l zs zx : sk x = zx -> zx = Tup zs \/ zx = Lst zs -> iter x = Ok l -> map sk l = zs.
Proof.
  intros E [->| ->] H; destruct x; try discriminate; apply ok_inj in H; subst l; [rewrite sk_tup in E|rewrite sk_lst in E]; congruence.
Qed.
Lemma ob_automaton trs q d zs zx zo : zx = Tup zs \/ zx = Lst zs ->
  Forall (fun t => fn_typed (tr_action t) zs zo) trs -> fn_typed d zs zo -> obeys (Automaton trs q d) zx zo one.
Proof.
  intros Hz Ht Hd x st o s' i Gx Gs Ex Es H. cbn [forward_step Automaton] in H. unfold automaton_step in H. binv H.
  pose proof (genuine_iter _ _ Gx E0) as Gins. pose proof (sk_iter _ _ _ _ eq_refl Hz E0) as Ei.
  match goal with H : tf_case _ _ _ = Ok ?r |- _ => assert (Er : sk r = Tup [zo; one]) end.
  { eapply tf_case_sk; [reflexivity| | |eassumption].
    - match goal with H : mapM _ trs = Ok ?r |- _ => rename H into Hm; apply mapM_ok_iff in Hm end.
      clear -Hm Ht Gins Ei. induction Hm as [|t c trs cs E _ IH]; constructor.
      + apply Forall_inv in Ht. binv E. cbn [snd]. intros w Hw. binv Hw.
        match goal with H : tr_action _ _ = Ok _ |- _ => apply Ht in H; auto end. sk_tac.
      + apply IH. now apply Forall_inv_tail in Ht.
    - intros w Hw. binv Hw. match goal with H : d _ = Ok _ |- _ => apply Hd in H; auto end. sk_tac. }
  skfwd. split; [|split]; auto.
Qed.

(** ** Map *)
Lemma ta_new_sk v n tas : pyok v -> ta_new_all v n = Ok tas -> sk tas = sk v.
Proof.
  intros P H. unfold ta_new_all in H. rewrite (map_fn1_pure (fun t => mkTA (dtype_of t) (repeat None n)) v P) in H.
  apply ok_inj in H. subst. apply sk_vmap.
Qed.
Lemma ta_write_sk i o tas r : pyok o -> sk tas = sk o -> ta_write_all i o tas = Ok r -> sk r = sk o.
Proof.
  intros P E H.
  assert (Eo : o = vmap (fun j => nth j (leaves o) dummy) (number 0 o)) by (symmetry; apply fill_number).
  assert (Et : tas = vmap (fun j => nth j (leaves tas) dummy_ta) (number 0 o)).
  { rewrite <- (number_sk tas o 0 E). symmetry. apply fill_number. }
  assert (Pn : pyok (number 0 o)). { apply pyok_sk. rewrite sk_number. now apply pyok_sk. }
  assert (H' : ta_write_all i (vmap (fun j => nth j (leaves o) dummy) (number 0 o))
                 (vmap (fun j => nth j (leaves tas) dummy_ta) (number 0 o)) = Ok r) by now rewrite <- Eo, <- Et.
  apply (ta_write_all_iff (number 0 o)) in H' as [_ ->]; [|exact Pn]. rewrite sk_vmap. apply sk_number.
Qed.
Lemma ta_stack_sk tas v : pyok tas -> ta_stack_all tas = Ok v -> sk v = sk tas.
Proof.
  intros P H.
  assert (E : tas = vmap (fun j => nth j (leaves tas) dummy_ta) (number 0 tas)) by (symmetry; apply fill_number).
  assert (Pn : pyok (number 0 tas)). { apply pyok_sk. rewrite sk_number. now apply pyok_sk. }
  rewrite E in H. apply (ta_stack_all_iff (number 0 tas)) in H as [_ ->]; [|exact Pn]. rewrite sk_vmap. apply sk_number.
Qed.
Lemma slice_sk i x y : pyok x -> slice_at i x = Ok y -> sk y = sk x.
Proof. intros P H. eapply map1_sk; [exact P| |exact H]. intros t w Hw. cbn beta iota in Hw. binv Hw. reflexivity. Qed.
Lemma map_fn_sk op x ps ov zo zs o s : obeys op (sk x) zo zs -> genuine_op op -> genuine x -> genuine ps -> genuine ov ->
  sk ps = zs -> sk ov = zo -> tf_map_fn op x ps ov = Ok (o, s) -> sk o = zo /\ sk s = zs.
Proof.
  intros Ho Gop Gx Gps Gov Es Eo H. unfold tf_map_fn in H. binv H.
  match goal with H : tf_while _ _ _ _ = Ok _ |- _ => rename H into Hw end.
  repeat match goal with H : ta_new_all ?v _ = Ok ?r |- _ =>
    let K := fresh in let P := fresh in assert (K : sk r = sk v) by (eapply ta_new_sk; [|exact H]; auto);
    assert (P : tas_ok r) by (eapply ta_new_all_ok; [|exact H]; auto); clear H end.
  assert (W : forall fuel c i a b i' a' b', tas_ok a -> tas_ok b -> sk a = sk ov -> sk b = sk ps ->
     tf_while fuel c (map_body op x ps ov) (i, a, b) = Ok (i', a', b') ->
     (tas_ok a' /\ tas_ok b') /\ sk a' = sk ov /\ sk b' = sk ps).
  { clear -Ho Gx Gps Gop. induction fuel as [|fuel IH]; intros c i a b i' a' b' Ha Hb Ea Eb E; cbn [tf_while] in E;
      destruct (c (i, a, b)); try discriminate.
    - binv E. auto.
    - apply bind_ok in E as ([[i1 a1] b1] & E1 & E2). cbn [map_body] in E1. binv E1.
      match goal with
      | H1 : slice_at _ x = Ok ?y, H2 : slice_at _ ps = Ok ?u, H : call _ _ _ _ = Ok _ |- _ =>
        pose proof (genuine_slice_at _ _ _ Gx H1) as Gy; pose proof (genuine_slice_at _ _ _ Gps H2) as Gu;
        destruct (genuine_call _ _ (Some _) _ _ _ Gop Gy Gu H) as (G1 & G2 & _);
        assert (Ey : sk y = sk x) by (eapply slice_sk; [|exact H1]; auto);
        assert (Eu : sk u = sk ps) by (eapply slice_sk; [|exact H2]; auto);
        destruct (call_obeys op _ _ _ _ (Some u) _ _ _ Ho Gy Gu Ey Eu H) as (K1 & K2 & _) end.
      match goal with
      | H1 : ta_write_all _ ?o1 a = Ok ?r1, H2 : ta_write_all _ ?o2 b = Ok ?r2 |- _ =>
        assert (sk r1 = sk o1) by (eapply ta_write_sk; [| |exact H1]; [auto|congruence]);
        assert (sk r2 = sk o2) by (eapply ta_write_sk; [| |exact H2]; [auto|congruence]);
        apply (ta_write_all_ok _ _ _ _ G1 Ha) in H1; apply (ta_write_all_ok _ _ _ _ G2 Hb) in H2 end.
      eapply IH; [| | | |exact E2]; auto; congruence.
    - binv E. auto. }
  match type of Hw with tf_while _ _ _ (?i, ?a, ?b) = _ => destruct (W _ _ i a b _ _ _ ltac:(assumption) ltac:(assumption) ltac:(assumption) ltac:(assumption) Hw) as ([Pa Pb] & Ea & Eb) end.
  repeat match goal with H : ta_stack_all ?a = Ok ?r |- _ => apply ta_stack_sk in H; [|now destruct Pa, Pb] end.
  split; congruence.
Qed.
Lemma ob_map op n zx zo zs : obeys op zx zo zs -> genuine_op op -> obeys (Map op n) zx zo (Tup [zs]).
Proof.
  intros Ho Gop x st o s' i Gx Gs Ex Es H. cbn [forward_step Map] in H. unfold map_step in H. binv H.
  match goal with
  | H1 : slice_at 0 x = Ok ?y, H : call _ _ None _ = Ok _ |- _ =>
    pose proof (genuine_slice_at _ _ _ Gx H1) as Gy;
    destruct (genuine_call _ _ None _ _ _ Gop Gy I H) as (Gov & _ & Gi);
    assert (Ey : sk y = sk x) by (eapply slice_sk; [|exact H1]; auto);
    destruct (call_obeys op _ _ _ _ None _ _ _ Ho Gy I Ey I H) as (K1 & _ & K3) end.
  match goal with H : match st with _ => _ end = Ok ?r |- _ => assert (Gst : genuine r /\ sk r = Tup [zs]) end.
  { destruct st; [binv E1; auto|]. binv E1.
    match goal with H : map_fn _ ?i _ = Ok ?r |- _ =>
      assert (Er : sk r = sk i) by (eapply map1_sk; [| |exact H]; [auto|]; intros t w Hw; cbn beta iota in Hw; binv Hw; reflexivity) end.
    split; [|sk_tac; congruence]. apply genuine_tup. fa. eapply genuine_map1; [|exact Gi|eassumption].
    intros [|[t|?|?|?|?] [|? ?]] y Hy; try discriminate; binv Hy.
    exists t. split; [reflexivity|]. split; [|exact I]. intros. apply genuine_leaf. now apply wf_tile0. }
  destruct Gst as [Gst Est]. skfwd. fwd.
  match goal with H : tf_map_fn _ _ _ _ = Ok _ |- _ => eapply map_fn_sk in H as [A B]; eauto end.
  split; [exact A|]. split; sk_tac.
Qed.

(** ** FFill *)
Lemma ob_ffill op zx zo zs : obeys op zx zo zs -> genuine_op op -> unbox zo = zo -> unbox zs = zs ->
  obeys (FFill op) zx zo (Tup [zo; zs]).
Proof.
  intros Ho Gop Uo Us x st o s' i Gx Gs Ex Es H. cbn [forward_step FFill] in H. unfold ffill_step in H. binv H.
  match goal with H : match st with _ => _ end = Ok (?a, ?b) |- _ => rename H into Hst; rename a into po; rename b into ps end.
  assert (K : genuine_opt ps /\ state_like ps zs /\ state_like po zo /\ (st = None -> ps = None) ).
  { destruct st as [s|]; binv Hst; [|now split; [exact I|split; [exact I|split; [exact I|]]]]. cbn in Es, Gs. skfwd. split; [|auto].
    - cbn. eapply genuine_item; [|eassumption]; assumption.
    - split; [assumption|]. split; [assumption|]. discriminate. }
  destruct K as (Gps & Eps & Epo & Hn).
  match goal with H : call _ _ _ _ = Ok _ |- _ =>
    destruct (genuine_call _ _ _ _ _ _ Gop Gx Gps H) as (Go & Gn & Gi);
    destruct (call_obeys op _ _ _ _ _ _ _ _ Ho Gx Gps eq_refl Eps H) as (K1 & K2 & K3) end.
  match goal with H : match po with _ => _ end = Ok ?r |- _ => assert (Er : sk r = zo) end.
  { destruct po; [apply ok_inj in E2; subst; exact Epo|]. rewrite <- K1. eapply map1_sk; [auto| |eassumption].
    intros t w Hw. cbn beta iota in Hw. binv Hw. reflexivity. }
  match goal with H : tf_cond _ (Ok ?a) (Ok ?b) = Ok ?r |- _ => assert (Eo : sk r = zo) by
    (eapply tf_cond_sk; [exact Uo| | |exact H]; intros w Hw; apply ok_inj in Hw; rewrite <- Hw; assumption) end.
  match goal with H : (if is_unit_tuple ?i then _ else _) = Ok ?r |- _ => assert (Esr : sk r = zs) end.
  { destruct (is_unit_tuple _) eqn:Eu; [apply ok_inj in E4; subst|].
    - destruct v0 as [|[|? ?]|?|?|?]; try discriminate Eu. exact K3.
    - eapply tf_cond_sk; [exact Us| | |eassumption]; intros w Hw; apply ok_inj in Hw; rewrite <- Hw; auto. destruct ps; auto. }
  split; [exact Eo|]. split; sk_tac.
Qed.

(** ** Join and Compose *)
Definition good_op (op : operator) (zx zo zs : pyval unit) : Prop := obeys op zx zo zs /\ library op.
Lemma states_like (ops : list operator) st zss l : state_like st (Tup zss) -> length zss = length ops ->
  match st with
  | None => Ok (repeat None (length ops))
  | Some s => let* l := iter s in Ok (map Some l)
  end = Ok l -> Forall2 state_like l zss.
Proof.
  intros Es L H. destruct st as [s|].
  - cbn in Es. destruct s; try discriminate. rewrite sk_tup in Es. injection Es as <-. cbn in H. apply ok_inj in H. subst l.
    clear. induction l0; constructor; auto. reflexivity.
  - apply ok_inj in H. subst l. revert ops L. clear. induction zss as [|z zss IH]; intros [|o ops] L; try discriminate; constructor; [exact I|].
    apply IH. now injection L.
Qed.
Inductive good_all : list operator -> list (pyval unit) -> list (pyval unit) -> list (pyval unit) -> Prop :=
| ga_nil : good_all [] [] [] []
| ga_cons op ops zx zxs zo zos zs zss : good_op op zx zo zs -> good_all ops zxs zos zss ->
    good_all (op :: ops) (zx :: zxs) (zo :: zos) (zs :: zss).
Inductive good_chain : list operator -> pyval unit -> pyval unit -> list (pyval unit) -> Prop :=
| gc_last op zx zo zs : good_op op zx zo zs -> good_chain [op] zx zo [zs]
| gc_next op ops zx zm zo zs zss : good_op op zx zm zs -> good_chain ops zm zo zss ->
    good_chain (op :: ops) zx zo (zs :: zss).
Lemma good_all_length ops zxs zos zss : good_all ops zxs zos zss -> length zss = length ops /\ Forall library ops.
Proof. induction 1 as [|? ? ? ? ? ? ? ? [_ L] _ [IH1 IH2]]; cbn; auto. Qed.
Lemma good_chain_length ops zx zo zss : good_chain ops zx zo zss -> length zss = length ops /\ Forall library ops.
Proof. induction 1 as [? ? ? ? [_ L]|? ? ? ? ? ? ? [_ L] _ [IH1 IH2]]; cbn; auto. Qed.
Lemma join_loop_sk ops zxs zos zss : good_all ops zxs zos zss -> forall ins sts outs nexts inits,
  Forall genuine ins -> Forall genuine_opt sts -> map sk ins = zxs -> Forall2 state_like sts zss ->
  join_loop (combine ops (combine ins sts)) = Ok (outs, nexts, inits) ->
  map sk outs = zos /\ map sk nexts = zss /\ map sk inits = zss.
Proof.
  induction 1 as [|op ops zx zxs zo zos zs zss [Ho L] _ IH]; intros ins sts outs nexts inits Gi Gs Ei Es H.
  - cbn in H. binv H. auto.
  - destruct ins as [|x ins]; [discriminate|]. inversion Es as [|st z1 sts' zl E1 E2 EA EB]; clear Es; subst sts z1 zl. cbn [map] in Ei. injection Ei as Ex Ei.
    cbn [combine join_loop] in H. apply bind_ok in H as ([[o1 s1] i1] & Hc & H). apply bind_ok in H as ([[os' ns'] is'] & Hl & H).
    apply ok_inj, pair_inj in H as [H <-]. apply pair_inj in H as [<- <-].
    match goal with H : call _ _ _ _ = Ok _ |- _ =>
      destruct (call_obeys op _ _ _ _ _ _ _ _ Ho (Forall_inv Gi) (Forall_inv Gs) Ex E1 H) as (K1 & K2 & K3) end.
    match goal with H : join_loop _ = Ok _ |- _ =>
      destruct (IH ins sts' _ _ _ (Forall_inv_tail Gi) (Forall_inv_tail Gs) Ei E2 H) as (J1 & J2 & J3) end.
    cbn [map]. repeat split; congruence.
Qed.
Lemma ob_join ops zx zxs zos zss : zx = Tup zxs \/ zx = Lst zxs -> good_all ops zxs zos zss ->
  obeys (Join ops) zx (Tup zos) (Tup zss).
Proof.
  intros Hz Ha x st o s' i Gx Gs Ex Es H. cbn [forward_step Join] in H. unfold join_step in H.
  apply bind_ok in H as (sts & Hs & H). apply bind_ok in H as (ins & Hi & H). apply bind_ok in H as ([[outs nexts] inits] & Hj & H).
  apply ok_inj, pair_inj in H as [H <-]. apply pair_inj in H as [<- <-].
  destruct (good_all_length _ _ _ _ Ha) as [L _].
  destruct (join_loop_sk _ _ _ _ Ha ins sts outs nexts inits) as (J1 & J2 & J3); auto.
  - eapply genuine_iter; eauto.
  - eapply genuine_states; eauto.
  - eapply sk_iter; eauto.
  - eapply states_like; eauto.
  - rewrite !sk_tup. repeat split; congruence.
Qed.
Lemma compose_loop_sk ops zx zo zss : good_chain ops zx zo zss -> forall x sts out o nexts inits,
  genuine x -> Forall genuine_opt sts -> sk x = zx -> Forall2 state_like sts zss ->
  compose_loop (combine ops sts) x out = Ok (o, nexts, inits) ->
  option_map sk o = Some zo /\ map sk nexts = zss /\ map sk inits = zss.
Proof.
  induction 1 as [op zx zo zs [Ho L]|op ops zx zm zo zs zss [Ho L] _ IH]; intros x sts out o nexts inits Gx Gs Ex Es H.
  - inversion Es as [|st z1 sts' zl E1 E2 EA EB]; clear Es; subst sts z1 zl. inversion E2; clear E2; subst sts'.
    cbn [combine compose_loop bind] in H. apply bind_ok in H as ([[o1 s1] i1] & Hc & H).
    apply ok_inj, pair_inj in H as [H <-]. apply pair_inj in H as [<- <-].
    match goal with H : call _ _ _ _ = Ok _ |- _ =>
      destruct (call_obeys op _ _ _ _ _ _ _ _ Ho Gx (Forall_inv Gs) Ex E1 H) as (K1 & K2 & K3) end.
    cbn [option_map map]. repeat split; congruence.
  - inversion Es as [|st z1 sts' zl E1 E2 EA EB]; clear Es; subst sts z1 zl.
    cbn [combine compose_loop] in H. apply bind_ok in H as ([[o1 s1] i1] & Hc & H). apply bind_ok in H as ([[os' ns'] is'] & Hl & H).
    apply ok_inj, pair_inj in H as [H <-]. apply pair_inj in H as [<- <-].
    match goal with H : call _ _ _ _ = Ok _ |- _ =>
      destruct (genuine_call _ _ _ _ _ _ (library_genuine _ L) Gx (Forall_inv Gs) H) as (Go & _ & _);
      destruct (call_obeys op _ _ _ _ _ _ _ _ Ho Gx (Forall_inv Gs) Ex E1 H) as (K1 & K2 & K3) end.
    match goal with H : compose_loop _ _ _ = Ok _ |- _ =>
      destruct (IH _ sts' _ _ _ _ Go (Forall_inv_tail Gs) K1 E2 H) as (J1 & J2 & J3) end.
    cbn [map]. repeat split; congruence.
Qed.
Lemma ob_compose ops zx zo zss : good_chain (rev ops) zx zo zss -> obeys (Compose ops) zx zo (Tup zss).
Proof.
  intros Ha x st o s' i Gx Gs Ex Es H. cbn [forward_step Compose] in H. unfold compose_step in H.
  apply bind_ok in H as (sts & Hs & H). apply bind_ok in H as ([[out nexts] inits] & Hj & H).
  destruct out as [out|]; [|discriminate]. apply ok_inj, pair_inj in H as [H <-]. apply pair_inj in H as [<- <-].
  destruct (good_chain_length _ _ _ _ Ha) as [L _].
  destruct (compose_loop_sk _ _ _ _ Ha x sts None (Some out) nexts inits) as (J1 & J2 & J3); auto.
  - eapply genuine_states; eauto.
  - eapply states_like; eauto.
  - rewrite !sk_tup. cbn in J1. repeat split; congruence.
Qed.

(** ** The whole library *)
Theorem typed_good :
  (forall op zx zo zs, typed op zx zo zs -> good_op op zx zo zs) /\
  (forall ops zxs zos zss, typed_all ops zxs zos zss -> good_all ops zxs zos zss) /\
  (forall ops zx zo zss, typed_chain ops zx zo zss -> good_chain ops zx zo zss).
Proof.
  apply typed_mutual.
  - intros op k zx zo zs Hs L. split; [eapply signature_obeys; eauto|eapply signature_library; eauto].
  - intros fn zx zo Hl Hf. split; [now apply ob_stateless|exact Hl].
  - intros v p zx W. split; [apply ob_set_during|now apply lib_basic, lib_set_during].
  - intros trs i d zs zx zo H1 H2 Hz Ht Hd. split; [now apply (ob_automaton trs i d zs)|]. apply lib_basic, lib_automaton; assumption.
  - intros op n zx zo zs _ [Ho L]. split; [apply ob_map; auto; now apply library_genuine|now apply lib_map].
  - intros op zx zo zs _ [Ho L] U1 U2. split; [apply ob_ffill; auto; now apply library_genuine|now apply lib_ffill].
  - intros ops zx zxs zos zss Hz _ Ha. split; [eapply ob_join; eauto|]. apply lib_join. now destruct (good_all_length _ _ _ _ Ha).
  - intros ops zx zo zss _ Ha. split; [now apply ob_compose|]. apply lib_compose. destruct (good_chain_length _ _ _ _ Ha) as [_ H].
    rewrite <- (rev_involutive ops). now apply Forall_rev.
  - constructor.
  - intros. now constructor.
  - intros. now constructor.
  - intros. econstructor; eauto.
Qed.
Lemma typed_library op zx zo zs : typed op zx zo zs -> library op.
Proof. intros H. exact (proj2 (proj1 typed_good _ _ _ _ H)). Qed.
Lemma typed_genuine op zx zo zs : typed op zx zo zs -> genuine_op op.
Proof. intros H. eapply library_genuine, typed_library, H. Qed.
Lemma typed_call op zo zs x st o s' i : typed op (sk x) zo zs -> genuine x -> genuine_opt st -> state_like st zs ->
  call op x st false = Ok (o, s', i) -> sk o = zo /\ sk s' = zs /\ sk i = zs.
Proof. intros H Gx Gs Es E. apply (proj1 typed_good) in H as [H _]. exact (call_obeys _ _ _ _ _ _ _ _ _ H Gx Gs eq_refl Es E). Qed.
Lemma typed_keeps op zx zo zs xs : typed op zx zo zs -> (forall x, In x xs -> genuine x /\ sk x = zx) -> keeps_structure op zs zo xs.
Proof.
  intros H Hx x s o s' i Hi Gs Es E. destruct (Hx x Hi) as [Gx Ex]. subst zx.
  destruct (typed_call op zo zs x (Some s) o s' i H Gx Gs Es E) as (A & B & _). auto.
Qed.
Lemma steps_sk op zx zo zs : typed op zx zo zs -> forall xs s os sf, (forall x, In x xs -> genuine x /\ sk x = zx) ->
  genuine s -> sk s = zs -> steps op s xs = Ok (os, sf) -> Forall (fun o => sk o = zo) os /\ sk sf = zs.
Proof.
  intros H xs. induction xs as [|x xs IH]; intros s os sf Hx Gs Es E.
  - cbn in E. apply ok_inj, pair_inj in E as [<- <-]. auto.
  - cbn [steps] in E. apply bind_ok in E as ([[o s'] i] & E1 & E). apply bind_ok in E as ([os' sf'] & E2 & E).
    apply ok_inj, pair_inj in E as [<- <-].
    destruct (Hx x (or_introl eq_refl)) as [Gx Ex]. subst zx.
    destruct (typed_call op zo zs x (Some s) o s' i H Gx Gs Es E1) as (A & B & _).
    destruct (genuine_call _ _ (Some s) _ _ _ (typed_genuine _ _ _ _ H) Gx Gs E1) as (_ & Gs' & _).
    destruct (IH s' os' sf' (fun y Hy => Hx y (or_intror Hy)) Gs' B E2) as [F1 F2]. auto.
Qed.
Lemma sk_row i v : sk (row i v) = sk v.
Proof. apply sk_vmap. Qed.
Lemma typed_uniform op v st n zo zs : typed op (sk v) zo zs -> genuine v -> genuine_opt st -> is_series n v -> n > 0 ->
  state_like st zs -> uniform sk op st v n.
Proof.
  intros H Gv Gs Hv Hn Es. exists zo.
  assert (G0 : genuine (row 0 v)) by (apply (genuine_row n); auto).
  assert (H0 : typed op (sk (row 0 v)) zo zs) by now rewrite sk_row.
  split.
  - intros o s' i E. now destruct (typed_call op zo zs (row 0 v) st o s' i H0 G0 Gs Es E).
  - intros s0 os sf S0 E.
    assert (K : genuine s0 /\ sk s0 = zs).
    { destruct st as [s|]; cbn in S0.
      - subst. auto.
      - destruct S0 as (o & s' & S0). destruct (typed_call op zo zs (row 0 v) None o s' s0 H0 G0 I I S0) as (_ & _ & K).
        destruct (genuine_call _ _ None _ _ _ (typed_genuine _ _ _ _ H) G0 I S0) as (_ & _ & G). auto. }
    destruct K as [G Ez]. eapply (steps_sk op (sk v)); eauto. intros x Hx. unfold rows in Hx. apply in_map_iff in Hx as (i & <- & Hi).
    apply in_seq in Hi. split; [apply (genuine_row n); auto; lia|apply sk_row].
Qed.
(** ** Typed operators are wired *)
Theorem typed_wired_all :
  (forall op zx zo zs, typed op zx zo zs -> forall x, genuine x -> sk x = zx -> wired op x) /\
  (forall ops zxs zos zss, typed_all ops zxs zos zss -> forall l, Forall genuine l -> map sk l = zxs -> wired_all ops l) /\
  (forall ops zx zo zss, typed_chain ops zx zo zss -> forall x, genuine x -> sk x = zx -> wired_chain ops x).
Proof.
  assert (TG := typed_good). destruct TG as (TG1 & TG2 & TG3).
  apply typed_mutual.
  - intros op k zx zo zs Hs L x Gx Ex. eapply wired_step; [eapply signature_inputs; eauto|]. subst. now rewrite elems_sk, map_length.
  - intros. now apply wired_stateless.
  - intros. now apply wired_set_during.
  - intros trs i d zs zx zo H1 H2 Hz Ht Hd x Gx Ex. apply wired_automaton, lib_basic, lib_automaton; assumption.
  - intros op n zx zo zs H IH x Gx Ex. apply wired_map. exact (proj2 (TG1 _ _ _ _ H)).
  - intros op zx zo zs H IH U1 U2 x Gx Ex. apply wired_ffill; [exact (proj2 (TG1 _ _ _ _ H))|auto].
  - intros ops zx zxs zos zss Hz H IH x Gx Ex.
    assert (exists l, iter x = Ok l /\ map sk l = zxs) as (l & Hl & El).
    { destruct x; destruct Hz as [Hz|Hz]; rewrite Hz in Ex; try discriminate; eexists; (split; [reflexivity|]);
        [rewrite sk_tup in Ex|rewrite sk_lst in Ex]; congruence. }
    eapply wired_join; [|exact Hl|].
    + apply TG2, good_all_length in H. tauto.
    + apply IH; auto. eapply genuine_iter; eauto.
  - intros ops zx zo zss H IH x Gx Ex. apply wired_compose; auto.
    apply TG3, good_chain_length in H as [_ H]. rewrite <- (rev_involutive ops). now apply Forall_rev.
  - intros l _ El. apply map_eq_nil in El. subst. apply wired_none. now left.
  - intros op ops zx zxs zo zos zs zss _ IH1 _ IH2 l Gl El. destruct l as [|x l]; [discriminate|]. cbn [map] in El. injection El as Ex El.
    apply wired_more; [apply IH1|apply IH2]; auto; [now apply Forall_inv in Gl|now apply Forall_inv_tail in Gl].
  - intros op zx zo zs _ IH x Gx Ex. apply wired_cons; auto. intros. constructor.
  - intros op ops zx zm zo zs zss H IH _ IHc x Gx Ex. apply wired_cons; auto. intros o s i E. subst zx.
    destruct (typed_call op zm zs x None o s i H Gx I I E) as (A & _ & _).
    destruct (genuine_call _ _ None _ _ _ (typed_genuine _ _ _ _ H) Gx I E) as (G & _ & _). auto.
Qed.
Lemma typed_wired op x zo zs : typed op (sk x) zo zs -> genuine x -> wired op x.
Proof. intros H G. destruct typed_wired_all as [T _]. exact (T _ _ _ _ H x G eq_refl). Qed.
End StructLib.
