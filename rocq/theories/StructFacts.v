(** * StructFacts: operators keep the structures listed in Structure.v. *)
From Coq Require Import String List ZArith Bool Lia.
From Verif Require Import Num Py PyFacts Tensor Streamable Spec StreamFacts TensorFacts StreamProofs
  WfFacts Meta Common Finance Library GenuineBase Genuine GenuineLib Structure.
Import ListNotations.

Section StructFacts.
Context {N : FOps}.

Definition obeys (op : operator) (zx zo zs : pyval unit) : Prop :=
  forall x st o s' i, genuine x -> genuine_opt st -> sk x = zx -> state_like st zs ->
    forward_step op x st = Ok (o, s', i) -> sk o = zo /\ sk s' = zs /\ sk i = zs.

Lemma sk_leaf (t : tensor) : sk (Leaf t) = one. Proof. reflexivity. Qed.
Lemma sk_tup (l : list val) : sk (Tup l) = Tup (map sk l). Proof. reflexivity. Qed.
Lemma sk_lst (l : list val) : sk (Lst l) = Lst (map sk l). Proof. reflexivity. Qed.
Lemma sk_as_t v t : as_t v = Ok t -> sk v = one.
Proof. destruct v; intros H; try discriminate. reflexivity. Qed.
Lemma sk_unpack (v : val) : sk (unpack_singleton v) = unbox (sk v).
Proof. destruct v as [|[|x [|? ?]]|[|x [|? ?]]|?|?]; reflexivity. Qed.
Lemma tf_cond_sk p a b r z : unbox z = z -> (forall v, a = Ok v -> sk v = z) -> (forall v, b = Ok v -> sk v = z) ->
  tf_cond p a b = Ok r -> sk r = z.
Proof.
  intros U Ha Hb H. apply tf_cond_either in H as (v & E & ->). rewrite !sk_unpack.
  assert (sk v = z) as -> by (destruct E; auto). congruence.
Qed.
Lemma tf_case_sk cases d e r z : unbox z = z ->
  Forall (fun c => forall v, snd c = Ok v -> sk v = z) cases -> (forall v, d = Ok v -> sk v = z) ->
  tf_case cases d e = Ok r -> sk r = z.
Proof.
  intros U Hc Hd H. unfold tf_case in H. apply bind_ok in H as (? & _ & H). destruct (_ && _); [discriminate|].
  revert r H. induction Hc as [|[p v] cases Hv _ IH]; simpl; intros r H; [auto|].
  eapply tf_cond_sk; [exact U| | |exact H]; auto.
Qed.
Lemma item_sk (v x : val) zs k : sk v = Tup zs -> item v k = Ok x -> nth_error zs k = Some (sk x).
Proof.
  destruct v; try discriminate. intros H. rewrite sk_tup in H. injection H as <-. cbn [item].
  destruct (nth_error l k) eqn:E; [|discriminate]. intros H. apply ok_inj in H. subst.
  exact (map_nth_error sk k l E).
Qed.
Lemma call_obeys op zx zo zs x st o s' i : obeys op zx zo zs -> genuine x -> genuine_opt st -> sk x = zx ->
  state_like st zs -> call op x st false = Ok (o, s', i) -> sk o = zo /\ sk s' = zs /\ sk i = zs.
Proof. intros H Gx Gs Ex Es E. rewrite call_false_g in E by auto. exact (H _ _ _ _ _ Gx Gs Ex Es E). Qed.

(** ** Operators with positional arguments *)
Lemma elems_sk (x : val) : elems (sk x) = map sk (positional x).
Proof. destruct x; reflexivity. Qed.
Definition step_obeys (step : list val -> res out3) (k : nat) (zo zs : pyval unit) : Prop :=
  forall ins sts o s' i, length ins = k -> Forall genuine (ins ++ sts) -> sts = [] \/ map sk sts = elems zs ->
    step (ins ++ sts) = Ok (o, s', i) -> sk o = zo /\ sk s' = zs /\ sk i = zs.
Lemma plain_obeys step k zo zs zx : step_obeys step k zo zs -> length (elems zx) = k -> obeys (Plain step) zx zo zs.
Proof.
  intros Hs Lk x st o s' i Gx Gs Ex Es H.
  assert (Gp : forall y : val, genuine y -> Forall genuine (positional y)).
  { intros [t|l|l|l|l] G; cbn [positional]; auto; [now apply genuine_tup|now apply genuine_lst]. }
  assert (Lp : length (positional x) = k) by (subst zx; rewrite elems_sk, map_length in Lk; exact Lk).
  destruct st as [s|].
  - change (step (positional x ++ positional s) = Ok (o, s', i)) in H.
    apply (Hs (positional x) (positional s) o s' i Lp); auto.
    + apply Forall_app. auto.
    + right. rewrite <- elems_sk. cbn in Es. congruence.
  - change (step (positional x ++ []) = Ok (o, s', i)) in H.
    apply (Hs (positional x) [] o s' i Lp); auto. rewrite app_nil_r. auto.
Qed.
End StructFacts.

Ltac explicit_sts := repeat match goal with
  | E : map sk ?l = elems ?z |- _ => unfold z_sma, z_ema, z_atr, z_correlation, z_cross, many in E; cbn [elems repeat] in E
  | E : map sk ?l = _ :: _ |- _ => destruct l; [discriminate E|]; cbn [map] in E; injection E as ? E
  | E : map sk ?l = [] |- _ => apply map_eq_nil in E; subst
  end.
Ltac explicit_ins := repeat match goal with
  | L : length ?l = S _ |- _ => destruct l; [discriminate L|]; cbn [length] in L; injection L as L
  | L : length ?l = 0 |- _ => destruct l; [clear L|discriminate L]
  end.
Ltac sk_tac := rewrite ?sk_tup, ?sk_leaf; cbn [map];
  repeat match goal with H : sk ?v = _ |- context [sk ?v] => rewrite H end; try reflexivity; try assumption.
Ltac knows r := lazymatch goal with _ : sk r = _ |- _ => fail | |- _ => idtac end.
Ltac skfwd := repeat match goal with
  | H : as_t ?v = Ok _ |- _ => knows v; pose proof (sk_as_t _ _ H)
  | H : item ?v _ = Ok ?x, E : sk ?v = Tup _ |- _ => knows x;
      let K := fresh in pose proof (item_sk _ _ _ _ E H) as K; cbn [nth_error] in K; injection K as K; symmetry in K
  | H : call ?op ?x ?st false = Ok (?o, ?s, ?i), I : forall z, length (elems z) = _ -> obeys ?op z _ _ |- _ => knows s;
      let K := fresh in
      pose proof (call_obeys op (sk x) _ _ x st o s i (I (sk x) eq_refl)) as K;
      destruct K as (? & ? & K); [ga|cbn [genuine_opt]; first [exact Logic.I|ga]|reflexivity|cbn [state_like]; first [exact Logic.I|assumption]|exact H|]
  end.
Ltac cond_is z := 
  match goal with H : tf_cond _ _ _ = Ok ?r |- _ => knows r;
    assert (sk r = z) by (eapply tf_cond_sk; [reflexivity| | |exact H];
      let u := fresh in let E := fresh in intros u E; binv E; sk_tac) end.
Ltac case_is z := 
  match goal with H : tf_case _ _ _ = Ok ?r |- _ => knows r;
    assert (sk r = z) by (eapply tf_case_sk; [reflexivity| | |exact H]; [fa; cbn [snd]|];
      let u := fresh in let E := fresh in intros u E; binv E; sk_tac) end.
Ltac split_forall G := lazymatch type of G with
  | Forall _ (_ :: _) => let T := fresh "T" in pose proof (Forall_inv G); pose proof (Forall_inv_tail G) as T; split_forall T
  | _ => clear G end.
Ltac open_step :=
  let Lk := fresh "Lk" in let G := fresh "G" in let E := fresh "E" in let H := fresh "H" in
  intros ins sts o s' i Lk G [->|E] H; explicit_ins; explicit_sts; cbn [app] in G, H;
  binv H; fwd; split_forall G; cbn [nth_error] in *; unfold targ, targ_or in *; cbn [nth_error] in *; skfwd.
Ltac close_step := split; [sk_tac|split; sk_tac].

Section StructSteps.
Context {N : FOps}.
Lemma so_lag p : step_obeys (lag_step p) 1 one one.
Proof. unfold lag_step. open_step; close_step. Qed.
Lemma ob_lag p z : length (elems z) = 1 -> obeys (Lag p) z one one.
Proof. apply plain_obeys, so_lag. Qed.
Lemma so_sma p : step_obeys (sma_step p) 1 one z_sma.
Proof. unfold sma_step. open_step; close_step. Qed.
Lemma ob_sma p z : length (elems z) = 1 -> obeys (SimpleMovingAverage p) z one z_sma.
Proof. apply plain_obeys, so_sma. Qed.
Lemma so_ema p : step_obeys (ema_step p) 1 one z_ema.
Proof.
  pose proof (genuine_sma p). pose proof (ob_sma p). unfold ema_step. open_step.
  all: cond_is (Tup [one; z_sma]); skfwd; close_step.
Qed.
Lemma ob_ema p z : length (elems z) = 1 -> obeys (ExponentialMovingAverage p) z one z_ema.
Proof. apply plain_obeys, so_ema. Qed.
Lemma so_rma p : step_obeys (rma_step p) 1 one z_ema.
Proof.
  pose proof (genuine_sma p). pose proof (ob_sma p). unfold rma_step. open_step.
  all: cond_is (Tup [one; z_sma]); skfwd; close_step.
Qed.
Lemma ob_rma p z : length (elems z) = 1 -> obeys (RollingMovingAverage p) z one z_ema.
Proof. apply plain_obeys, so_rma. Qed.
Lemma so_msd p : step_obeys (msd_step p) 1 one (many 2).
Proof. unfold msd_step. open_step; close_step. Qed.
Lemma ob_msd p z : length (elems z) = 1 -> obeys (MovingStandardDeviation p) z one (many 2).
Proof. apply plain_obeys, so_msd. Qed.
Lemma so_bollinger n k : step_obeys (bollinger_step n k) 1 (many 3) (Tup [many 2; z_sma]).
Proof.
  pose proof (genuine_sma n). pose proof (ob_sma n). pose proof (genuine_msd n). pose proof (ob_msd n).
  unfold bollinger_step. open_step; close_step.
Qed.
Lemma so_return f p : (forall t r, wf t -> f t = Ok r -> wf r) -> step_obeys (return_step f p) 1 one (many 2).
Proof.
  intros Hf. unfold return_step. intros ins sts o s' i Lk G [->|E] H; explicit_ins; explicit_sts; cbn [app] in G, H; binv H; close_step.
Qed.
Lemma so_macd s f m : step_obeys (macd_step s f m) 1 (many 5) (Tup [one; z_ema; z_ema; z_ema]).
Proof.
  pose proof (genuine_ema s). pose proof (genuine_ema f). pose proof (genuine_ema m).
  pose proof (ob_ema s). pose proof (ob_ema f). pose proof (ob_ema m). unfold macd_step. open_step.
  all: cond_is (Tup [one; z_ema]); skfwd; close_step.
Qed.
Lemma so_zero : step_obeys zero_crossover_step 1 one (many 2).
Proof. unfold zero_crossover_step. open_step. all: cond_is (many 2); unfold many in *; cbn [repeat] in *; skfwd; close_step. Qed.
Lemma so_rsi p : step_obeys (rsi_step p) 1 one (many 4).
Proof.
  pose proof (genuine_lag p). pose proof (ob_lag p). unfold rsi_step. open_step.
  all: case_is (many 3); unfold many in *; cbn [repeat] in *; skfwd; close_step.
Qed.
Lemma so_atr p : step_obeys (atr_step p) 3 one z_atr.
Proof. pose proof (genuine_rma p). pose proof (ob_rma p). unfold atr_step. open_step; close_step. Qed.
Lemma ob_atr p z : length (elems z) = 3 -> obeys (AverageTrueRange p) z one z_atr.
Proof. apply plain_obeys, so_atr. Qed.
Lemma so_supertrend p f : step_obeys (supertrend_step p f) 3 one (Tup [z_atr; one; one; one; one]).
Proof.
  pose proof (genuine_atr p). pose proof (ob_atr p). unfold supertrend_step, supertrend_warmup. open_step.
  all: cond_is (many 4); unfold many in *; cbn [repeat] in *; skfwd; close_step.
Qed.
Lemma so_heikin : step_obeys heikin_ashi_step 4 (many 4) (many 2).
Proof. unfold heikin_ashi_step. open_step; close_step. Qed.
Lemma so_drawdown : step_obeys drawdown_step 1 (many 2) (many 2).
Proof. unfold drawdown_step. open_step; close_step. Qed.
Lemma so_sharpe p : step_obeys (sharpe_step p) 2 one (many 2).
Proof. unfold sharpe_step. open_step; close_step. Qed.
Lemma so_skewness p : step_obeys (skewness_step p) 1 one (many 2).
Proof. unfold skewness_step. open_step; close_step. Qed.
Lemma so_global cmp : (forall t u r, wf t -> wf u -> cmp t u = Ok r -> wf r) -> step_obeys (global_step cmp) 1 one (many 2).
Proof. intros Hc. unfold global_step. open_step. all: cond_is one; close_step. Qed.
Lemma so_local red ired p : step_obeys (local_step red ired p) 1 one (many 2).
Proof. unfold local_step. open_step. all: cond_is one; close_step. Qed.
Lemma so_correlation p : step_obeys (correlation_step p) 2 one z_correlation.
Proof. unfold correlation_step. open_step. all: cond_is one; close_step. Qed.
Lemma ob_correlation p z : length (elems z) = 2 -> obeys (Correlation p) z one z_correlation.
Proof. apply plain_obeys, so_correlation. Qed.
Lemma so_cross p l : step_obeys (cross_correlation_step p l) 2 one z_cross.
Proof.
  pose proof (genuine_correlation p). pose proof (ob_correlation p). unfold cross_correlation_step. open_step.
  all: cond_is (Tup [one; z_correlation]); skfwd; close_step.
Qed.
Lemma ob_cross p l z : length (elems z) = 2 -> obeys (CrossCorrelation p l) z one z_cross.
Proof. apply plain_obeys, so_cross. Qed.
Lemma so_auto p l : step_obeys (auto_correlation_step p l) 1 one (Tup [z_cross]).
Proof. pose proof (genuine_cross p l). pose proof (ob_cross p l). unfold auto_correlation_step. open_step; close_step. Qed.
Lemma so_risk s l p m : step_obeys (risk_ratio_step s l p m) 4 (many 4) (Tup [one; one; one; one; one; one; many 2]).
Proof.
  pose proof (genuine_msd p). pose proof (ob_msd p). unfold risk_ratio_step. open_step;
  match goal with H : tf_case _ _ _ = Ok ?r |- _ => assert (Er : sk r = many 7) by
    (eapply tf_case_sk; [reflexivity| | |exact H];
      [ do 3 (apply Forall_cons; [cbn [snd]; intros u Hu; binv Hu; sk_tac|]);
        match goal with H : match m with _ => _ end = Ok _ |- _ => destruct m; binv H end; fa; cbn [snd];
        intros u Hu; binv Hu; sk_tac
      | intros u Hu; binv Hu; sk_tac ]) end;
  unfold many in *; cbn [repeat] in *; skfwd;
  match goal with H : iter ?r = Ok ?ns, E : sk ?r = Tup _ |- _ =>
    destruct r as [|lr|lr|lr|lr]; try discriminate; cbn [iter] in H; apply ok_inj in H; subst ns; rewrite sk_tup in E; injection E as E end;
  explicit_sts; cbn [firstn app]; close_step.
Qed.
End StructSteps.
