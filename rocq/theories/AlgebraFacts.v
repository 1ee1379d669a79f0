(** * AlgebraFacts: laws of Compose, Join, Map and FFill (C54). *)
From Coq Require Import List ZArith Bool Lia.
From Verif Require Import Num Py PyFacts Tensor Streamable Spec SpecMeta Meta Common Finance Library
  HelperFacts StreamProofs RunFacts FillFacts JoinFacts ComposeFacts GenuineBase GenuineLib InitLib MapFacts StatelessFacts SpecHelpers
  StructProofs Shapes ShapeFacts ShapeProofs ShapeStream ShapeInit ShapeMap ShapeLib ShapeMain Algebra.
Import ListNotations.

Section AlgebraFacts.
Context {N : FOps}.

Lemma gives_one op v o o' : gives op v o -> gives op v o' -> o = o'.
Proof. intros (s & i & E) (s' & i' & E'). rewrite E in E'. now injection E'. Qed.
Lemma fits_gives op zx zo n v : fits op zx zo -> n > 0 -> vhas v (wide n zx) -> exists o, gives op v o /\ vhas o (wide n zo).
Proof.
  intros (NE & zs & W) Hn [G E]. destruct (shaped_stream op zx zo zs v None n W NE Hn G E I) as (o & sf & s0 & os & C & Go & Eo & _).
  exists o. split; [now exists sf, s0|now split].
Qed.
Lemma gives_vhas op zx zo n v o : fits op zx zo -> n > 0 -> vhas v (wide n zx) -> gives op v o -> vhas o (wide n zo).
Proof. intros F Hn V H. destruct (fits_gives op zx zo n v F Hn V) as (o' & H' & V'). now rewrite (gives_one _ _ _ _ H H'). Qed.
Lemma fits_genuine op zx zo : fits op zx zo -> genuine_op op.
Proof. intros (_ & zs & W). eapply well_shaped_genuine, W. Qed.
Lemma sig_sk_uniform op st v n : uniform sig op st v n -> uniform sk op st v n.
Proof.
  intros (z & U1 & U2). exists (sk z). split; [intros; erewrite <- U1; eauto; symmetry; apply sk_vmap|].
  intros. eapply Forall_impl; [|eapply U2; eauto]. cbn. intros w <-. symmetry. apply sk_vmap.
Qed.
Lemma fits_stage op zx zm n v mid : fits op zx zm -> n > 0 -> vhas v (wide n zx) -> leaves zm <> [] -> vhas mid (wide n zm) ->
  good_stage n op None v mid.
Proof.
  intros (NE & zs & W) Hn V NM M. split; [now apply (wide_series n v zx)|]. split; [|split].
  - apply sig_sk_uniform. apply (safe_uniform op zx zm zs (ws_safe _ _ _ _ W)); auto. exact I.
  - intros E. apply (wide_leaves n) in NM. apply NM. destruct M as [_ M]. rewrite <- M. unfold sig. now rewrite leaves_vmap, E.
  - intros _ o s' s0 C. assert (V0 : vhas (row 0 v) zx) by (apply (row_vhas n); auto).
    refine (wired_init op (row 0 v) _ (proj1 V0) o s' s0 C). eapply (proj1 well_shaped_wired); eauto.
Qed.
(** ** Operators in turn *)
Inductive give_in_turn : list operator -> val -> val -> Prop :=
| give_last op v o : gives op v o -> give_in_turn [op] v o
| give_next op ops v mid o : gives op v mid -> give_in_turn ops mid o -> give_in_turn (op :: ops) v o.
Lemma turn_one ops : forall v o o', give_in_turn ops v o -> give_in_turn ops v o' -> o = o'.
Proof.
  induction ops as [|op ops IH]; intros v o o' H H'; [inversion H|].
  inversion H; subst; inversion H'; subst; try (match goal with K : give_in_turn [] _ _ |- _ => inversion K end).
  - eapply gives_one; eauto.
  - match goal with A : gives op v ?m, B : gives op v ?m' |- _ => assert (m = m') as -> by (eapply gives_one; eauto) end. eauto.
Qed.
Lemma fit_turn_first ops zx zo : fit_in_turn ops zx zo -> leaves zx <> [].
Proof. intros []; [apply H|apply H]. Qed.
Lemma turn_streams ops zx zo n v : fit_in_turn ops zx zo -> n > 0 -> vhas v (wide n zx) ->
  exists o ss is, give_in_turn ops v o /\ streamed_in_turn n ops v (repeat None (length ops)) o ss is /\ vhas o (wide n zo) /\ Forall genuine_op ops.
Proof.
  intros F. revert v. induction F as [op zx zo F|op ops zx zm zo F FS IH]; intros v Hn V.
  - destruct (fits_gives op zx zo n v F Hn V) as (o & (s & i & E) & Vo). exists o, [s], [i]. split; [constructor; now exists s, i|].
    split; [|split; [exact Vo|constructor; [now apply (fits_genuine op zx zo)|constructor]]]. cbn [length repeat]. apply streamed_last; [|exact E].
    apply (wide_series n v zx); [apply F|exact V].
  - destruct (fits_gives op zx zm n v F Hn V) as (mid & (s & i & E) & Vm). destruct (IH mid Hn Vm) as (o & ss & is & G & ST & Vo & GO).
    exists o, (s :: ss), (i :: is). split; [econstructor; eauto; now exists s, i|]. split; [|split; [exact Vo|constructor; [now apply (fits_genuine op zx zm)|exact GO]]].
    cbn [length repeat]. eapply streamed_next; [exact E| |exact ST]. apply (fits_stage op zx zm); auto. eapply fit_turn_first, FS.
Qed.
Theorem compose_gives ops zx zo n v : fit_in_turn ops zx zo -> n > 0 -> vhas v (wide n zx) ->
  exists o, give_in_turn ops v o /\ gives (Compose (rev ops)) v o /\ vhas o (wide n zo).
Proof.
  intros F Hn V. destruct (turn_streams ops zx zo n v F Hn V) as (o & ss & is & G & ST & Vo & GO). exists o. split; [exact G|]. split; [|exact Vo].
  exists (Tup ss), (Tup is). apply (compose_in_turn n (rev ops) v None o ss is); [apply V|exact I|now apply Forall_rev|].
  rewrite rev_involutive, rev_length. exact ST.
Qed.
Lemma compose_turn ops zx zo n v o : fit_in_turn ops zx zo -> n > 0 -> vhas v (wide n zx) ->
  gives (Compose (rev ops)) v o <-> give_in_turn ops v o.
Proof.
  intros F Hn V. destruct (compose_gives ops zx zo n v F Hn V) as (o' & G & C & _). split; intros H.
  - now rewrite (gives_one _ _ _ _ H C).
  - now rewrite (turn_one _ _ _ _ H G).
Qed.
Lemma fit_turn_shaped ops zx zo : fit_in_turn ops zx zo -> exists zss, shaped_chain ops zx zo zss.
Proof.
  induction 1 as [op zx zo (_ & zs & W)|op ops zx zm zo (_ & zs & W) _ (zss & IH)].
  - exists [zs]. now constructor.
  - exists (zs :: zss). econstructor; eauto.
Qed.
Theorem fits_compose ops zx zo : fit_in_turn ops zx zo -> fits (Compose (rev ops)) zx zo.
Proof.
  intros F. split; [eapply fit_turn_first, F|]. destruct (fit_turn_shaped ops zx zo F) as (zss & C). exists (Tup zss). apply ws_compose. now rewrite rev_involutive.
Qed.
(** Splitting a pipeline. *)
Lemma fit_app a b zx zo : a <> [] -> b <> [] -> fit_in_turn (a ++ b) zx zo <-> exists zm, fit_in_turn a zx zm /\ fit_in_turn b zm zo.
Proof.
  revert zx. induction a as [|op a IH]; intros zx NA NB; [easy|]. destruct a as [|op2 a].
  - cbn [app]. split.
    + intros H. inversion H; subst; [easy|]. eexists. split; [constructor; eauto|eauto].
    + intros (zm & H1 & H2). inversion H1; subst; [econstructor; eauto|]. match goal with K : fit_in_turn [] _ _ |- _ => inversion K end.
  - cbn [app]. split.
    + intros H. inversion H as [|? ? ? zm ? F R]; subst. apply (proj1 (IH zm ltac:(discriminate) NB)) in R as (zk & R1 & R2). exists zk. split; [econstructor; eauto|exact R2].
    + intros (zk & H1 & H2). inversion H1 as [|? ? ? zm ? F R]; subst. econstructor; [exact F|]. apply (IH zm ltac:(discriminate) NB). eauto.
Qed.
Lemma give_app a b v o : a <> [] -> b <> [] -> give_in_turn (a ++ b) v o <-> exists m, give_in_turn a v m /\ give_in_turn b m o.
Proof.
  revert v. induction a as [|op a IH]; intros zx NA NB; [easy|]. destruct a as [|op2 a].
  - cbn [app]. split.
    + intros H. inversion H; subst; [easy|]. eexists. split; [constructor; eauto|eauto].
    + intros (zm & H1 & H2). inversion H1; subst; [econstructor; eauto|]. match goal with K : give_in_turn [] _ _ |- _ => inversion K end.
  - cbn [app]. split.
    + intros H. inversion H as [|? ? ? zm ? F R]; subst. apply (proj1 (IH zm ltac:(discriminate) NB)) in R as (zk & R1 & R2). exists zk. split; [econstructor; eauto|exact R2].
    + intros (zk & H1 & H2). inversion H1 as [|? ? ? zm ? F R]; subst. econstructor; [exact F|]. apply (IH zm ltac:(discriminate) NB). eauto.
Qed.
Theorem compose_one op zx zo : fits op zx zo -> agree (Compose [op]) op zx.
Proof.
  intros F n v Hn G E. assert (V : vhas v (wide n zx)) by now split. destruct (fits_gives op zx zo n v F Hn V) as (o & H & _). exists o. split; [|exact H].
  apply (compose_turn [op] zx zo n v); auto; now constructor.
Qed.
Theorem compose_flat a b zx zm zo : fit_in_turn a zx zm -> fit_in_turn b zm zo -> agree (Compose [Compose (rev b); Compose (rev a)]) (Compose (rev b ++ rev a)) zx.
Proof.
  intros F1 F2 n v Hn G E. assert (V : vhas v (wide n zx)) by now split. destruct (compose_gives a zx zm n v F1 Hn V) as (m & G1 & C1 & Vm).
  destruct (compose_gives b zm zo n m F2 Hn Vm) as (o & G2 & C2 & _). exists o. assert (NA : a <> []) by (intros ->; inversion F1). assert (NB : b <> []) by (intros ->; inversion F2). split.
  - apply (compose_turn [Compose (rev a); Compose (rev b)] zx zo n v); auto.
    + apply (fit_next _ [_] _ zm); [now apply fits_compose|constructor; now apply fits_compose].
    + econstructor; [exact C1|now constructor].
  - rewrite <- rev_app_distr. apply (compose_turn (a ++ b) zx zo n v); auto; [apply fit_app; eauto|apply give_app; eauto].
Qed.
(** ** Interchange *)
Lemma wide_inj n z z' : wide n z = wide n z' -> z = z'.
Proof. intros E. now rewrite <- (wide_row n z), E, wide_row. Qed.
Lemma agree_sym a b zx : agree a b zx -> agree b a zx.
Proof. intros H n v Hn G E. destruct (H n v Hn G E) as (o & A & B). now exists o. Qed.
Lemma agree_trans a b c zx : agree a b zx -> agree b c zx -> agree a c zx.
Proof.
  intros H K n v Hn G E. destruct (H n v Hn G E) as (o & A & B). destruct (K n v Hn G E) as (o' & B' & D). exists o. split; [exact A|].
  now rewrite (gives_one _ _ _ _ B B').
Qed.
Lemma fits_agree op zx zo : fits op zx zo -> agree op op zx.
Proof. intros F n v Hn G E. destruct (fits_gives op zx zo n v F Hn (conj G E)) as (o & H & _). now exists o. Qed.
Theorem agree_compose a b zx zo before after : fit_in_turn (before ++ a :: after) zx zo -> fit_in_turn (before ++ b :: after) zx zo ->
  (forall zm, (before = [] -> zm = zx) -> (before <> [] -> fit_in_turn before zx zm) -> agree a b zm) ->
  agree (Compose (rev (before ++ a :: after))) (Compose (rev (before ++ b :: after))) zx.
Proof.
  intros FA FB AG n v Hn G E. assert (V : vhas v (wide n zx)) by now split.
  destruct (compose_gives _ zx zo n v FA Hn V) as (o & GA & CA & _). exists o. split; [exact CA|].
  apply (compose_turn _ zx zo n v o FB Hn V).
  assert (K : forall zm m, (before = [] -> zm = zx) -> (before <> [] -> fit_in_turn before zx zm) -> vhas m (wide n zm) ->
              forall r, give_in_turn (a :: after) m r -> give_in_turn (b :: after) m r).
  { intros zm m P1 P2 M r H. destruct (AG zm P1 P2 n m Hn (proj1 M) (proj2 M)) as (q & A & B). inversion H; subst.
    - constructor. match goal with K : gives a m _ |- _ => now rewrite (gives_one _ _ _ _ K A) end.
    - match goal with K : gives a m _ |- _ => rewrite (gives_one _ _ _ _ K A) in * end. econstructor; eauto. }
  destruct before as [|f before].
  - apply (K zx); auto. easy.
  - apply give_app in GA as (m & G1 & G2); [|discriminate|discriminate]. apply give_app; [discriminate|discriminate|]. exists m. split; [exact G1|].
    apply fit_app in FA as (zm & F1 & F2); [|discriminate|discriminate].
    destruct (turn_streams _ zx zm n v F1 Hn V) as (m' & _ & _ & G1' & _ & M & _). rewrite (turn_one _ _ _ _ G1' G1) in M.
    apply (K zm); auto; easy.
Qed.
(** ** Operators side by side *)
Inductive give_each : list operator -> list val -> list val -> Prop :=
| give_none : give_each [] [] []
| give_more op ops v vs o os : gives op v o -> give_each ops vs os -> give_each (op :: ops) (v :: vs) (o :: os).
Lemma fit_each_shaped ops zxs zos : fit_each ops zxs zos -> exists zss, shaped_all ops zxs zos zss.
Proof.
  induction 1 as [|op ops zx zxs zo zos (_ & zs & W) _ (zss & IH)]; [exists []; constructor|]. exists (zs :: zss). now constructor.
Qed.
Theorem fits_join ops zxs zos : fit_each ops zxs zos -> ops <> [] -> fits (Join ops) (Tup zxs) (Tup zos).
Proof.
  intros F NE. split.
  - destruct F as [|op ops zx zxs zo zos [L _] _]; [easy|]. cbn. destruct (leaves zx); [easy|discriminate].
  - destruct (fit_each_shaped ops zxs zos F) as (zss & S'). exists (Tup zss). apply ws_join with zxs; auto.
Qed.
Lemma wide_tup n zs : wide n (Tup zs) = Tup (map (wide n) zs).
Proof. reflexivity. Qed.
Lemma vhas_wide_tup n v zxs : vhas v (wide n (Tup zxs)) -> exists vs, v = Tup vs /\ Forall2 (fun v z => vhas v (wide n z)) vs zxs.
Proof.
  intros H. rewrite wide_tup in H. apply vhas_tup_inv in H as (vs & -> & H). exists vs. split; [reflexivity|].
  remember (map (wide n) zxs) as l eqn:E. revert zxs E. induction H as [|v z vs l Hv H IH]; intros [|z' zxs] E; try discriminate; [constructor|].
  injection E as -> ->. constructor; auto.
Qed.
Lemma vhas_tup_wide n vs zxs : Forall2 (fun v z => vhas v (wide n z)) vs zxs -> vhas (Tup vs) (wide n (Tup zxs)).
Proof. intros H. rewrite wide_tup. apply vhas_tup. induction H; constructor; auto. Qed.
Lemma each_streams ops zxs zos : fit_each ops zxs zos -> forall n vs, n > 0 -> Forall2 (fun v z => vhas v (wide n z)) vs zxs ->
  exists os ss is, give_each ops vs os /\ called_each true ops vs (repeat None (length ops)) os ss is /\
    Forall2 (fun v z => vhas v (wide n z)) os zos /\ Forall genuine_op ops /\ Forall genuine vs /\ Forall (is_series n) vs /\ length vs = length ops.
Proof.
  induction 1 as [|op ops zx zxs zo zos F FS IH]; intros n vs Hn V; inversion V; subst.
  - exists [], [], []. repeat (split; [constructor|]). reflexivity.
  - match goal with A : vhas ?w _, B : Forall2 _ _ zxs |- _ => rename A into Vw; rename B into Vr end.
    destruct (fits_gives op zx zo n _ F Hn Vw) as (o & (s & i & E) & Vo). destruct (IH n _ Hn Vr) as (os & ss & is & G & C & Vs & GO & Gv & Sv & L).
    exists (o :: os), (s :: ss), (i :: is). split; [constructor; auto; now exists s, i|]. split; [cbn [length repeat]; now constructor|].
    split; [constructor; auto|]. split; [constructor; auto; now apply (fits_genuine op zx zo)|]. split; [constructor; auto; apply Vw|].
    split; [constructor; auto; apply (wide_series n _ zx); auto; apply F|cbn; congruence].
Qed.
Lemma each_one ops : forall vs os os', give_each ops vs os -> give_each ops vs os' -> os = os'.
Proof.
  induction ops as [|op ops IH]; intros vs os os' H H'; inversion H; subst; inversion H'; subst; [reflexivity|].
  f_equal; [eapply gives_one; eauto|eauto].
Qed.
Theorem join_gives ops zxs zos n vs : fit_each ops zxs zos -> ops <> [] -> n > 0 -> vhas (Tup vs) (wide n (Tup zxs)) ->
  exists os, give_each ops vs os /\ gives (Join ops) (Tup vs) (Tup os) /\ Forall2 (fun v z => vhas v (wide n z)) os zos.
Proof.
  intros F NE Hn V. apply vhas_wide_tup in V as (vs' & E & V). injection E as <-.
  destruct (each_streams ops zxs zos F n vs Hn V) as (os & ss & is & G & C & Vo & GO & Gv & Sv & L). exists os. split; [exact G|]. split; [|exact Vo].
  exists (Tup ss), (Tup is). apply (join_true n ops vs None (Tup os)); auto; [exact I|]. exists os, ss, is. auto.
Qed.
Lemma join_each ops zxs zos n vs o : fit_each ops zxs zos -> ops <> [] -> n > 0 -> vhas (Tup vs) (wide n (Tup zxs)) ->
  gives (Join ops) (Tup vs) o <-> exists os, o = Tup os /\ give_each ops vs os.
Proof.
  intros F NE Hn V. destruct (join_gives ops zxs zos n vs F NE Hn V) as (os & G & J & _). split.
  - intros H. exists os. split; [eapply gives_one; eauto|exact G].
  - intros (os' & -> & G'). now rewrite (each_one _ _ _ _ G' G).
Qed.
Lemma agree_each_gives az bz zxs : agree_each az bz zxs -> forall n vs, n > 0 -> Forall2 (fun v z => vhas v (wide n z)) vs zxs ->
  forall os, give_each az vs os -> give_each bz vs os.
Proof.
  induction 1 as [|a b az bz zx zxs A _ IH]; intros n vs Hn V os H; inversion V; subst; inversion H; subst; constructor; [|now apply (IH n)].
  match goal with K : vhas _ _ |- _ => destruct (A n _ Hn (proj1 K) (proj2 K)) as (q & P1 & P2) end.
  match goal with K : gives a _ _ |- _ => now rewrite (gives_one _ _ _ _ K P1) end.
Qed.
Theorem agree_join az bz zxs zos zos' : fit_each az zxs zos -> fit_each bz zxs zos' -> az <> [] -> agree_each az bz zxs ->
  agree (Join az) (Join bz) (Tup zxs).
Proof.
  intros FA FB NE A n v Hn G E. assert (V : vhas v (wide n (Tup zxs))) by now split. destruct (vhas_wide_tup n v zxs V) as (vs & -> & Vs).
  assert (NB : bz <> []) by (destruct A; [easy|discriminate]).
  destruct (join_gives az zxs zos n vs FA NE Hn V) as (os & GA & JA & _). exists (Tup os). split; [exact JA|].
  apply (join_each bz zxs zos' n vs _ FB NB Hn V). exists os. split; [reflexivity|]. now apply (agree_each_gives az bz zxs A n).
Qed.
(** Join of pipelines = pipeline of Joins. *)
Lemma pairs_each l : forall zxs zms zos, fit_each (map fst l) zxs zms -> fit_each (map snd l) zms zos ->
  fit_each (map (fun fg => Compose [snd fg; fst fg]) l) zxs zos.
Proof.
  induction l as [|[f g] l IH]; intros zxs zms zos F1 F2; cbn in *; inversion F1; subst; inversion F2; subst; constructor; [|eauto].
  match goal with A : fits f ?a ?b, B : fits g ?b ?c |- _ => apply (fits_compose [f; g]); apply (fit_next f [g] _ b); [exact A|constructor; exact B] end.
Qed.
Lemma pairs_give l : forall zxs zms zos n vs ms os, fit_each (map fst l) zxs zms -> fit_each (map snd l) zms zos -> n > 0 ->
  Forall2 (fun v z => vhas v (wide n z)) vs zxs -> give_each (map fst l) vs ms -> give_each (map snd l) ms os ->
  give_each (map (fun fg => Compose [snd fg; fst fg]) l) vs os.
Proof.
  induction l as [|[f g] l IH]; intros zxs zms zos n vs ms os F1 F2 Hn V G1 G2; cbn in *; inversion F1; subst; inversion F2; subst; inversion G1; subst; inversion G2; subst;
    inversion V; subst; constructor; [|eapply IH; eauto].
  match goal with A : fits f ?a ?b, B : fits g ?b ?c, C : vhas ?v _ |- _ =>
    apply (compose_turn [f; g] a c n v); [apply (fit_next f [g] a b); [exact A|constructor; exact B]|exact Hn|exact C|] end.
  econstructor; [eassumption|]. constructor. eassumption.
Qed.
Theorem join_compose l zxs zms zos : fit_each (map fst l) zxs zms -> fit_each (map snd l) zms zos -> l <> [] ->
  agree (Join (map (fun fg => Compose [snd fg; fst fg]) l)) (Compose [Join (map snd l); Join (map fst l)]) (Tup zxs).
Proof.
  intros F1 F2 NE n v Hn G E. assert (V : vhas v (wide n (Tup zxs))) by now split. destruct (vhas_wide_tup n v zxs V) as (vs & -> & Vs).
  assert (N1 : map fst l <> []) by (destruct l; [easy|discriminate]). assert (N2 : map snd l <> []) by (destruct l; [easy|discriminate]).
  destruct (join_gives _ zxs zms n vs F1 N1 Hn V) as (ms & G1 & J1 & M). pose proof (vhas_tup_wide n ms zms M) as M'.
  destruct (join_gives _ zms zos n ms F2 N2 Hn M') as (os & G2 & J2 & _). exists (Tup os). split.
  - apply (join_each _ zxs zos n vs); auto; [eapply pairs_each; eauto|destruct l; [easy|discriminate]|]. exists os. split; [reflexivity|].
    eapply pairs_give; eauto.
  - apply (compose_turn [Join (map fst l); Join (map snd l)] (Tup zxs) (Tup zos) n (Tup vs)); auto.
    + apply (fit_next _ [_] _ (Tup zms)); [now apply fits_join|constructor; now apply fits_join].
    + econstructor; [exact J1|]. now constructor.
Qed.
(** Selecting one output. *)
Lemma fits_select zs j z : nth_error zs j = Some z -> leaves z <> [] -> fits (Select (IdxOne (Z.of_nat j))) (Tup zs) z.
Proof.
  intros E L. split.
  - intros K. apply L. clear L. revert j E K. induction zs as [|a zs IH]; intros [|j] E K; try discriminate; cbn in *; apply app_eq_nil in K as [K1 K2].
    + now injection E as <-.
    + eapply IH; eauto.
  - exists (Tup []). refine (proj2 (proj2 (proj2 (proj2 (proj2 (proj2 (proj2 (shaped_stateless [] F32 (tf []) (tf []) 0 (Z.of_nat j) j _ _))))))) zs z E _);
      [discriminate|reflexivity|now left].
Qed.
Lemma select_gives vs j w n zs z : nth_error vs j = Some w -> nth_error zs j = Some z -> leaves z <> [] -> n > 0 -> vhas (Tup vs) (wide n (Tup zs)) ->
  gives (Select (IdxOne (Z.of_nat j))) (Tup vs) w.
Proof.
  intros E Ez L Hn V. exists (Tup []), (Tup []). apply (select_one_series (Z.of_nat j) n (Tup vs) vs w None); auto; [apply V|now left| |now left|].
  - apply (wide_series n _ (Tup zs)); auto. apply (fits_select zs j z); auto.
  - left. split; [lia|]. now rewrite Nat2Z.id.
Qed.
Lemma each_nth ops : forall zxs zos vs os j op, fit_each ops zxs zos -> give_each ops vs os -> nth_error ops j = Some op ->
  exists v o zx zo, nth_error vs j = Some v /\ nth_error os j = Some o /\ nth_error zxs j = Some zx /\ nth_error zos j = Some zo /\
    gives op v o /\ fits op zx zo.
Proof.
  induction ops as [|a ops IH]; intros zxs zos vs os [|j] op F G E; try discriminate; inversion F; subst; inversion G; subst; cbn in *.
  - injection E as <-. do 4 eexists. repeat (split; [reflexivity|]). split; assumption.
  - eapply IH; eauto.
Qed.
Lemma fit_nth ops zxs zos j op : fit_each ops zxs zos -> nth_error ops j = Some op -> exists zx zo, nth_error zxs j = Some zx /\ nth_error zos j = Some zo /\ fits op zx zo.
Proof.
  intros F. revert j op. induction F as [|a ops zx zxs zo zos Fa F IH]; intros [|j] op E; try discriminate; cbn in *.
  - injection E as <-. do 2 eexists. repeat (split; [reflexivity|]). assumption.
  - eapply IH; eauto.
Qed.
Theorem select_join ops zxs zos j op zo : fit_each ops zxs zos -> nth_error ops j = Some op -> nth_error zos j = Some zo -> leaves zo <> [] ->
  agree (Compose [Select (IdxOne (Z.of_nat j)); Join ops]) (Compose [op; Select (IdxOne (Z.of_nat j))]) (Tup zxs).
Proof.
  intros F E Eo L n v Hn G Ev. assert (V : vhas v (wide n (Tup zxs))) by now split. destruct (vhas_wide_tup n v zxs V) as (vs & -> & Vs).
  assert (NE : ops <> []) by (destruct ops, j; easy).
  destruct (join_gives ops zxs zos n vs F NE Hn V) as (os & GE & J & Vo).
  destruct (each_nth ops zxs zos vs os j op F GE E) as (x & o & zx & zo' & Ex & Eos & Ezx & Ezo & Gx & Fx). rewrite Eo in Ezo. injection Ezo as <-.
  exists o. split.
  - apply (compose_turn [Join ops; Select (IdxOne (Z.of_nat j))] (Tup zxs) zo n (Tup vs)); auto.
    + apply (fit_next _ [_] _ (Tup zos)); [now apply fits_join|constructor; now apply fits_select].
    + econstructor; [exact J|]. constructor. apply (select_gives os j o n zos zo); auto. now apply vhas_tup_wide.
  - apply (compose_turn [Select (IdxOne (Z.of_nat j)); op] (Tup zxs) zo n (Tup vs)); auto.
    + apply (fit_next _ [_] _ zx); [apply fits_select; [exact Ezx|apply Fx]|now constructor].
    + econstructor; [apply (select_gives vs j x n zxs zx); eauto; apply Fx|]. now constructor.
Qed.
(** Fan-out. *)
Lemma fits_fork s d k : k <> 0 -> fits (Fork k) (Leaf (s, d)) (Tup (repeat (Leaf (s, d)) k)).
Proof.
  intros Hk. split; [discriminate|]. exists (Tup []).
  exact (proj1 (proj2 (proj2 (proj2 (proj2 (proj2 (proj2 (shaped_stateless [] F32 (Leaf (s, d)) (Leaf (s, d)) k 0%Z 0 ltac:(discriminate) eq_refl)))))))).
Qed.
Lemma fork_gives s d k n v : n > 0 -> vhas v (wide n (Leaf (s, d))) -> gives (Fork k) v (Tup (repeat v k)).
Proof.
  intros Hn V. destruct (vhas_leaf_inv v (n :: s) d V) as (t & -> & H). exists (Tup []), (Tup []). apply (fork_series k n s); auto; [apply H|apply H|now left].
Qed.
Theorem fan_out ops s d zos j op zo : fit_each ops (repeat (Leaf (s, d)) (length ops)) zos -> nth_error ops j = Some op ->
  nth_error zos j = Some zo -> leaves zo <> [] ->
  agree (Compose [Select (IdxOne (Z.of_nat j)); Join ops; Fork (length ops)]) op (Leaf (s, d)).
Proof.
  intros F E Eo L n v Hn G Ev. assert (V : vhas v (wide n (Leaf (s, d)))) by now split.
  assert (NE : ops <> []) by (destruct ops, j; easy). assert (Hk : length ops <> 0) by (destruct ops; easy).
  pose proof (fork_gives s d (length ops) n v Hn V) as K.
  assert (V2 : vhas (Tup (repeat v (length ops))) (wide n (Tup (repeat (Leaf (s, d)) (length ops))))).
  { eapply gives_vhas; [now apply fits_fork|exact Hn|exact V|exact K]. }
  destruct (join_gives ops _ zos n _ F NE Hn V2) as (os & GE & J & Vo).
  destruct (each_nth ops _ zos _ os j op F GE E) as (x & o & zx & zo' & Ex & Eos & Ezx & Ezo & Gx & Fx). rewrite Eo in Ezo. injection Ezo as <-.
  assert (x = v) as -> by (apply nth_error_In, repeat_spec in Ex; exact Ex). exists o. split; [|exact Gx].
  apply (compose_turn [Fork (length ops); Join ops; Select (IdxOne (Z.of_nat j))] (Leaf (s, d)) zo n v); auto.
  - apply (fit_next _ [_; _] _ (Tup (repeat (Leaf (s, d)) (length ops)))); [now apply fits_fork|].
    apply (fit_next _ [_] _ (Tup zos)); [now apply fits_join|]. constructor. now apply fits_select.
  - econstructor; [exact K|]. econstructor; [exact J|]. constructor. apply (select_gives os j o n zos zo); auto. now apply vhas_tup_wide.
Qed.
(** Nothing done. *)
Lemma fits_identity s d : fits Identity (Leaf (s, d)) (Leaf (s, d)).
Proof.
  split; [discriminate|]. exists (Tup []).
  exact (proj1 (proj2 (proj2 (proj2 (proj2 (proj2 (shaped_stateless [] F32 (Leaf (s, d)) (Leaf (s, d)) 0 0%Z 0 ltac:(discriminate) eq_refl))))))).
Qed.
Lemma identity_gives s d n v : n > 0 -> vhas v (wide n (Leaf (s, d))) -> gives Identity v v.
Proof.
  intros Hn V. destruct (vhas_leaf_inv v (n :: s) d V) as (t & -> & H). exists (Tup []), (Tup []). apply (identity_series n s); auto; [apply H|apply H|now left].
Qed.
Theorem identity_before op s d zo : fits op (Leaf (s, d)) zo -> agree (Compose [op; Identity]) op (Leaf (s, d)).
Proof.
  intros F n v Hn G E. assert (V : vhas v (wide n (Leaf (s, d)))) by now split. destruct (fits_gives op _ zo n v F Hn V) as (o & H & _). exists o. split; [|exact H].
  apply (compose_turn [Identity; op] (Leaf (s, d)) zo n v); auto.
  - apply (fit_next _ [_] _ (Leaf (s, d))); [apply fits_identity|now constructor].
  - econstructor; [now apply (identity_gives s d n)|now constructor].
Qed.
Theorem identity_after op zx s d : fits op zx (Leaf (s, d)) -> agree (Compose [Identity; op]) op zx.
Proof.
  intros F n v Hn G E. assert (V : vhas v (wide n zx)) by now split. destruct (fits_gives op _ _ n v F Hn V) as (o & H & Vo). exists o. split; [|exact H].
  apply (compose_turn [op; Identity] zx (Leaf (s, d)) n v); auto.
  - apply (fit_next _ [_] _ (Leaf (s, d))); [exact F|constructor; apply fits_identity].
  - econstructor; [exact H|]. constructor. now apply (identity_gives s d n).
Qed.
(** ** Columns *)
Definition col (T j : nat) (v w : val) : Prop := forall i, i < T -> row i w = row j (row i v).
Lemma vhas_eq n z a b : n > 0 -> vhas a (wide n z) -> vhas b (wide n z) -> (forall i, i < n -> row i a = row i b) -> a = b.
Proof. intros Hn A B H. apply (series_eq n); auto; [apply A|apply B|exact (wide_tall _ _ _ A)|exact (wide_tall _ _ _ B)]. Qed.
Lemma cols_eq T n z a b : T > 0 -> n > 0 -> vhas a (wide T (wide n z)) -> vhas b (wide T (wide n z)) ->
  (forall j, j < n -> exists w, col T j a w /\ col T j b w) -> a = b.
Proof.
  intros HT Hn A B H. apply (vhas_eq T (wide n z)); auto. intros i Hi. apply (vhas_eq n z); [exact Hn|apply (row_vhas T); auto|apply (row_vhas T); auto|].
  intros j Hj. destruct (H j Hj) as (w & CA & CB). now rewrite <- CA, <- CB.
Qed.
Lemma col_exists T n z v j : T > 0 -> j < n -> leaves z <> [] -> vhas v (wide T (wide n z)) -> exists w, vhas w (wide T z) /\ is_column T j v w.
Proof.
  intros HT Hj L V. assert (Ln : leaves (wide n z) <> []) by now apply wide_leaves.
  destruct (column_exists T n v j) as (w & Gw & Sw & C); auto; [apply V| |].
  - split; [now apply (wide_series T v (wide n z))|]. apply (wide_series n _ z); auto. now apply (row_vhas T).
  - exists w. split; [|now split]. apply (column_vhas n z T j v); auto. now split.
Qed.
Lemma fits_map op n zx zo : fits op zx zo -> n >= 1 -> fits (Map op n) (wide n zx) (wide n zo).
Proof. intros (L & zs & W) Hn. split; [now apply wide_leaves|]. exists (Tup [wide n zs]). now apply ws_map. Qed.
Lemma map_gives op zx zo n T v : fits op zx zo -> n >= 1 -> T > 0 -> vhas v (wide T (wide n zx)) ->
  exists outs, gives (Map op n) v outs /\ vhas outs (wide T (wide n zo)) /\
    forall j w, j < n -> is_column T j v w -> exists out, gives op w out /\ col T j outs out.
Proof.
  intros (L & zs & W) Hn HT V. destruct (shaped_map op zx zo zs n T v None W Hn L HT (proj1 V) (proj2 V) I) as (outs & ns & s & C & Go & Eo & _ & _ & _ & _ & K).
  exists outs. split; [now exists (Tup [ns]), (Tup [s])|]. split; [now split|]. intros j w Hj Hw. destruct (K j w Hj Hw) as (out & C' & R).
  exists out. split; [now exists (row j ns), (row j s)|exact R].
Qed.
Theorem agree_map a b n zx zo zo' : agree a b zx -> fits a zx zo -> fits b zx zo' -> n >= 1 -> agree (Map a n) (Map b n) (wide n zx).
Proof.
  intros A FA FB Hn T v HT G E. assert (V : vhas v (wide T (wide n zx))) by now split.
  destruct (map_gives a zx zo n T v FA Hn HT V) as (oa & GA & VA & KA). destruct (map_gives b zx zo' n T v FB Hn HT V) as (ob & GB & VB & KB).
  assert (AB : forall j w, j < n -> vhas w (wide T zx) -> is_column T j v w -> exists o, gives a w o /\ gives b w o /\ col T j oa o /\ col T j ob o).
  { intros j w Hj Vw Cw. destruct (KA j w Hj Cw) as (o & P1 & P2). destruct (KB j w Hj Cw) as (o' & Q1 & Q2).
    destruct (A T w HT (proj1 Vw) (proj2 Vw)) as (q & R1 & R2). exists q. rewrite (gives_one _ _ _ _ P1 R1) in P2. rewrite (gives_one _ _ _ _ Q1 R2) in Q2. auto. }
  assert (zo' = zo) as ->.
  { destruct (col_exists T n zx v 0 HT ltac:(lia) (proj1 FA) V) as (w & Vw & Cw). destruct (AB 0 w ltac:(lia) Vw Cw) as (o & P1 & P2 & _).
    pose proof (gives_vhas a zx zo T w o FA HT Vw P1) as [_ S1]. pose proof (gives_vhas b zx zo' T w o FB HT Vw P2) as [_ S2]. apply (wide_inj T). congruence. }
  assert (oa = ob) as <-; [|now exists oa]. apply (cols_eq T n zo); auto. intros j Hj. destruct (col_exists T n zx v j HT Hj (proj1 FA) V) as (w & Vw & Cw).
  destruct (AB j w Hj Vw Cw) as (o & _ & _ & P & Q). now exists o.
Qed.
Lemma fit_maps ops n zx zo : fit_in_turn ops zx zo -> n >= 1 -> fit_in_turn (map (fun op => Map op n) ops) (wide n zx) (wide n zo).
Proof. intros F Hn. induction F; cbn [map]; [constructor; now apply fits_map|econstructor; [now apply fits_map; eauto|assumption]]. Qed.
Lemma col_series T j n z v w : T > 0 -> j < n -> leaves z <> [] -> vhas v (wide T (wide n z)) -> vhas w (wide T z) -> col T j v w -> is_column T j v w.
Proof. intros HT Hj L V W C. split; [apply W|]. split; [now apply (wide_series T w z)|exact C]. Qed.
Lemma maps_turn ops zx zo n T : fit_in_turn ops zx zo -> n >= 1 -> T > 0 -> forall v outs, vhas v (wide T (wide n zx)) ->
  give_in_turn (map (fun op => Map op n) ops) v outs ->
  forall j w, j < n -> is_column T j v w -> vhas w (wide T zx) -> exists out, give_in_turn ops w out /\ col T j outs out.
Proof.
  intros F Hn HT. induction F as [op zx zo F|op ops zx zm zo F FS IH]; intros v outs V GV j w Hj Cw Vw; cbn [map] in GV.
  - inversion GV as [? ? ? G1|? ? ? ? ? ? K]; subst; [|inversion K]. destruct (map_gives op zx zo n T v F Hn HT V) as (o' & G2 & _ & K).
    rewrite (gives_one _ _ _ _ G1 G2). destruct (K j w Hj Cw) as (out & P & Q). exists out. split; [now constructor|exact Q].
  - inversion GV as [? ? ? G1|? ? ? mid ? G1 G2]; subst; [destruct FS; discriminate|].
    destruct (map_gives op zx zm n T v F Hn HT V) as (mid' & M1 & M2 & K). rewrite <- (gives_one _ _ _ _ G1 M1) in *. destruct (K j w Hj Cw) as (m & P & Q).
    pose proof (gives_vhas op zx zm T w m F HT Vw P) as Vm.
    destruct (IH mid outs M2 G2 j m Hj) as (out & R1 & R2); [apply (col_series T j n zm); auto; eapply fit_turn_first, FS|exact Vm|].
    exists out. split; [econstructor; eauto|exact R2].
Qed.
Theorem map_compose ops n zx zo : fit_in_turn ops zx zo -> n >= 1 ->
  agree (Map (Compose (rev ops)) n) (Compose (map (fun op => Map op n) (rev ops))) (wide n zx).
Proof.
  intros F Hn T v HT G E. assert (V : vhas v (wide T (wide n zx))) by now split.
  destruct (map_gives _ zx zo n T v (fits_compose ops zx zo F) Hn HT V) as (o1 & G1 & V1 & K1).
  destruct (compose_gives _ _ _ T v (fit_maps ops n zx zo F Hn) HT V) as (o2 & G2 & C2 & V2). rewrite map_rev.
  assert (o1 = o2) as <-; [|now exists o1]. apply (cols_eq T n zo); auto. intros j Hj.
  destruct (col_exists T n zx v j HT Hj (fit_turn_first _ _ _ F) V) as (w & Vw & Cw).
  destruct (K1 j w Hj Cw) as (out & P & Q). destruct (maps_turn ops zx zo n T F Hn HT v o2 V G2 j w Hj Cw Vw) as (out' & P' & Q').
  exists out. split; [exact Q|]. apply (compose_turn ops zx zo T w out F HT Vw) in P. now rewrite (turn_one _ _ _ _ P P').
Qed.
Lemma fit_each_maps ops n zxs zos : fit_each ops zxs zos -> n >= 1 -> fit_each (map (fun op => Map op n) ops) (map (wide n) zxs) (map (wide n) zos).
Proof. intros F Hn. induction F; cbn [map]; constructor; auto. now apply fits_map. Qed.
Lemma maps_each ops zxs zos n T : fit_each ops zxs zos -> n >= 1 -> T > 0 -> forall vs outs ws os j, j < n ->
  Forall2 (fun v z => vhas v (wide T (wide n z))) vs zxs -> Forall2 (fun w z => vhas w (wide T z)) ws zxs -> Forall2 (col T j) vs ws ->
  give_each (map (fun op => Map op n) ops) vs outs -> give_each ops ws os -> Forall2 (col T j) outs os.
Proof.
  intros F Hn HT. induction F as [|op ops zx zxs zo zos F FS IH]; intros vs outs ws os j Hj V W C GV GW; cbn [map] in GV;
    inversion GV; subst; inversion GW; subst; [constructor|].
  inversion V; subst; inversion W; subst; inversion C; subst. constructor; [|eapply IH; eauto].
  match goal with A : gives (Map op n) ?v ?o, B : gives op ?w ?q, D : vhas ?v _, E : vhas ?w (wide T zx) |- _ =>
    destruct (map_gives op zx zo n T v F Hn HT D) as (o' & G2 & _ & K); rewrite (gives_one _ _ _ _ A G2);
    destruct (K j w Hj) as (q' & P & Q); [apply (col_series T j n zx); auto; apply F|]; now rewrite (gives_one _ _ _ _ B P) end.
Qed.
Lemma col_tup T j vs ws : T > 0 -> col T j (Tup vs) (Tup ws) <-> Forall2 (col T j) vs ws.
Proof.
  intros HT. split.
  - intros H. assert (L : length vs = length ws).
    { specialize (H 0 HT). cbn in H. injection H as H. apply (f_equal (@length _)) in H. now rewrite !map_length in H. }
    revert ws L H. induction vs as [|v vs IH]; intros [|w ws] L H; try discriminate; [constructor|]. constructor.
    + intros i Hi. specialize (H i Hi). cbn in H. now injection H.
    + apply IH; [now injection L|]. intros i Hi. specialize (H i Hi). cbn in H |- *. injection H as _ H. now rewrite H.
  - intros H i Hi. cbn. f_equal. induction H as [|v w vs ws Hv H IH]; [reflexivity|]. cbn. f_equal; [now apply Hv|exact IH].
Qed.
Theorem map_join ops n zxs zos : fit_each ops zxs zos -> ops <> [] -> n >= 1 ->
  agree (Map (Join ops) n) (Join (map (fun op => Map op n) ops)) (Tup (map (wide n) zxs)).
Proof.
  intros F NE Hn T v HT G E. assert (V : vhas v (wide T (wide n (Tup zxs)))) by now split.
  destruct (map_gives _ _ _ n T v (fits_join ops zxs zos F NE) Hn HT V) as (o1 & G1 & V1 & K1).
  destruct (vhas_wide_tup T v _ V) as (vs & -> & Vs).
  destruct (join_gives _ _ _ T vs (fit_each_maps ops n zxs zos F Hn) ltac:(destruct ops; [easy|discriminate]) HT V) as (os & G2 & C2 & V2).
  assert (o1 = Tup os) as ->; [|now exists (Tup os)]. apply (cols_eq T n (Tup zos)); auto; [now apply vhas_tup_wide|]. intros j Hj.
  destruct (col_exists T n (Tup zxs) (Tup vs) j HT Hj (proj1 (fits_join ops zxs zos F NE)) V) as (w & Vw & Cw).
  destruct (K1 j w Hj Cw) as (out & P & Q). destruct (vhas_wide_tup T w _ Vw) as (ws & -> & Ws).
  apply (join_each ops zxs zos T ws out F NE HT Vw) in P as (outs & -> & P). exists (Tup outs). split; [exact Q|].
  apply col_tup; auto. eapply (maps_each ops zxs zos n T F Hn HT vs os ws outs j Hj); eauto.
  - clear - Vs. change (Forall2 (fun v z => vhas v (wide T z)) vs (map (wide n) zxs)) in Vs. remember (map (wide n) zxs) as l eqn:El. revert zxs El. induction Vs as [|v z vs l Hv H IH]; intros [|z' zxs] El; try discriminate; [constructor|].
    injection El as -> ->. constructor; auto.
  - apply col_tup; auto. exact (proj2 (proj2 Cw)).
Qed.
(** ** Missing rows *)
(** [op] can be used under FFill on elements of shapes [zx]. *)
Lemma unboxed (v : val) z : sig v = z -> plural z -> unpack_singleton v = v.
Proof.
  intros E [B _]. apply chain_0. destruct (Nat.eq_dec (chain v) 0) as [|C]; [assumption|]. exfalso. apply B, chain_boxed. rewrite <- E. unfold sig. now rewrite chain_vmap.
Qed.
Lemma cond_picks b (t f r : val) z : genuine t -> genuine f -> sig t = z -> sig f = z -> plural z -> tf_cond (bsc b) (Ok t) (Ok f) = Ok r -> r = if b then t else f.
Proof.
  intros Gt Gf Et Ef P H. apply cond_inv in H as [_ ->]; [|apply Gt|apply Gf]. destruct b; [rewrite !(unboxed t z)|rewrite !(unboxed f z)]; auto.
Qed.
Section Fill.
Context (op : operator) (zx zo zs : ztype) (W : well_shaped op zx zo zs) (P1 : plural zo) (P2 : plural zs \/ zs = Tup []).
Lemma picks_state b (i1 ps s1 s2 : val) : vhas i1 zs -> vhas ps zs -> vhas s1 zs ->
  (if is_unit_tuple i1 then s2 = Tup [] else tf_cond (bsc b) (Ok ps) (Ok s1) = Ok s2) -> s2 = if b then ps else s1.
Proof.
  intros [Gi Ei] [Gp Ep] [Gs Es] H. destruct P2 as [P|P].
  - assert (is_unit_tuple i1 = false) as U.
    { destruct i1 as [|[|]| | |]; try reflexivity. exfalso. cbn in Ei. rewrite <- Ei in P. destruct P as [_ P]. now apply P. }
    rewrite U in H. now apply (cond_picks b ps s1 s2 zs).
  - assert (K : forall w, sig w = zs -> w = Tup []).
    { intros w E. rewrite P in E. destruct w as [|[|]| | |]; try discriminate. reflexivity. }
    pose proof (K i1 Ei) as ->. pose proof (K ps Ep) as ->. pose proof (K s1 Es) as ->. cbn in H. now destruct b.
Qed.
Lemma fill_step x po ps o s' i : vhas x zx -> vhas po zo -> vhas ps zs -> call (FFill op) x (Some (Tup [po; ps])) false = Ok (o, s', i) ->
  exists o1 s1 i1, call op x (Some ps) false = Ok (o1, s1, i1) /\ vhas o1 zo /\ vhas s1 zs /\
    o = (if missing x then po else o1) /\ s' = Tup [o; if missing x then ps else s1].
Proof.
  intros X Vo Vs H. assert (Gp : genuine (Tup [po; ps])) by (apply genuine_pair; split; [apply Vo|apply Vs]).
  rewrite call_false_g in H by (auto; apply X). apply ffill_fwd in H as (_ & o1 & s1 & i1 & s2 & F & C1 & C2 & -> & _); [|apply X|exact Gp].
  destruct (shaped_step op zx zo zs x (Some ps) W (proj1 X) (proj2 X) Vs) as (o1' & s1' & i1' & C & Go & Eo & Gs & Es & Gi & Ei).
  pose proof C as C'. rewrite call_false_g in C'; [|apply X|apply Vs]. pose proof (eq_trans (eq_sym F) C') as E'. injection E' as <- <- <-.
  exists o1, s1, i1. split; [exact C|]. split; [now split|]. split; [now split|].
  split; [apply (cond_picks (missing x) po o1 o zo); auto; apply Vo|]. f_equal. f_equal. f_equal. apply (picks_state (missing x) i1 ps s1 s2); auto; now split.
Qed.
Lemma fill_run ys : Forall (fun x => vhas x zx) ys -> forall po s os sf, vhas po zo -> vhas s zs ->
  steps (FFill op) (Tup [po; s]) ys = Ok (os, sf) ->
  exists sp, steps op s (present ys) = Ok (picked ys os, sp) /\ held po ys os /\ length os = length ys.
Proof.
  induction 1 as [|x ys Vx VY IH]; intros po s os sf Vo Vs E.
  - injection E as <- <-. exists s. repeat split. intros i Hi. cbn in Hi. lia.
  - cbn [steps] in E. apply bind_ok in E as ([[o s'] i] & E1 & E2). apply bind_ok in E2 as ([os' sf'] & E2 & E3). injection E3 as <- <-.
    destruct (fill_step x po s o s' i Vx Vo Vs E1) as (o1 & s1 & i1 & C & V1 & V2 & Eo & Es). subst s'.
    assert (Vo' : vhas o zo) by (subst o; now destruct (missing x)). assert (Vs' : vhas (if missing x then s else s1) zs) by now destruct (missing x).
    destruct (IH o _ os' sf' Vo' Vs' E2) as (sp & R & HH & L). exists sp. split; [|split].
    + unfold present. cbn [filter]. unfold picked. cbn [combine filter fst]. destruct (missing x); cbn [negb map snd].
      * exact R.
      * cbn [steps]. rewrite C. cbn [bind]. fold (present ys). rewrite R. cbn [bind]. rewrite Eo. reflexivity.
    + apply held_cons; [|exact HH]. intros M. now rewrite M in Eo.
    + cbn. now rewrite L.
Qed.
End Fill.
Lemma held_same po ys : forall os os', held po ys os -> held po ys os' -> length os = length ys -> length os' = length ys ->
  picked ys os = picked ys os' -> os = os'.
Proof.
  revert po. induction ys as [|y ys IH]; intros po [|o os] [|o' os'] H H' L L' E; try discriminate; [reflexivity|].
  assert (o = o' /\ picked ys os = picked ys os') as [-> EP].
  { unfold picked in E |- *. cbn [combine filter fst] in E. destruct (missing y) eqn:M; cbn [negb map snd] in E.
    - split; [|exact E]. transitivity po; [apply (H 0); [cbn; lia|exact M]|symmetry; apply (H' 0); [cbn; lia|exact M]].
    - now injection E. }
  f_equal. apply (IH o'); auto.
  - intros i Hi M. specialize (H (S i)). cbn in H. rewrite (H ltac:(cbn; lia) M). now destruct i.
  - intros i Hi M. specialize (H' (S i)). cbn in H'. rewrite (H' ltac:(cbn; lia) M). now destruct i.
Qed.
Lemma fills_fits op zx zo : fills op zx zo -> fits op zx zo.
Proof. intros (L & _ & _ & zs & W & _). split; eauto. Qed.
Lemma fills_ffill op zx zo : fills op zx zo -> fits (FFill op) zx zo.
Proof. intros (L & F & P & zs & W & Q). split; [exact L|]. exists (Tup [zo; zs]). now apply ws_ffill. Qed.
Lemma rows_vhas n v z : vhas v (wide n z) -> Forall (fun x => vhas x z) (rows n v).
Proof. intros V. apply Forall_forall. intros x Hx. apply in_map_iff in Hx as (i & <- & Hi). apply in_seq in Hi. apply (row_vhas n); auto; lia. Qed.
Lemma zero_same (a b : val) : sig a = sig b -> genuine a -> genuine b -> all_zero a -> all_zero b -> a = b.
Proof.
  intros E [_ Wa] [_ Wb] Za Zb. destruct (zip_vals a b (sig_sk _ _ E)) as (z & <- & <-). apply vmap_ext. intros [t u] Hin. cbn [fst snd].
  unfold all_zero in Za, Zb. rewrite leaves_vmap, Forall_map, Forall_forall in Wa, Wb, Za, Zb. specialize (Wa _ Hin). specialize (Wb _ Hin). specialize (Za _ Hin). specialize (Zb _ Hin).
  cbn [fst snd] in *. assert (Et : tsig t = tsig u).
  { unfold sig in E. rewrite !vmap_vmap in E. apply (f_equal (@leaves _)) in E. rewrite !leaves_vmap in E. revert Hin. clear - E. induction (leaves z) as [|y l IH]; intros Hin; [easy|]. cbn in E. injection E as E1 E2 E3. destruct Hin as [->|Hin]; [unfold tsig; cbn in E1, E2; now rewrite E1, E2|auto]. }
  destruct t as [s d], u as [s' d']. unfold tsig in Et. cbn in *. injection Et as -> Ed.
  assert (K : forall {X} (c : X) l l' k, Forall (eq c) l -> Forall (eq c) l' -> length l = k -> length l' = k -> l = l').
  { intros X c l l' k H H' <- L'. revert l' H' L'. induction H as [|x l <- _ IH]; intros [|y l'] H' L'; try discriminate; [reflexivity|]. inversion H'; subst. f_equal. apply IH; auto. }
  f_equal. destruct d, d'; try discriminate; f_equal; unfold wf in *; cbn in *; eapply K; eauto.
Qed.
Lemma ffill_gives op zx zo n v : fills op zx zo -> n > 0 -> vhas v (wide n zx) ->
  exists outs po, gives (FFill op) v outs /\ vhas outs (wide n zo) /\ vhas po zo /\ all_zero po /\ held po (rows n v) (rows n outs) /\
    forall m pv, m > 0 -> vhas pv (wide m zx) -> rows m pv = present (rows n v) -> exists o, gives op pv o /\ picked (rows n v) (rows n outs) = rows m o.
Proof.
  intros FF Hn V. destruct (FF) as (L & F & P & zs & W & Q).
  destruct (shaped_stream (FFill op) zx zo (Tup [zo; zs]) v None n) as (outs & sf & s0 & os & C & Go & Eo & _ & _ & G0 & E0 & S0 & ST & R); auto; try exact I; try apply V; [now apply ws_ffill|].
  destruct S0 as (o0 & s1 & S0). assert (V0 : vhas (row 0 v) zx) by (apply (row_vhas n); auto).
  rewrite call_false_g in S0 by (try exact I; apply V0). apply ffill_fwd_none in S0 as (_ & o1 & s2 & i1 & s3 & F1 & _ & _ & _ & ->); [|apply V0|eapply well_shaped_genuine, W].
  assert (Vp : vhas (Tup [vmap zeros_like o1; i1]) (Tup [zo; zs])) by now split.
  apply vhas_tup_inv in Vp as (l & El & Vl). injection El as <-. inversion Vl as [|? ? ? ? Vz Vl']; subst. inversion Vl' as [|? ? ? ? Vi _]; subst.
  destruct (fill_run op zx zo zs W P Q (rows n v) (rows_vhas n v zx V) _ _ os sf Vz Vi ST) as (sp & R1 & R2 & R3).
  assert (EO : os = rows n outs).
  { rewrite rows_length in R3. apply (@nth_ext val _ _ (Tup []) (Tup [])); [rewrite R3; symmetry; apply rows_length|]. intros i Hi. rewrite R3 in Hi. rewrite FillFacts.rows_nth by exact Hi.
    symmetry. now apply R. }
  rewrite EO in *. exists outs, (vmap zeros_like o1). split; [now exists sf, (Tup [vmap zeros_like o1; i1])|]. split; [now split|]. split; [exact Vz|]. split; [apply zeros_zero|]. split; [exact R2|].
  intros m pv Hm Vp Er. destruct (shaped_stream op zx zo zs pv None m W L Hm (proj1 Vp) (proj2 Vp) I) as (o & sf' & s0' & os' & C' & Go' & Eo' & _ & _ & _ & _ & S0' & ST' & R').
  exists o. split; [now exists sf', s0'|]. destruct S0' as (o0' & s1' & S0').
  assert (Vp0 : vhas (row 0 pv) zx) by (apply (row_vhas m); auto).
  assert (s0' = i1) as ->.
  { eapply (shaped_initial_eq op zx zo zs (row 0 pv) (row 0 v)); [exact W|exact Vp0|exact V0|exact S0'|]. rewrite call_false_g; [exact F1|apply V0|exact I]. }
  pose proof ST' as ST2. rewrite Er, R1 in ST'. injection ST' as E1 E2. rewrite E1.
  assert (LO : length os' = m).
  { apply steps_length in ST2. rewrite rows_length in ST2. exact ST2. }
  apply (@nth_ext val _ _ (Tup []) (Tup [])); [rewrite LO; symmetry; apply rows_length|]. intros i Hi. rewrite LO in Hi. rewrite FillFacts.rows_nth by exact Hi. symmetry. now apply R'.
Qed.
Theorem agree_ffill a b zx zo : agree a b zx -> fills a zx zo -> fills b zx zo -> agree (FFill a) (FFill b) zx.
Proof.
  intros A FA FB n v Hn G E. assert (V : vhas v (wide n zx)) by now split.
  destruct (ffill_gives a zx zo n v FA Hn V) as (oa & pa & GA & VA & VPA & ZA & HA & KA).
  destruct (ffill_gives b zx zo n v FB Hn V) as (ob & pb & GB & VB & VPB & ZB & HB & KB).
  assert (pb = pa) as -> by (apply zero_same; auto; [destruct VPA, VPB; congruence|apply VPB|apply VPA]).
  assert (EP : picked (rows n v) (rows n oa) = picked (rows n v) (rows n ob)).
  { destruct (present (rows n v)) as [|x xs] eqn:EX.
    - assert (K : forall os, picked (rows n v) os = []); [|now rewrite !K]. intros os. unfold present in EX. unfold picked. clear - EX. revert os EX.
      induction (rows n v) as [|y ys IH]; intros [|o os] EX; try reflexivity. cbn [filter combine fst] in EX |- *. destruct (missing y); cbn [negb] in EX |- *; [now apply IH|discriminate].
    - destruct (present_exists n v) as (m & pv & Hm & Gp & Sp & Rp); [apply V|apply (wide_series n v zx); auto; apply FA|rewrite EX; discriminate|].
      assert (Vp : vhas pv (wide m zx)).
      { split; [exact Gp|]. apply series_tall in Sp as [_ Tp]. rewrite (sig_tall m pv Tp). unfold wide. f_equal.
        assert (In (row 0 pv) (rows n v)) as Hi.
        { assert (In (row 0 pv) (present (rows n v))) as Hi; [rewrite <- Rp; apply (in_map (fun i => row i pv)), in_seq; lia|]. now apply filter_In in Hi. }
        pose proof (rows_vhas n v zx V) as HV. rewrite Forall_forall in HV. apply HV, Hi. }
      rewrite EX in Rp. destruct (KA m pv Hm Vp Rp) as (qa & QA & ->). destruct (KB m pv Hm Vp Rp) as (qb & QB & ->).
      destruct (A m pv Hm (proj1 Vp) (proj2 Vp)) as (q & R1 & R2). now rewrite (gives_one _ _ _ _ QA R1), (gives_one _ _ _ _ QB R2). }
  assert (oa = ob) as <-; [|now exists oa]. apply (vhas_eq n zo); auto. intros i Hi.
  assert (ER : rows n oa = rows n ob) by (apply (held_same pa (rows n v)); auto; now rewrite !rows_length).
  rewrite <- (FillFacts.rows_nth n oa i (Tup [])), ER by exact Hi. now apply FillFacts.rows_nth.
Qed.
(** Nothing missing. *)
Theorem ffill_nothing op zx zo n v : fills op zx zo -> n > 0 -> genuine v -> sig v = wide n zx ->
  (forall i, i < n -> missing (row i v) = false) -> exists o, gives (FFill op) v o /\ gives op v o.
Proof.
  intros F Hn G E M. assert (V : vhas v (wide n zx)) by now split.
  destruct (ffill_gives op zx zo n v F Hn V) as (o & po & GO & VO & _ & _ & _ & K).
  assert (MR : Forall (fun x => missing x = false) (rows n v)).
  { apply Forall_forall. intros x Hx. apply in_map_iff in Hx as (i & <- & Hi). apply in_seq in Hi. apply M. lia. }
  assert (EP : present (rows n v) = rows n v).
  { unfold present. clear - MR. induction MR as [|x l Hx _ IH]; [reflexivity|]. cbn [filter]. rewrite Hx. cbn [negb]. now rewrite IH. }
  destruct (K n v Hn V (eq_sym EP)) as (q & GQ & EQ). exists o. split; [exact GO|].
  assert (o = q) as ->; [|exact GQ]. apply (vhas_eq n zo); auto; [now apply (gives_vhas op zx zo n v); auto; apply fills_fits|]. intros i Hi.
  rewrite <- (FillFacts.rows_nth n o i (Tup [])), <- (FillFacts.rows_nth n q i (Tup [])) by exact Hi. f_equal. rewrite <- EQ. unfold picked. clear - MR.
  assert (L : length (rows n o) = length (rows n v)) by now rewrite !rows_length. revert MR L. generalize (rows n v), (rows n o). intros l l' MR. revert l'.
  induction MR as [|x l Hx _ IH]; intros [|y l'] L; try discriminate; [reflexivity|]. cbn [combine filter fst]. rewrite Hx. cbn [negb map snd]. f_equal. apply IH. now injection L.
Qed.
End AlgebraFacts.
