(** * ImplComp: closed forms of the stateless operators and of the compositions:
    momentum, crossovers, volatility, MACD and the crossing signals. *)
From Coq Require Import String List ZArith Bool Lia.
From Verif Require Import Num Py PyFacts Tensor Streamable Spec StreamFacts TensorFacts StreamProofs
  WfFacts Meta Common Finance Series Formulas EvalFacts Implements ImplMeta ImplBasic ImplScalar.
Import ListNotations.

Section ImplComp.
Context {N : FOps}.

(** ** make_streamable *)
Definition arglist {A} (v : pyval A) : list (pyval A) := match v with Tup l | Lst l => l | _ => [v] end.
(** [E'] of the newest element *)
Definition newest {X} (E : pyval (X -> tensor)) : pyval (list X -> tensor) :=
  vmap (fun g h => match h with [] => dummy | x :: _ => g x end) E.
Lemma at_newest {X} (E : pyval (X -> tensor)) x h : at_ (newest E) (x :: h) = at_ E x.
Proof. unfold at_, newest. now rewrite vmap_vmap. Qed.
Lemma stateless_implements {X} fn (P : list X -> Prop) EI E :
  P [] -> (forall x h, P (x :: h) -> P h) ->
  typed (fun x => exists h, P (x :: h)) EI -> typed (fun x => exists h, P (x :: h)) E ->
  (forall x h, P (x :: h) -> fn (arglist (at_ EI x)) = Ok (at_ E x)) ->
  implements (make_streamable fn) P EI (newest E) (Tup []).
Proof.
  intros P0 Pt T1 T2 H.
  assert (K : forall x h st, P (x :: h) -> st = None \/ st = Some (Tup []) ->
    forward_step (make_streamable fn) (at_ EI x) st = Ok (at_ (newest E) (x :: h), Tup [], Tup [])).
  { intros x h st Hx Hst. specialize (H x h Hx). rewrite at_newest.
    transitivity (let* output := fn (arglist (at_ EI x) ++ []) in @Ok out3 (output, Tup [], Tup [])).
    - destruct Hst as [->| ->]; reflexivity.
    - rewrite app_nil_r. rewrite H. reflexivity. }
  split; auto.
  - destruct T2 as [A B]. split; [now apply pyok_vmap|]. unfold newest. rewrite leaves_vmap, Forall_map.
    eapply Forall_impl; [|exact B]. intros g (sg & Hg). exists sg. intros [|x h] [Hx NE]; [easy|].
    apply Hg. eauto.
  - apply typed_nil.
Qed.

Lemma fork_implements {X} n (P : list X -> Prop) g :
  P [] -> (forall x h, P (x :: h) -> P h) -> typed (fun x => exists h, P (x :: h)) (Leaf g) ->
  implements (Fork n) P (Leaf g) (newest (Tup (repeat (Leaf g) n))) (Tup []).
Proof.
  intros. apply stateless_implements; auto.
  - apply typed_tup. apply Forall_forall. intros E HE. apply repeat_spec in HE. now subst.
  - intros x h Hx. cbn [at_ vmap arglist]. now rewrite map_repeat.
Qed.
Lemma identity_implements {X} (P : list X -> Prop) g :
  P [] -> (forall x h, P (x :: h) -> P h) -> typed (fun x => exists h, P (x :: h)) (Leaf g) ->
  implements Identity P (Leaf g) (newest (Leaf g)) (Tup []).
Proof. intros. apply stateless_implements; auto. Qed.
Lemma bin_implements {X} ff fi s (P : list X -> Prop) (a b : X -> list F) :
  P [] -> (forall x h, P (x :: h) -> P h) ->
  (forall x h, P (x :: h) -> length (a x) = prod s /\ length (b x) = prod s) ->
  implements (make_streamable (bin_fn (tbin ff fi))) P (Tup [Leaf (fun x => mkF s (a x)); Leaf (fun x => mkF s (b x))])
    (newest (Leaf (fun x => mkF s (map2 ff (a x) (b x))))) (Tup []).
Proof.
  intros P0 Pt HL. apply stateless_implements; auto.
  - ttup; apply typed_mkF; intros x (h & Hx); now apply HL in Hx.
  - apply typed_mkF. intros x (h & Hx). apply HL in Hx as [H1 H2]. rewrite map2_length; lia.
  - intros x h Hx. cbn [at_ vmap map arglist]. unfold bin_fn. args. now rewrite tbin_same.
Qed.

(** ** Momentum *)
Lemma trail_now {X} (h : list X) d : trail (hd d) h = h.
Proof. induction h; simpl; congruence. Qed.
Lemma shaped_hd {A} s (h : list (list A)) z : shaped s h -> h <> [] -> length (hd z h) = prod s.
Proof. intros H NE. destruct h; [easy|]. now inversion H. Qed.
Lemma chain_out {X} ops (P : list X -> Prop) EI EO ESs EO' :
  chain ops P EI EO ESs -> typed (fun h => P h /\ h <> []) EO' ->
  (forall h, P h -> h <> [] -> at_ EO' h = at_ EO h) -> chain ops P EI EO' ESs.
Proof.
  intros CH T H. split; try apply CH; auto.
  - intros x h out Hx. rewrite H by (auto; discriminate). now apply CH.
  - intros x out Hx. rewrite H by (auto; discriminate). now apply CH.
Qed.
Lemma each_now s (h : list (list F)) x : length x = prod s -> each s now (x :: h) = x.
Proof. exact (each_hd s x h). Qed.
Lemma trail_shaped {X A} s (f : list X -> list A) h : (forall g, g <> [] -> length (f g) = prod s) -> shaped s (trail f h).
Proof. intros H. induction h; constructor; auto. apply H. discriminate. Qed.
Lemma trail_short {X Y} (f : list X -> Y) h : short h -> short (trail f h).
Proof. intros H. eapply short_le; [exact H|]. now rewrite trail_length. Qed.
Definition two_rows s (h : list (list F * list F)) : Prop :=
  shaped s (map fst h) /\ shaped s (map snd h) /\ short h.
Lemma two_rows_nil s : two_rows s [].
Proof. split; [constructor|]. split; [constructor|apply short_nil]. Qed.
Lemma two_rows_tl s x h : two_rows s (x :: h) -> two_rows s h.
Proof. intros (H1 & H2 & H3). inversion H1; inversion H2; subst. split; auto. split; auto. now apply short_tl in H3. Qed.
Lemma typed_rowin s : typed (fun x => exists h, ok_rows s (x :: h)) (Leaf (mkF s)).
Proof. apply typed_mkF. intros x (h & H & _). now inversion H. Qed.

(** Two operators applied to the same input, then a binary operation. *)
Lemma fork_join_bin ff fi s o1 o2 f1' f2' S1 S2 :
  implements o1 (ok_rows s) (Leaf (mkF s)) (Leaf (fun h => mkF s (f1' h))) S1 ->
  implements o2 (ok_rows s) (Leaf (mkF s)) (Leaf (fun h => mkF s (f2' h))) S2 ->
  (forall h, ok_rows s h -> h <> [] -> length (f1' h) = prod s /\ length (f2' h) = prod s) ->
  exists ESs, chain [Fork 2; Join [o1; o2]; make_streamable (bin_fn (tbin ff fi))] (ok_rows s) (Leaf (mkF s))
    (Leaf (fun h => mkF s (map2 ff (f1' h) (f2' h)))) ESs.
Proof.
  intros I1 I2 HL. eexists. eapply chain_out.
  - eapply (chain_cons (hd [])).
    + apply fork_implements; [apply ok_rows_nil|apply ok_rows_tl|apply typed_rowin].
    + eapply (chain_cons (fun h => (f1' h, f2' h))).
      * eapply implements_join; [apply ok_rows_nil|apply ok_rows_tl|].
        apply joined_cons; [exact I1|]. apply joined_cons; [exact I2|]. apply joined_nil.
      * apply chain_one. apply (bin_implements ff fi s (two_rows s) fst snd); [apply two_rows_nil|apply two_rows_tl|].
        intros x h (H1 & H2 & _). inversion H1; inversion H2; auto.
      * intros h _ _. reflexivity.
      * intros h H. induction h as [|x h IH]; [apply two_rows_nil|].
        destruct IH as (H1 & H2 & H3); [now apply ok_rows_tl in H|].
        destruct (HL _ H) as [L1 L2]; [discriminate|].
        split; [|split]; cbn [trail map fst snd]; try (constructor; auto).
        change ((f1' (x :: h), f2' (x :: h)) :: trail (fun h => (f1' h, f2' h)) h) with (trail (fun h => (f1' h, f2' h)) (x :: h)).
        apply trail_short, H.
    + intros [|x h] H NE; [easy|]. reflexivity.
    + intros h H. now rewrite trail_now.
  - apply typed_mkF. intros h [H NE]. destruct (HL h H NE). rewrite map2_length; lia.
  - intros [|x h] H NE; [easy|]. cbn [at_ vmap newest].
    rewrite (trail_now (x :: h) []). reflexivity.
Qed.
Lemma setduring_rows p s a : 
  implements (SetDuring (fsc a) (Z.of_nat p)) (ok_rows s) (Leaf (mkF s))
    (Leaf (fun h => mkF s (if length h <=? p then repeat a (prod s) else hd [] h))) (Tup [Leaf cnt]).
Proof.
  eapply implements_out.
  - apply (setduring_implements F32 a p (ok_rows s) (Leaf (mkF s)));
      [apply ok_rows_nil|apply ok_rows_tl|now intros h []|apply typed_rowin|].
    intros g x h [<-|[]] _. reflexivity.
  - apply typed_mkF. intros h [[H _] NE]. destruct (length h <=? p); [apply repeat_length|now apply shaped_hd].
  - intros [|x h] H NE; [easy|]. cbn [at_ vmap length hd].
    change (S (length h) <=? p) with (length h <? p). now destruct (length h <? p).
Qed.

Lemma setduring_each p s a :
  implements (SetDuring (fsc a) (Z.of_nat p)) (ok_rows s) (Leaf (mkF s))
    (Leaf (fun h => mkF s (each s (fun c => if length c <=? p then a else now c) h))) (Tup [Leaf cnt]).
Proof.
  eapply implements_out; [apply setduring_rows|apply typed_mkF; intros; apply each_length|].
  intros [|x h] [H _] NE; [easy|]. cbn [at_ vmap]. do 2 f_equal. inversion H; subst.
  rewrite (each_if s (length (x :: h) <=? p) (fun _ => a) now).
  - destruct (length (x :: h) <=? p); [apply each_const|]. now apply each_now.
  - intros j _. now rewrite column_length.
Qed.

(** ** Concatenation of chains *)
Lemma compose_loop_app l2 : forall l1 i out o n ini, l1 <> [] ->
  compose_loop l1 i out = Ok (Some o, n, ini) ->
  compose_loop (l1 ++ l2) i out =
  let* (o', n', i') := compose_loop l2 o (Some o) in Ok (o', n ++ n', ini ++ i').
Proof.
  induction l1 as [|[op st] l1 IH]; intros i out o n ini NE E; [easy|].
  cbn [compose_loop app] in *. destruct (call op i st false) as [[[ou ns] is]|]; cbn [bind] in *; [|discriminate].
  destruct l1 as [|p l1].
  - cbn [compose_loop bind app] in *. inversion E; subst.
    destruct (compose_loop l2 o (Some o)) as [[[a b] c]|]; reflexivity.
  - destruct (compose_loop (p :: l1) ou (Some ou)) as [[[a b] c]|] eqn:E1; cbn [bind] in E; [|discriminate].
    inversion E; subst. rewrite (IH _ _ _ _ _ ltac:(discriminate) E1).
    destruct (compose_loop l2 o (Some o)) as [[[a' b'] c']|]; reflexivity.
Qed.
Lemma combine_app {A B} (a1 a2 : list A) (b1 b2 : list B) : length a1 = length b1 ->
  combine (a1 ++ a2) (b1 ++ b2) = combine a1 b1 ++ combine a2 b2.
Proof.
  revert b1. induction a1 as [|a a1 IH]; intros [|b b1] H; try discriminate; [reflexivity|].
  cbn. f_equal. apply IH. now inversion H.
Qed.
Lemma chain_app {X Y} (f : list X -> Y) ops1 ops2 (P : list X -> Prop) (Q : list Y -> Prop) EI EO1 S1 EI2 EO2 S2 :
  chain ops1 P EI EO1 S1 -> chain ops2 Q EI2 EO2 S2 -> ops1 <> [] ->
  (forall h, P h -> h <> [] -> at_ EO1 h = at_ EI2 (f h)) -> (forall h, P h -> Q (trail f h)) ->
  chain (ops1 ++ ops2) P EI (vmap (fun g h => g (trail f h)) EO2) (S1 ++ map (vmap (fun g h => g (trail f h))) S2).
Proof.
  intros C1 C2 NE HO HQ.
  assert (EM : forall h, map (fun E => at_ E h) (map (vmap (fun g h => g (trail f h))) S2) = map (fun E => at_ E (trail f h)) S2).
  { intros h. rewrite map_map. apply map_ext. intros E. apply (at_vmap (trail f)). }
  assert (NC : forall B (l : list B), length ops1 = length l -> combine ops1 l <> []).
  { intros B l H. destruct ops1; [easy|]. destruct l; [discriminate|]. discriminate. }
  assert (L1 := ch_len _ _ _ _ _ C1). assert (L2 := ch_len _ _ _ _ _ C2).
  split; try apply C1.
  - eapply (typed_pull (trail f)); [apply C2|]. intros h [H1 H2]. split; auto. intros E. now apply trail_nil in E.
  - apply Forall_app. split; [apply C1|]. apply Forall_map. eapply Forall_impl; [|apply C2]. intros E T.
    eapply (typed_pull (trail f)); [exact T|]. auto.
  - rewrite !app_length, map_length. lia.
  - intros x h out H. rewrite !map_app, combine_app by (now rewrite !map_length).
    erewrite compose_loop_app; [|apply NC; now rewrite !map_length|apply (ch_step _ _ _ _ _ C1); exact H].
    rewrite !EM, HO by (auto; discriminate).
    change (f (x :: h)) with (hd (f (x :: h)) (trail f (x :: h))) at 1.
    cbn [trail hd]. rewrite (ch_step _ _ _ _ _ C2 (f (x :: h)) (trail f h)) by (apply (HQ (x :: h)); assumption).
    cbn [bind]. rewrite (at_vmap (trail f)). reflexivity.
  - intros x out H. rewrite app_length, repeat_app, !map_app, combine_app by (now rewrite repeat_length).
    erewrite compose_loop_app; [|apply NC; now rewrite repeat_length|apply (ch_init _ _ _ _ _ C1); exact H].
    rewrite !EM, HO by (auto; discriminate).
    rewrite (ch_init _ _ _ _ _ C2 (f [x])) by (apply (HQ [x]); assumption).
    cbn [bind]. rewrite (at_vmap (trail f)). reflexivity.
Qed.

Lemma column_trail s f j h : j < prod s -> column f0 j (trail (each s f) h) = trail f (column f0 j h).
Proof.
  intros Hj. induction h as [|x h IH]; [reflexivity|].
  cbn [trail column map]. f_equal; [|exact IH].
  unfold each. rewrite nth_indep with (d' := f (column f0 0 (x :: h))) by (now rewrite map_length, seq_length).
  rewrite (map_nth (fun j => f (column f0 j (x :: h)))). now rewrite seq_nth.
Qed.
Lemma each_trail {B} s (g : list F -> B) f h :
  each s g (trail (each s f) h) = each s (fun c => g (trail f c)) h.
Proof. apply each_ext. intros j Hj. now rewrite column_trail. Qed.
Lemma ok_rows_trail s f h : short h -> ok_rows s (trail (each s f) h).
Proof. intros H. split; [apply trail_shaped; intros; apply each_length|now apply trail_short]. Qed.
Lemma chain_each s f g o1 o2 S1 S2 :
  chain o1 (ok_rows s) (Leaf (mkF s)) (Leaf (fun h => mkF s (each s f h))) S1 ->
  chain o2 (ok_rows s) (Leaf (mkF s)) (Leaf (fun h => mkF s (each s g h))) S2 -> o1 <> [] ->
  exists S, chain (o1 ++ o2) (ok_rows s) (Leaf (mkF s)) (Leaf (fun h => mkF s (each s (fun c => g (trail f c)) h))) S.
Proof.
  intros C1 C2 NE. eexists. eapply chain_out.
  - apply (chain_app (each s f) _ _ _ _ _ _ _ _ _ _ C1 C2 NE).
    + intros h H Hn. reflexivity.
    + intros h [_ H]. now apply ok_rows_trail.
  - apply typed_mkF. intros. apply each_length.
  - intros h H Hn. cbn [at_ vmap]. now rewrite each_trail.
Qed.
Lemma implements_each_ext s op f g ES :
  implements op (ok_rows s) (Leaf (mkF s)) (Leaf (fun h => mkF s (each s f h))) ES ->
  (forall c, c <> [] -> g c = f c) ->
  implements op (ok_rows s) (Leaf (mkF s)) (Leaf (fun h => mkF s (each s g h))) ES.
Proof.
  intros IM H. eapply implements_out; [exact IM|apply typed_mkF; intros; apply each_length|].
  intros h _ NE. cbn [at_ vmap]. do 2 f_equal. apply each_ext. intros j _. apply H.
  intros E. apply NE. eapply column_nil; eauto.
Qed.
Lemma lag_each s p : p >= 1 ->
  implements (Lag (Z.of_nat p)) (ok_rows s) (Leaf (mkF s))
    (Leaf (fun h => mkF s (each s (ago p) h))) (Leaf (fun h => mkb F32 p s (wnd F32 p s h))).
Proof.
  intros Hp. eapply implements_out.
  - eapply implements_weaken; [apply (lag_implements F32 s p Hp)|apply ok_rows_nil|apply ok_rows_tl|now intros h []].
  - apply typed_mkF. intros; apply each_length.
  - intros h [H _] _. cbn [at_ vmap mkD]. unfold mkF. do 2 f_equal. unfold each, ago, column.
    rewrite (nth_list' f0 (nth p h _) (prod s)) at 1
      by (apply nth_shaped; [exact H|apply repeat_length]).
    f_equal. apply map_ext_in. intros j Hj.
    rewrite <- (map_nth (fun r : list F => nth j r f0)). f_equal.
    symmetry. apply nth_repeat.
Qed.
Lemma identity_each s : implements Identity (ok_rows s) (Leaf (mkF s))
    (Leaf (fun h => mkF s (each s now h))) (Tup []).
Proof.
  eapply implements_out; [apply identity_implements; [apply ok_rows_nil|apply ok_rows_tl|apply typed_rowin]|..].
  - apply typed_mkF. intros; apply each_length.
  - intros [|x h] [H _] NE; [easy|]. cbn [at_ vmap newest]. inversion H; subst.
    now rewrite each_now.
Qed.
Lemma fork_join_bin_each ff fi s o1 o2 f g S1 S2 :
  implements o1 (ok_rows s) (Leaf (mkF s)) (Leaf (fun h => mkF s (each s f h))) S1 ->
  implements o2 (ok_rows s) (Leaf (mkF s)) (Leaf (fun h => mkF s (each s g h))) S2 ->
  exists ESs, chain [Fork 2; Join [o1; o2]; make_streamable (bin_fn (tbin ff fi))] (ok_rows s) (Leaf (mkF s))
    (Leaf (fun h => mkF s (each s (fun c => ff (f c) (g c)) h))) ESs.
Proof.
  intros I1 I2. destruct (fork_join_bin ff fi s o1 o2 _ _ _ _ I1 I2) as [S C].
  { intros. now rewrite !each_length. }
  exists S. eapply chain_out; [exact C|apply typed_mkF; intros; apply each_length|].
  intros h _ _. cbn [at_ vmap]. now rewrite map2_each.
Qed.
Lemma chain_compose_each s ops f g ESs : chain (rev ops) (ok_rows s) (Leaf (mkF s)) (Leaf (fun h => mkF s (each s f h))) ESs ->
  (forall c, c <> [] -> g c = f c) ->
  exists ES, implements (Compose ops) (ok_rows s) (Leaf (mkF s)) (Leaf (fun h => mkF s (each s g h))) ES.
Proof. intros C H. eexists. eapply implements_each_ext; [apply implements_compose; exact C|exact H]. Qed.

Lemma momentum_implements s p : p >= 1 ->
  exists ES, implements (Momentum (Z.of_nat p)) (ok_rows s) (Leaf (mkF s))
    (Leaf (fun h => mkF s (each s (momentum p) h))) ES.
Proof.
  intros Hp. destruct (fork_join_bin_each fsub (Some isub) s _ _ _ _ _ _ (identity_each s) (lag_each s p Hp)) as [S C].
  destruct (chain_each s _ _ _ _ _ _ C (chain_one _ _ _ _ _ (setduring_each p s f0))) as [S' C']; [discriminate|].
  eapply chain_compose_each; [exact C'|].
  intros [|x c] NE; [easy|]. unfold momentum. rewrite trail_length. now destruct (length (x :: c) <=? p).
Qed.
Theorem momentum_streams s p : p >= 1 ->
  streams (Momentum (Z.of_nat p)) (ok_rows s) (tensors s) (fun hs => tensors s (map (each s (momentum p)) hs)).
Proof. intros Hp. destruct (momentum_implements s p Hp) as [ES IM]. eapply tensors_streams, IM. Qed.

(** ** SimpleMovingAverageCrossover *)
Definition crossover_code (slow fast : nat) (h : list F) : F :=
  fsub (if length h <? slow then f0 else sma fast h) (sma slow h).
Lemma crossover_implements s slow fast : slow >= 1 -> fast >= 1 ->
  exists ES, implements (SimpleMovingAverageCrossover (Z.of_nat slow) (Z.of_nat fast)) (ok_rows s) (Leaf (mkF s))
    (Leaf (fun h => mkF s (each s (crossover_code slow fast) h))) ES.
Proof.
  intros Hs Hf.
  destruct (chain_each s _ _ _ _ _ _ (chain_one _ _ _ _ _ (sma_implements s fast Hf))
    (chain_one _ _ _ _ _ (setduring_each (slow - 1) s f0))) as [S1 C1]; [discriminate|].
  destruct (chain_compose_each s [SetDuring (fsc f0) (Z.of_nat (slow - 1)); SimpleMovingAverage (Z.of_nat fast)] _
     (fun h => if length h <? slow then f0 else sma fast h) _ C1) as [S2 C2].
  { intros [|x c] NE; [easy|]. rewrite trail_length.
    destruct (Nat.ltb_spec (length (x :: c)) slow), (Nat.leb_spec (length (x :: c)) (slow - 1)); try lia; reflexivity. }
  destruct (fork_join_bin_each fsub (Some isub) s _ _ _ _ _ _ C2 (sma_implements s slow Hs)) as [S C].
  unfold SimpleMovingAverageCrossover. replace (Z.of_nat slow - 1)%Z with (Z.of_nat (slow - 1)) by lia.
  eapply chain_compose_each; [exact C|]. reflexivity.
Qed.
Theorem crossover_streams s slow fast : slow >= 1 -> fast >= 1 ->
  streams (SimpleMovingAverageCrossover (Z.of_nat slow) (Z.of_nat fast)) (ok_rows s) (tensors s)
    (fun hs => tensors s (map (each s (crossover_code slow fast)) hs)).
Proof. intros Hs Hf. destruct (crossover_implements s slow fast Hs Hf) as [ES IM]. eapply tensors_streams, IM. Qed.

(** ** Volatility *)
Lemma chain_scalar f g o1 o2 S1 S2 :
  chain o1 short (Leaf fsc) (Leaf (fun h => fsc (f h))) S1 ->
  chain o2 short (Leaf fsc) (Leaf (fun h => fsc (g h))) S2 -> o1 <> [] ->
  exists S, chain (o1 ++ o2) short (Leaf fsc) (Leaf (fun h => fsc (g (trail f h)))) S.
Proof.
  intros C1 C2 NE. eexists. apply (chain_app f _ _ _ _ _ _ _ _ _ _ C1 C2 NE); auto.
  intros h. apply trail_short.
Qed.
Lemma volatility_implements m r : m >= 1 -> r >= 1 -> feq f0 f0 = true ->
  exists ES, implements (Volatility (Z.of_nat m) (Z.of_nat r)) short (Leaf fsc)
    (Leaf (fun h => fsc (volatility m r h))) ES.
Proof.
  intros Hm Hr H0.
  destruct (chain_scalar _ _ _ _ _ _ (chain_one _ _ _ _ _ (log_ret_implements r Hr H0))
    (chain_one _ _ _ _ _ (implements_scalar _ _ _ (msd_implements [] m Hm)))) as [S1 C1]; [discriminate|].
  destruct (chain_scalar _ _ _ _ _ _ C1
    (chain_one _ _ _ _ _ (implements_scalar _ _ _ (setduring_each (Nat.max m r) [] f0)))) as [S2 C2]; [discriminate|].
  unfold Volatility. replace (Z.max (Z.of_nat m) (Z.of_nat r)) with (Z.of_nat (Nat.max m r)) by lia.
  eexists. eapply implements_out; [apply implements_compose; exact C2|apply typed_fsc|].
  intros [|x h] _ NE; [easy|]. cbn [at_ vmap]. do 2 f_equal. unfold volatility. rewrite trail_length.
  now destruct (length (x :: h) <=? Nat.max m r).
Qed.
Theorem volatility_streams m r : m >= 1 -> r >= 1 -> feq f0 f0 = true ->
  streams (Volatility (Z.of_nat m) (Z.of_nat r)) short scalars (fun hs => scalars (map (volatility m r) hs)).
Proof. intros Hm Hr H0. destruct (volatility_implements m r Hm Hr H0) as [ES IM]. eapply scalars_streams, IM. Qed.

(** ** MACD *)
Definition sig_hist (slow fast : nat) (s : list nat) (h : list (list F)) : list (list F) :=
  firstn (length h + 1 - slow) (trail (each s (macd slow fast)) h).
Lemma sig_hist_early slow fast s h : length h < slow -> sig_hist slow fast s h = [].
Proof. intros H. unfold sig_hist. now replace (length h + 1 - slow) with 0 by lia. Qed.
Lemma sig_hist_late slow fast s x h : slow <= S (length h) ->
  sig_hist slow fast s (x :: h) = each s (macd slow fast) (x :: h) :: sig_hist slow fast s h.
Proof.
  intros H. unfold sig_hist. cbn [length]. replace (S (length h) + 1 - slow) with (S (length h + 1 - slow)) by lia.
  reflexivity.
Qed.
Lemma sig_hist_ok slow fast s h : ok_rows s h -> ok_rows s (sig_hist slow fast s h).
Proof.
  intros [_ H]. destruct (ok_rows_trail s (macd slow fast) h H) as [H1 H2]. unfold sig_hist. split.
  - unfold shaped in *. rewrite <- (firstn_skipn (length h + 1 - slow)) in H1. now apply Forall_app in H1.
  - eapply short_le; [exact H2|]. rewrite firstn_length. lia.
Qed.
Lemma sig_hist_cons_ok slow fast s x h : ok_rows s (x :: h) -> 1 <= slow ->
  ok_rows s (each s (macd slow fast) (x :: h) :: sig_hist slow fast s h).
Proof.
  intros H Hs. destruct (sig_hist_ok slow fast s h) as [H1 H2]; [now apply ok_rows_tl in H|]. split.
  - constructor; [apply each_length|exact H1].
  - destruct H as [_ H]. eapply short_le; [exact H|]. cbn [length]. unfold sig_hist. rewrite firstn_length, trail_length. lia.
Qed.
Lemma each_sig_hist {B} slow fast s (f : list F -> B) h :
  each s f (sig_hist slow fast s h) =
  each s (fun c => f (firstn (length c + 1 - slow) (trail (macd slow fast) c))) h.
Proof.
  apply each_ext. intros j Hj. rewrite column_length, <- column_trail with (s := s) by assumption.
  unfold sig_hist, column. now rewrite firstn_map.
Qed.
Definition macd_st (slow fast m : nat) (s : list nat) : pyval (list (list F) -> tensor) :=
  Tup [Leaf cnt; seeded_st slow s (ema slow); seeded_st fast s (ema fast);
       vmap (fun g h => g (sig_hist slow fast s h)) (seeded_st m s (ema m))].
Lemma at_macd_st slow fast m s h : at_ (macd_st slow fast m s) h =
  Tup [Leaf (cnt h); at_ (seeded_st slow s (ema slow)) h; at_ (seeded_st fast s (ema fast)) h;
       at_ (seeded_st m s (ema m)) (sig_hist slow fast s h)].
Proof.
  rewrite <- (at_vmap (sig_hist slow fast s) (seeded_st m s (ema m)) h). reflexivity.
Qed.
Lemma macd_diff_F s a b {X} (h : list X) z c : int_op tless (cnt h) z = Ok (bsc c) ->
  macd_diff (mkF s a) (mkF s b) (cnt h) z = Ok (mkF s (if c then repeat f0 (prod s) else map2 fsub a b)).
Proof.
  intros E. unfold macd_diff. rewrite E. cbn [bind]. unfold tsub. rewrite tbin_same, zeros_like_F. apply tcond_F.
Qed.
Lemma seeded_solid p s f l h : solid (Tup [Leaf (mkF s l); at_ (seeded_st p s f) h]).
Proof. apply solid_pair. repeat constructor. Qed.
Lemma seeded_types p s f l l' h h' :
  same_types (Tup [Leaf (mkF s l); at_ (seeded_st p s f) h]) (Tup [Leaf (mkF s l'); at_ (seeded_st p s f) h']) = true.
Proof. reflexivity. Qed.
Definition macd_out (slow fast m : nat) (s : list nat) : pyval (list (list F) -> tensor) :=
  Tup [Leaf (fun h => mkF s (each s (ema slow) h)); Leaf (fun h => mkF s (each s (ema fast) h));
       Leaf (fun h => mkF s (each s (macd slow fast) h)); Leaf (fun h => mkF s (each s (macd_signal slow fast m) h));
       Leaf (fun h => mkF s (each s (macd_histogram slow fast m) h))].
Lemma macd_implements s slow fast m : slow >= 1 -> fast >= 1 -> m >= 1 ->
  implements (MovingAverageConvergenceDivergence (Z.of_nat slow) (Z.of_nat fast) (Z.of_nat m)) (ok_rows s)
    (Leaf (mkF s)) (macd_out slow fast m s) (macd_st slow fast m s).
Proof.
  intros Hs Hf Hm. apply implements_intro.
  - apply ok_rows_nil.
  - apply ok_rows_tl.
  - apply typed_rowin.
  - ttup; apply typed_mkF; intros; apply each_length.
  - ttup; [apply typed_cnt|now apply typed_seeded_st..|].
    eapply (typed_pull (sig_hist slow fast s)); [apply (typed_seeded_st m s (ema m) Hm)|].
    intros h. apply sig_hist_ok.
  - intros x h H. rewrite !at_macd_st. cbn [forward_step MovingAverageConvergenceDivergence].
    cbn [at_ vmap app]. unfold macd_step. args.
    change (Leaf (mkF s x)) with (at_ (Leaf (mkF s)) x).
    rewrite (im_call _ _ _ _ _ _ _ (ema_implements s slow Hs)) by assumption. cbn [bind].
    rewrite (im_call _ _ _ _ _ _ _ (ema_implements s fast Hf)) by assumption. cbn [bind].
    change (at_ (Leaf (fun h : list (list F) => mkF s (each s ?f h))) ?g) with (Leaf (mkF s (each s f g))).
    cbn [at_ vmap as_t bind].
    assert (EC := cnt_lt_pred x h slow Hs (proj2 H)).
    rewrite (macd_diff_F _ _ _ _ _ _ EC). cbn [bind].
    assert (EM : (if S (length h) <? slow then repeat f0 (prod s) else map2 fsub (each s (ema fast) (x :: h)) (each s (ema slow) (x :: h)))
      = each s (macd slow fast) (x :: h)).
    { rewrite map2_each, <- (each_const s f0 (x :: h)). symmetry.
      apply (each_if s _ (fun _ => f0) (fun c => fsub (ema fast c) (ema slow c))). intros j _. unfold macd. now rewrite column_length. }
    rewrite EM.
    assert (CE := im_call _ _ _ _ _ (each s (macd slow fast) (x :: h)) (sig_hist slow fast s h) (ema_implements s m Hm)
      (sig_hist_cons_ok slow fast s x h H Hs)).
    match type of CE with ?l = ?r => match goal with |- bind ?e _ = _ => replace e with r by (symmetry; exact CE) end end.
    cbn [bind]. rewrite EC. cbn [bind]. rewrite zeros_like_F.
    rewrite tf_cond_pick'; [|apply seeded_solid..|apply seeded_types]. cbn [bind].
    assert (EH : int_op tless (cnt h) (Z.of_nat slow + Z.of_nat m - 2) = Ok (bsc (S (length h) + 1 <? slow + m))).
    { apply (cnt_ltb x); [apply H|]. destruct (Z.ltb_spec (Z.of_nat (length h)) (Z.of_nat slow + Z.of_nat m - 2)),
        (Nat.ltb_spec (S (length h) + 1) (slow + m)); auto; lia. }
    assert (ES : each s (macd_signal slow fast m) (x :: h) =
      if S (length h) <? slow then repeat f0 (prod s) else each s (ema m) (each s (macd slow fast) (x :: h) :: sig_hist slow fast s h)).
    { destruct (Nat.ltb_spec (S (length h)) slow).
      - rewrite <- (each_const s f0 (x :: h)). apply each_ext. intros j _. unfold macd_signal. rewrite column_length.
        cbn [length]. destruct (Nat.ltb_spec (S (length h)) slow); [reflexivity|lia].
      - rewrite <- sig_hist_late by assumption. rewrite each_sig_hist. apply each_ext. intros j _.
        unfold macd_signal. rewrite column_length. cbn [length]. destruct (Nat.ltb_spec (S (length h)) slow); [lia|reflexivity]. }
    assert (EG : (if S (length h) + 1 <? slow + m then repeat f0 (prod s) else map2 fsub (each s (macd slow fast) (x :: h)) (each s (macd_signal slow fast m) (x :: h)))
      = each s (macd_histogram slow fast m) (x :: h)).
    { rewrite map2_each, <- (each_const s f0 (x :: h)). symmetry.
      apply (each_if s _ (fun _ => f0) (fun c => fsub (macd slow fast c) (macd_signal slow fast m c))). intros j _. unfold macd_histogram. now rewrite column_length. }
    rewrite ES in EG. unfold macd_out. cbn [at_ vmap map]. rewrite ES. clear ES. revert EG.
    destruct (Nat.ltb_spec (S (length h)) slow); intros EG; cbn [item nth_error bind as_t at_ vmap].
    + rewrite (macd_diff_F _ _ _ _ _ _ EH). cbn [bind]. rewrite EG. rewrite (cnt_next x). cbn [bind].
      rewrite (sig_hist_early _ _ _ (x :: h)) by (cbn [length]; lia). rewrite (sig_hist_early _ _ _ h) by (cbn [length]; lia). reflexivity.
    + rewrite (macd_diff_F _ _ _ _ _ _ EH). cbn [bind]. rewrite EG. rewrite (cnt_next x). cbn [bind].
      rewrite <- sig_hist_late by assumption. reflexivity.
  - intros x H. rewrite !at_macd_st. cbn [forward_step MovingAverageConvergenceDivergence].
    cbn [at_ vmap app]. unfold macd_step. args.
    change (Leaf (mkF s x)) with (at_ (Leaf (mkF s)) x).
    rewrite (im_call0 _ _ _ _ _ _ (ema_implements s slow Hs)) by assumption.
    rewrite (im_call0 _ _ _ _ _ _ (ema_implements s fast Hf)) by assumption.
    rewrite (im_call _ _ _ _ _ _ _ (ema_implements s slow Hs)) by assumption.
    rewrite (im_call _ _ _ _ _ _ _ (ema_implements s fast Hf)) by assumption. cbn [bind at_ vmap as_t].
    rewrite (sig_hist_early _ _ _ []) by (cbn [length]; lia).
    change (isc 0) with (cnt (@nil (list F))).
    assert (EC := cnt_lt_pred x [] slow Hs (proj2 H)).
    rewrite (macd_diff_F _ _ _ _ _ _ EC). cbn [bind].
    match goal with |- context [Leaf (mkF s (if ?c then ?a else ?b))] => set (mr := if c then a else b) end.
    assert (LM : length mr = prod s).
    { unfold mr. destruct (_ <? slow); [apply repeat_length|]. rewrite map2_length; now rewrite !each_length. }
    assert (OK1 : ok_rows s [mr]).
    { split; [repeat constructor; exact LM|]. destruct H as [_ H]. exact H. }
    assert (CE := im_call _ _ _ _ _ _ [] (ema_implements s m Hm) OK1).
    assert (CE0 := im_call0 _ _ _ _ _ _ (ema_implements s m Hm) OK1).
    change (at_ (Leaf (mkF s)) mr) with (Leaf (mkF s mr)) in *.
    rewrite CE0, CE. reflexivity.
Qed.
Theorem macd_streams s slow fast m : slow >= 1 -> fast >= 1 -> m >= 1 ->
  streams (MovingAverageConvergenceDivergence (Z.of_nat slow) (Z.of_nat fast) (Z.of_nat m)) (ok_rows s) (tensors s)
    (fun hs => Tup [tensors s (map (each s (ema slow)) hs); tensors s (map (each s (ema fast)) hs);
      tensors s (map (each s (macd slow fast)) hs); tensors s (map (each s (macd_signal slow fast m)) hs);
      tensors s (map (each s (macd_histogram slow fast m)) hs)]).
Proof.
  intros Hs Hf Hm. eapply streams_of; [apply (macd_implements s slow fast m); assumption|discriminate|..].
  - intros xs NE. cbn [stacked vmap]. now rewrite stack_mkF.
  - intros hs NE. cbn [stacked vmap map macd_out]. now rewrite !stack_each.
Qed.
End ImplComp.
