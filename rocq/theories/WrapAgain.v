(** * WrapAgain: compositions, MACD and lagged correlations once their counters have wrapped (C46). *)
From Coq Require Import List ZArith Bool Lia.
From Verif Require Import Num Py PyFacts Tensor TensorFacts Streamable Spec StreamFacts StreamProofs EvalFacts Meta Common Finance
  GenuineBase InitFacts Shapes ShapeFacts ShapeOps ShapeProofs WfFacts RunFacts ShapeMain Series Vectors VectorErrors Ints IntErrors.
Import ListNotations.

Section WrapAgain.
Context {N : FOps}.
Definition tick (i : nat) : tensor := isc (wrap32 (Z.of_nat i)).
Definition late (i : nat) : Prop := (2147483648 <= Z.of_nat i < 4294967296)%Z.
Lemma tick_next i : tadd (tick i) (isc 1) = Ok (tick (S i)).
Proof. pose proof (cnt_next 0 (repeat 0 i)) as H. unfold cnt in H. cbn [length] in H. rewrite repeat_length in H. exact H. Qed.
Lemma tick_lt i p : late i -> (0 <= p)%Z -> tless (tick i) (isc p) = Ok (bsc true).
Proof.
  intros H P. unfold tick. assert (E : tless (isc (wrap32 (Z.of_nat i))) (isc p) = Ok (bsc (wrap32 (Z.of_nat i) <? p)%Z)) by apply tcmp_ii. rewrite E. do 2 f_equal.
  unfold late in H. apply Z.ltb_lt. unfold wrap32. replace (Z.of_nat i + 2147483648)%Z with ((Z.of_nat i - 2147483648) + 1 * 4294967296)%Z by lia. rewrite Z.mod_add by lia. rewrite Z.mod_small; lia.
Qed.
Lemma cond_true t f r : tf_cond (bsc true) (Ok t) f = Ok r -> r = unpack_singleton (unpack_singleton t).
Proof.
  unfold tf_cond. change (as_pred (bsc true)) with (@Ok bool true). cbn [bind].
  destruct f as [f|[]]; try discriminate.
  - destruct (negb _); [discriminate|]. intros H. apply bind_ok in H as (a & _ & H). apply bind_ok in H as (b & _ & H). destruct (pv_eqb dtype_eqb a b); [|discriminate]. now injection H as <-.
  - unfold run_branch. cbn [bind]. destruct (nonempty_result t); [|discriminate]. now injection 1 as <-.
Qed.
(** What holds of every step holds of every row. *)
Lemma steps_rows op zx zo zs (R : nat -> val -> Prop) (Q : nat -> val -> Prop) : well_shaped op zx zo zs ->
  (forall i x s o s' ini, vhas x zx -> genuine s -> sig s = zs -> R i s -> forward_step op x (Some s) = Ok (o, s', ini) -> R (S i) s' /\ Q i o) ->
  forall xs k s os sf, Forall (fun x => vhas x zx) xs -> genuine s -> sig s = zs -> R k s -> steps op s xs = Ok (os, sf) ->
  length os = length xs /\ forall i, i < length xs -> Q (k + i) (nth i os (Tup [])).
Proof.
  intros W H. induction xs as [|x xs IH]; intros k s os sf V G Sg HR E; cbn [steps] in E; [injection E as <- <-; split; [reflexivity|cbn; lia]|].
  apply bind_ok in E as ([[o s'] ini] & C & E). apply bind_ok in E as ([os' sf'] & E & E'). injection E' as <- <-. inversion V as [|? ? Vx Vr]; subst.
  destruct (shaped_step op zx zo (sig s) x (Some s) W (proj1 Vx) (proj2 Vx) (conj G eq_refl)) as (o1 & s1 & i1 & C1 & _ & _ & G1 & S1 & _). rewrite C in C1. injection C1 as <- <- <-.
  rewrite call_false_g in C by (try exact G; apply Vx).
  destruct (H k x s o s' ini Vx G eq_refl HR C) as [HR' HQ]. destruct (IH (S k) s' os' sf' Vr G1 S1 HR' E) as [L K]. split; [cbn; now rewrite L|].
  intros [|i] Hi; [rewrite Nat.add_0_r; exact HQ|]. cbn [nth]. replace (k + S i) with (S k + i) by lia. apply K. cbn in Hi. lia.
Qed.
Theorem wrapped op zx zo zs v n (R : nat -> val -> Prop) (Q : nat -> val -> Prop) :
  well_shaped op zx zo zs -> leaves zx <> [] -> n > 0 -> genuine v -> sig v = wide n zx ->
  (forall x o s' s0, vhas x zx -> forward_step op x None = Ok (o, s', s0) -> R 0 s0) ->
  (forall i x s o s' ini, vhas x zx -> genuine s -> sig s = zs -> R i s -> forward_step op x (Some s) = Ok (o, s', ini) -> R (S i) s' /\ Q i o) ->
  exists outs sf s0, call op v None true = Ok (outs, sf, s0) /\ sig outs = wide n zo /\ forall i, i < n -> vhas (row i outs) zo /\ Q i (row i outs).
Proof.
  intros W L Hn G S H0 H1. destruct (shaped_stream op zx zo zs v None n W L Hn G S I) as (outs & sf & s0 & os & C & Go & So & _ & _ & G0 & S0 & St & E & K).
  assert (VR : Forall (fun x => vhas x zx) (rows n v)).
  { apply Forall_forall. intros x Hx. unfold rows in Hx. apply in_map_iff in Hx as (k & <- & Hk). apply in_seq in Hk. apply (row_vhas n); [now split|lia]. }
  exists outs, sf, s0. split; [exact C|]. split; [exact So|]. destruct St as (o & s' & C0). assert (V0 : vhas (row 0 v) zx) by (apply (row_vhas n); [now split|lia]).
  rewrite call_false_g in C0 by (try exact I; apply V0).
  destruct (steps_rows op zx zo zs R Q W H1 _ 0 s0 os sf VR G0 S0 (H0 _ _ _ _ V0 C0) E) as [Lo P]. intros i Hi. split; [apply (row_vhas n); [now split|exact Hi]|]. rewrite (K i Hi). apply (P i). unfold rows. now rewrite map_length, seq_length.
Qed.

(** ** A composition under SetDuring *)
Lemma set_during_tick d (a : elt d) p i y o s' ini : (0 <= p)%Z ->
  set_during_step (mkT [] (mkD d [a])) p y (Some (Tup [Leaf (tick i)])) = Ok (o, s', ini) ->
  s' = Tup [Leaf (tick (S i))] /\ (late i -> forall t, o = Leaf t -> t = mkT (sh t) (mkD d (repeat a (prod (sh t))))).
Proof.
  intros P E. unfold set_during_step in E. cbn [item nth_error bind as_t] in E. change (pyint_like (tick i) ?z) with (@Ok tensor (isc z)) in E. cbn [bind] in E.
  apply bind_ok in E as (inp & Hi & E). rewrite tick_next in E. cbn [bind] in E. injection E as <- <- <-. split; [reflexivity|]. intros Li t ->.
  rewrite (tick_lt i p Li P) in Hi. cbn [bind] in Hi.
  destruct y as [u|l|l|l|l].
  - cbn [map_fn] in Hi. destruct (fill (sh u) (mkT [] (mkD d [a]))) as [f|] eqn:Ef; cbn [bind] in Hi.
    + apply cond_true in Hi. cbn in Hi. injection Hi as ->. assert (E2 : fill (sh u) (mkT [] (mkD d [a])) = Ok (mkT (sh u) (mkD d (repeat a (prod (sh u)))))) by now destruct d. rewrite E2 in Ef. now injection Ef as <-.
    + assert (E2 : fill (sh u) (mkT [] (mkD d [a])) = Ok (mkT (sh u) (mkD d (repeat a (prod (sh u)))))) by now destruct d. rewrite E2 in Ef. discriminate Ef.
  - exfalso. cbn in Hi. now apply bind_ok in Hi as (w & _ & Hi).
  - exfalso. cbn in Hi. now apply bind_ok in Hi as (w & _ & Hi).
  - exfalso. cbn in Hi. now apply bind_ok in Hi as (w & _ & Hi).
  - exfalso. cbn in Hi. discriminate Hi.
Qed.
Lemma compose_loop_last op : forall ops sts st x out o ns is, length sts = length ops ->
  compose_loop (combine (ops ++ [op]) (sts ++ [st])) x out = Ok (o, ns, is) ->
  exists y z s' i' ns' is', o = Some z /\ ns = ns' ++ [s'] /\ is = is' ++ [i'] /\ length ns' = length ops /\ length is' = length ops /\ call op y st false = Ok (z, s', i').
Proof.
  induction ops as [|a ops IH]; intros [|b sts] st x out o ns is L H; try discriminate L; cbn [app combine compose_loop] in H.
  - apply bind_ok in H as ([[z s'] i'] & C & H). injection H as <- <- <-. exists x, z, s', i', [], []. auto 10.
  - apply bind_ok in H as ([[z s'] i'] & C & H). apply bind_ok in H as ([[o2 ns2] is2] & H & E). injection E as <- <- <-.
    apply IH in H as (y & z' & s2 & i2 & ns' & is' & -> & -> & -> & L1 & L2 & C2); [|cbn in L; lia].
    exists y, z', s2, i2, (s' :: ns'), (i' :: is'). cbn. auto 10.
Qed.
Definition under (k i : nat) (s : val) : Prop := exists l, s = Tup (l ++ [Tup [Leaf (tick i)]]) /\ length l = k.
Theorem overridden d (a : elt d) p ops zx s zs v n : (0 <= p)%Z ->
  well_shaped (Compose (SetDuring (mkT [] (mkD d [a])) p :: ops)) zx (Leaf (s, d)) zs -> leaves zx <> [] -> n > 0 -> genuine v -> sig v = wide n zx ->
  exists out sf s0, call (Compose (SetDuring (mkT [] (mkD d [a])) p :: ops)) v None true = Ok (out, sf, s0) /\ sig out = Leaf (n :: s, d) /\
    forall i, i < n -> late i -> row i out = Leaf (mkT s (mkD d (repeat a (prod s)))).
Proof.
  intros P W L Hn G Sv.
  destruct (wrapped _ zx _ zs v n (under (length ops)) (fun i o => late i -> forall t, o = Leaf t -> t = mkT (sh t) (mkD d (repeat a (prod (sh t))))) W L Hn G Sv) as (outs & sf & s0 & C & So & K).
  - intros x o s' s0 Vx E. cbn [forward_step Compose rev] in E. unfold compose_step in E. cbn [bind] in E. apply bind_ok in E as ([[r ns] is] & E & E'). destruct r as [r|]; [|discriminate E']. injection E' as <- <- <-.
    rewrite app_length, rev_length in E. cbn [length] in E. rewrite repeat_app in E. cbn [repeat] in E.
    apply compose_loop_last in E as (y & z & s1 & i1 & ns' & is' & _ & _ & -> & _ & Li & E); [|now rewrite repeat_length, rev_length].
    rewrite rev_length in Li. exists is'. split; [|exact Li]. do 3 f_equal.
    unfold call in E. apply bind_ok in E as (y' & _ & E). cbn [bind] in E. cbn [forward_step SetDuring] in E. unfold set_during_step in E. cbn [item nth_error bind as_t] in E.
    apply bind_ok in E as (t1 & _ & E). apply bind_ok in E as (t2 & _ & E). apply bind_ok in E as (t3 & _ & E). apply bind_ok in E as (t4 & _ & E). injection E as _ _ <-. reflexivity.
  - intros i x st o s' ini Vx Gs Sg (l & -> & Ll) E. cbn [forward_step Compose rev] in E. unfold compose_step in E. cbn [iter bind] in E. rewrite map_app in E. cbn [map] in E.
    apply bind_ok in E as ([[r ns] is] & E & E'). destruct r as [r|]; [|discriminate E']. injection E' as <- <- <-.
    apply compose_loop_last in E as (y & z & s1 & i1 & ns' & is' & Ez & -> & _ & Ln & _ & E); [|now rewrite map_length, rev_length].
    injection Ez as ->. rewrite rev_length in Ln. unfold call in E. apply bind_ok in E as (y' & _ & E). rewrite convert_ok in E by (cbn; auto). cbn [bind] in E.
    cbn [forward_step SetDuring] in E. apply set_during_tick in E as [-> HQ]; [|exact P]. split; [|exact HQ]. now exists ns'.
  - exists outs, sf, s0. split; [exact C|]. split; [exact So|]. intros i Hi Li. destruct (K i Hi) as [Vo Q]. destruct (vhas_leaf_inv _ _ _ Vo) as (t & Et & St). rewrite Et in *. f_equal.
    pose proof (Q Li t eq_refl) as Qt. destruct St as (_ & St & _). rewrite St in Qt. exact Qt.
Qed.
(** ** MACD *)
Definition first_tick (i : nat) (s : val) : Prop := exists l, s = Tup (Leaf (tick i) :: l).
Lemma zeros_has t s : has t s F32 -> zeros_like t = mkT s (DF (repeat f0 (prod s))).
Proof. intros (_ & <- & E). unfold zeros_like. rewrite E. reflexivity. Qed.
Lemma tcond_true a b r : tcond (bsc true) (Ok a) b = Ok r -> r = a.
Proof. unfold tcond, leaf. cbn [bind]. intros H. apply bind_ok in H as (w & H & E). apply cond_true in H. cbn in H. subst w. now injection E. Qed.
Lemma macd_tick slow fast m i t l o s' ini s : (1 <= slow)%Z -> (1 <= m)%Z -> has t s F32 ->
  macd_step slow fast m (Leaf t :: Leaf (tick i) :: l) = Ok (o, s', ini) ->
  first_tick (S i) s' /\ (late i -> exists a b c d e, o = Tup [Leaf a; Leaf b; Leaf c; Leaf d; Leaf e] /\ c = zeros_like b /\ d = zeros_like t /\ e = zeros_like c).
Proof.
  intros Hs Hm Ht E. unfold macd_step in E.
  apply bind_ok in E as (u0 & _ & E). cbn [targ targ_or nth_error as_t bind] in E.
  apply bind_ok in E as ([[o1 n1] i1] & C1 & E). apply bind_ok in E as ([[o2 n2] i2] & C2 & E).
  apply bind_ok in E as (t1 & _ & E). apply bind_ok in E as (t2 & _ & E). apply bind_ok in E as (mc & Hmc & E).
  apply bind_ok in E as ([[o3 n3] i3] & C3 & E). apply bind_ok in E as (c & Hc & E). apply bind_ok in E as (r & Hr & E).
  apply bind_ok in E as (r0 & Hr0 & E). apply bind_ok in E as (sg & Hsg & E). apply bind_ok in E as (r1 & Hr1 & E). apply bind_ok in E as (hs & Hh & E).
  unfold int_op in E at 1. change (pyint_like (tick i) 1) with (@Ok tensor (isc 1)) in E. cbn [bind] in E. rewrite tick_next in E. cbn [bind] in E. injection E as <- <- <-.
  split; [now eexists|]. intros Li. exists t1, t2, mc, sg, hs. split; [reflexivity|].
  unfold macd_diff, int_op in Hmc, Hh. unfold int_op in Hc. change (pyint_like (tick i) ?z) with (@Ok tensor (isc z)) in *. cbn [bind] in *.
  rewrite (tick_lt i _ Li) in Hmc by lia. rewrite (tick_lt i _ Li) in Hc by lia. rewrite (tick_lt i _ Li) in Hh by lia. cbn [bind] in *. injection Hc as <-.
  apply tcond_true in Hmc. apply tcond_true in Hh. subst mc hs.
  apply cond_true in Hr. cbn in Hr. subst r. cbn in Hr0. injection Hr0 as <-. cbn in Hsg. injection Hsg as <-. auto.
Qed.
Theorem macd_again slow fast m s v n : (1 <= slow)%Z -> (1 <= fast)%Z -> (1 <= m)%Z -> n > 0 -> genuine v -> sig v = Leaf (n :: s, F32) ->
  exists out sf s0, call (MovingAverageConvergenceDivergence slow fast m) v None true = Ok (out, sf, s0) /\
    forall i, i < n -> late i -> exists a b, let z := Leaf (mkT s (DF (repeat f0 (prod s)))) in row i out = Tup [a; b; z; z; z].
Proof.
  intros Hs Hf Hm Hn G Sv.
  destruct (wrapped (MovingAverageConvergenceDivergence slow fast m) (tf s) _ _ v n first_tick
    (fun i o => late i -> exists a b c d e, o = Tup [Leaf a; Leaf b; Leaf c; Leaf d; Leaf e] /\ c = zeros_like b /\ d = mkT s (DF (repeat f0 (prod s))) /\ e = zeros_like c)
    (ws_step _ _ (tf s) _ _ (tk_macd slow fast m s Hs Hf Hm) eq_refl) ltac:(discriminate) Hn G Sv) as (outs & sf & s0 & C & So & K).
  - intros x o s' s0 Vx E. destruct (vhas_leaf_inv _ _ _ Vx) as (t & -> & Ht). cbn [forward_step MovingAverageConvergenceDivergence app] in E. unfold macd_step in E.
    tailed. binv E. now eexists.
  - intros i x st o s' ini Vx _ _ (l & ->) E. destruct (vhas_leaf_inv _ _ _ Vx) as (t & -> & Ht). cbn [forward_step MovingAverageConvergenceDivergence app] in E.
    destruct (macd_tick _ _ _ _ _ _ _ _ _ s Hs Hm Ht E) as [K1 K2]. split; [exact K1|]. rewrite (zeros_has t s Ht) in K2. exact K2.
  - exists outs, sf, s0. split; [exact C|]. intros i Hi Li. destruct (K i Hi) as [[Go Vo] Q]. destruct (Q Li) as (a & b & c & d & e & E & Ec & Ed & Ee).
    rewrite E in *. exists (Leaf a), (Leaf b). cbv zeta. cbn in Vo. assert (Sb : sh b = s /\ dtype_of b = F32) by (injection Vo; auto). destruct Sb as [Sb Db].
    assert (Z : c = mkT s (DF (repeat f0 (prod s)))) by (rewrite Ec; unfold zeros_like; now rewrite Sb, Db).
    rewrite Ee, Z, Ed. reflexivity.
Qed.

(** ** Lagged correlations *)
Lemma cross_tick p lag i t u l o s' ini : (0 <= lag)%Z -> cross_correlation_step p lag (Leaf t :: Leaf u :: Leaf (tick i) :: l) = Ok (o, s', ini) ->
  first_tick (S i) s' /\ (late i -> o = Leaf (zeros_like t)).
Proof.
  intros Hl E. unfold cross_correlation_step in E.
  apply bind_ok in E as (u0 & _ & E). cbn [targ targ_or nth_error as_t bind] in E.
  apply bind_ok in E as (lb & _ & E). apply bind_ok in E as (lv & _ & E). apply bind_ok in E as ([[o1 n1] i1] & C1 & E).
  change (pyint_like (tick i) ?z) with (@Ok tensor (isc z)) in E. cbn [bind] in E.
  apply bind_ok in E as (c & Hc & E). apply bind_ok in E as (r & Hr & E). apply bind_ok in E as (r0 & Hr0 & E). apply bind_ok in E as (r1 & Hr1 & E). apply bind_ok in E as (nb & Hnb & E).
  rewrite tick_next in E. cbn [bind] in E. injection E as <- <- <-. split; [now eexists|]. intros Li.
  rewrite (tick_lt i _ Li Hl) in Hc. injection Hc as <-. apply cond_true in Hr. cbn in Hr. subst r. cbn in Hr0. now injection Hr0 as <-.
Qed.
Theorem cross_again p lag s v n : (1 <= p)%Z -> (1 <= lag)%Z -> n > 0 -> genuine v -> sig v = Tup [Leaf (n :: s, F32); Leaf (n :: s, F32)] ->
  exists out sf s0, call (CrossCorrelation p lag) v None true = Ok (out, sf, s0) /\
    forall i, i < n -> late i -> row i out = Leaf (mkT s (DF (repeat f0 (prod s)))).
Proof.
  intros Hp Hl Hn G Sv.
  destruct (wrapped (CrossCorrelation p lag) (Tup [tf s; tf s]) _ _ v n first_tick (fun i o => late i -> o = Leaf (mkT s (DF (repeat f0 (prod s)))))
    (ws_step _ _ (Tup [tf s; tf s]) _ _ (tk_cross p lag s Hp Hl) eq_refl) ltac:(discriminate) Hn G Sv) as (outs & sf & s0 & C & So & K).
  - intros x o s' s0 Vx E. destruct (vhas_tup_inv _ _ Vx) as (vs & -> & K'). inv_all. leafy. cbn [forward_step CrossCorrelation app] in E. unfold cross_correlation_step in E.
    tailed. binv E. now eexists.
  - intros i x st o s' ini Vx _ _ (l & ->) E. destruct (vhas_tup_inv _ _ Vx) as (vs & -> & K'). inv_all. leafy. cbn [forward_step CrossCorrelation app] in E.
    apply cross_tick in E as [K1 K2]; [|lia]. split; [exact K1|]. intros Li. rewrite (K2 Li). f_equal. now apply zeros_has.
  - exists outs, sf, s0. split; [exact C|]. intros i Hi. apply (K i Hi).
Qed.
Theorem auto_again p lag s v n : (1 <= p)%Z -> (1 <= lag)%Z -> n > 0 -> genuine v -> sig v = Leaf (n :: s, F32) ->
  exists out sf s0, call (AutoCorrelation p lag) v None true = Ok (out, sf, s0) /\
    forall i, i < n -> late i -> row i out = Leaf (mkT s (DF (repeat f0 (prod s)))).
Proof.
  intros Hp Hl Hn G Sv.
  destruct (wrapped (AutoCorrelation p lag) (tf s) _ _ v n (fun i st => exists st', st = Tup [st'] /\ first_tick i st') (fun i o => late i -> o = Leaf (mkT s (DF (repeat f0 (prod s)))))
    (ws_step _ _ (tf s) _ _ (tk_auto p lag s Hp Hl) eq_refl) ltac:(discriminate) Hn G Sv) as (outs & sf & s0 & C & So & K).
  - intros x o s' s0 Vx E. destruct (vhas_leaf_inv _ _ _ Vx) as (t & -> & Ht). cbn [forward_step AutoCorrelation app] in E. unfold auto_correlation_step in E.
    apply bind_ok in E as (u0 & _ & E). cbn [targ nth_error as_t bind] in E. apply bind_ok in E as ([[o1 n1] i1] & C1 & E). injection E as <- <- <-. exists i1. split; [reflexivity|].
    rewrite call_false in C1; [|cbn; auto|discriminate]. cbn [forward_step CrossCorrelation app] in C1. unfold cross_correlation_step in C1. tailed. binv C1. now eexists.
  - intros i x st o s' ini Vx Gs _ (st' & -> & l & ->) E. destruct (vhas_leaf_inv _ _ _ Vx) as (t & -> & Ht). cbn [forward_step AutoCorrelation app] in E. unfold auto_correlation_step in E.
    apply bind_ok in E as (u0 & _ & E). cbn [targ nth_error as_t bind] in E. apply bind_ok in E as ([[o1 n1] i1] & C1 & E). injection E as <- <- <-.
    rewrite call_false in C1; [|cbn; auto|intros q Eq; injection Eq as <-; apply Gs]. cbn [forward_step CrossCorrelation app] in C1.
    apply cross_tick in C1 as [K1 K2]; [|lia]. split; [exists n1; auto|]. intros Li. rewrite (K2 Li). f_equal. now apply zeros_has.
  - exists outs, sf, s0. split; [exact C|]. intros i Hi. apply (K i Hi).
Qed.
(** ** RSI *)
Lemma cond_false t f r : tf_cond (bsc false) t f = Ok r -> exists w, f = Ok w /\ r = unpack_singleton (unpack_singleton w).
Proof.
  unfold tf_cond. change (as_pred (bsc false)) with (@Ok bool false). cbn [bind].
  destruct t as [t|et], f as [f|ef].
  - destruct (negb _); [discriminate|]. intros H. apply bind_ok in H as (a & _ & H). apply bind_ok in H as (b & _ & H). destruct (pv_eqb dtype_eqb a b); [|discriminate]. injection H as <-. eauto.
  - destruct ef; discriminate.
  - destruct et; try discriminate. unfold run_branch. cbn [bind]. destruct (nonempty_result f); [|discriminate]. injection 1 as <-. eauto.
  - destruct et, ef; discriminate.
Qed.
Lemma tick_ne i p : late i -> (0 <= p)%Z -> tequal (tick i) (isc p) = Ok (bsc false).
Proof.
  intros H P. unfold tick. assert (E : tequal (isc (wrap32 (Z.of_nat i))) (isc p) = Ok (bsc (wrap32 (Z.of_nat i) =? p)%Z)) by apply tcmp_ii. rewrite E. do 2 f_equal.
  unfold late in H. apply Z.eqb_neq. unfold wrap32. replace (Z.of_nat i + 2147483648)%Z with ((Z.of_nat i - 2147483648) + 1 * 4294967296)%Z by lia. rewrite Z.mod_add by lia. rewrite Z.mod_small; lia.
Qed.
Lemma rsi_tick p i t l o s' ini : (1 <= p)%Z -> rsi_step p (Leaf t :: Leaf (tick i) :: l) = Ok (o, s', ini) -> first_tick (S i) s' /\ (late i -> o = Leaf (fsc f0)).
Proof.
  intros Hp E. unfold rsi_step in E. apply bind_ok in E as (u0 & _ & E). cbn [targ targ_or nth_error as_t bind] in E.
  apply bind_ok in E as (g & _ & E). apply bind_ok in E as (q & _ & E). apply bind_ok in E as ([[o1 n1] i1] & _ & E). apply bind_ok in E as (buf & _ & E).
  apply bind_ok in E as (c1 & H1 & E). apply bind_ok in E as (c2 & H2 & E). apply bind_ok in E as (r & Hr & E).
  apply bind_ok in E as (r0 & H0 & E). apply bind_ok in E as (r1 & Hr1 & E). apply bind_ok in E as (r2 & Hr2 & E).
  unfold int_op in *. change (pyint_like (tick i) ?z) with (@Ok tensor (isc z)) in *. cbn [bind] in *. rewrite tick_next in E. cbn [bind] in E. injection E as <- <- <-. split; [now eexists|].
  intros Li. rewrite (tick_ne i p Li) in H1 by lia. rewrite (tick_lt i p Li) in H2 by lia. injection H1 as <-. injection H2 as <-.
  unfold tf_case in Hr. apply bind_ok in Hr as (bs & _ & Hr). destruct (true && _); [discriminate Hr|]. cbn [tf_case_nested] in Hr.
  apply cond_false in Hr as (w & Hw & ->). apply cond_true in Hw. cbn in Hw. subst w. cbn in Hr2. now injection Hr2 as <-.
Qed.
Theorem rsi_again p v n : (1 <= p)%Z -> n > 0 -> genuine v -> sig v = Leaf ([n], F32) ->
  exists out sf s0, call (RelativeStrengthIndex p) v None true = Ok (out, sf, s0) /\
    forall i, i < n -> late i -> row i out = Leaf (fsc f0).
Proof.
  intros Hp Hn G Sv.
  destruct (wrapped (RelativeStrengthIndex p) (tf []) _ _ v n first_tick (fun i o => late i -> o = Leaf (fsc f0))
    (ws_step _ _ (tf []) _ _ (tk_rsi p Hp) eq_refl) ltac:(discriminate) Hn G Sv) as (outs & sf & s0 & C & So & K).
  - intros x o s' s0 Vx E. destruct (vhas_leaf_inv _ _ _ Vx) as (t & -> & Ht). cbn [forward_step RelativeStrengthIndex app] in E. unfold rsi_step in E.
    tailed. binv E. now eexists.
  - intros i x st o s' ini Vx _ _ (l & ->) E. destruct (vhas_leaf_inv _ _ _ Vx) as (t & -> & Ht). cbn [forward_step RelativeStrengthIndex app] in E.
    now apply rsi_tick in E.
  - exists outs, sf, s0. split; [exact C|]. intros i Hi. apply (K i Hi).
Qed.
(** ** Volatility and the two trading signals *)
Theorem volatility_again m r v n : (1 <= m)%Z -> (1 <= r)%Z -> n > 0 -> genuine v -> sig v = Leaf ([n], F32) ->
  exists out sf s0, call (Volatility m r) v None true = Ok (out, sf, s0) /\ forall i, i < n -> late i -> row i out = Leaf (fsc f0).
Proof.
  intros Hm Hr Hn G Sv. destruct (overridden F32 f0 (Z.max m r) [MovingStandardDeviation m; LogarithmicReturn r] (tf []) [] _ v n ltac:(lia)
    (proj2 (proj2 (proj2 (proj2 (shaped_compositions m r 1 [] Hm Hr ltac:(lia)))))) ltac:(discriminate) Hn G Sv) as (out & sf & s0 & C & _ & K). eauto.
Qed.
Theorem signals_again slow fast m s v n : (1 <= slow)%Z -> (1 <= fast)%Z -> (1 <= m)%Z -> n > 0 -> genuine v -> sig v = Leaf (n :: s, F32) ->
  (exists out sf s0, call (SimpleMovingAverageCrossoverSignal slow fast) v None true = Ok (out, sf, s0) /\
     forall i, i < n -> late i -> row i out = Leaf (mkT s (DI (repeat 0%Z (prod s))))) /\
  (exists out sf s0, call (MovingAverageConvergenceDivergenceSignal slow fast m) v None true = Ok (out, sf, s0) /\
     forall i, i < n -> late i -> row i out = Leaf (mkT s (DI (repeat 0%Z (prod s))))).
Proof.
  intros Hs Hf Hm Hn G Sv. destruct (shaped_compositions slow fast m s Hs Hf Hm) as (_ & _ & W1 & W2 & _). split.
  - destruct (overridden I32 0%Z slow [ZeroCrossoverSignal; SimpleMovingAverageCrossover slow fast] (tf s) s _ v n ltac:(lia) W1 ltac:(discriminate) Hn G Sv) as (out & sf & s0 & C & _ & K). eauto.
  - destruct (overridden I32 0%Z (slow + m - 2) [ZeroCrossoverSignal; Select (IdxOne 4); MovingAverageConvergenceDivergence slow fast m] (tf s) s _ v n ltac:(lia) W2 ltac:(discriminate) Hn G Sv) as (out & sf & s0 & C & _ & K). eauto.
Qed.
End WrapAgain.
