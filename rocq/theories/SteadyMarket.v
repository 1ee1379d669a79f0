(** * SteadyMarket: small errors stay small (C67), operators on prices and candles. *)
From Coq Require Import Reals Lra List ZArith Bool Lia.
From Verif Require Import Num Py Tensor Streamable Common Finance Series Formulas Positions ER MovingFacts Linear RealFacts RealStats RealMarket RealLinear RealScale RealScale2 NormFacts
  ImplBasic ImplComp ImplScalar ImplWindow ImplMarket MarketReal Accuracy AccuracyMain AccuracyMarket Index AccuracyIndex Compound Order OrderFacts Steady SteadyFacts.
Import ListNotations.
Local Open Scope R_scope.

Lemma near_off e u v : Forall2 (by_at_most e) u v -> off e u v.
Proof.
  induction 1 as [|x y u v H _ [L IH]]; [split; [reflexivity|cbn; lia]|]. split; [cbn; lia|]. intros [|i] Hi; [exact H|]. apply IH. cbn in Hi. lia.
Qed.
Lemma hists_forall {X} (P : X -> Prop) xs : forall h, Forall P h -> Forall P xs -> Forall (fun k => k <> [] /\ Forall P k) (hists h xs).
Proof.
  induction xs as [|x xs IH]; intros h Hh Hx; [constructor|]. inversion Hx; subst. cbn [hists]. constructor; [split; [discriminate|now constructor]|]. apply IH; [now constructor|assumption].
Qed.
Lemma hists_forall2 {X Y} (R : X -> Y -> Prop) xs ys : Forall2 R xs ys -> forall h k, Forall2 R h k -> Forall2 (Forall2 R) (hists h xs) (hists k ys).
Proof. induction 1 as [|x y xs ys H _ IH]; intros h k K; [constructor|]. cbn [hists]. constructor; [now constructor|]. apply IH. now constructor. Qed.
(** From a closed form over histories to [steady_on]. *)
Theorem steady_on_from {X E Y} (op : @operator ER) (okh : list E -> Prop) (inp : list E -> @val ER) (emb : X -> E) (out : list Y -> @val ER) (outs : list (list E) -> @val ER)
    (g : list X -> Y) (ok : X -> Prop) (near : R -> X -> X -> Prop) (close : R -> Y -> Y -> Prop) :
  @streams ER _ op okh inp outs ->
  (forall xs, (Z.of_nat (length xs) < 2147483648)%Z -> Forall ok xs -> okh (rev (map emb xs))) ->
  (forall hs, Forall (fun h => h <> [] /\ Forall ok h) hs -> outs (map (map emb) hs) = out (map g hs)) ->
  (forall e h k, 0 <= e -> h <> [] -> Forall ok h -> Forall ok k -> Forall2 (near e) h k -> close e (g h) (g k)) ->
  steady_on op ok near (fun xs => inp (map emb xs)) close out.
Proof.
  intros (st & H & _) OKH OUT G e xs ys He NE SH OX OY A.
  assert (L := Forall2_length' _ _ _ A). assert (NY : ys <> []) by (intros E0; apply NE; apply length_zero_iff_nil; now rewrite L, E0).
  exists (map g (hists [] xs)), (map g (hists [] ys)). do 4 eexists.
  assert (Q : forall zs, zs <> [] -> (Z.of_nat (length zs) < 2147483648)%Z -> Forall ok zs ->
     call op (inp (map emb zs)) None true = Ok (out (map g (hists [] zs)), st (rev (map emb zs)), st [])).
  { intros zs NZ SZ OZ. rewrite H; [|intros E0; apply NZ; now apply map_eq_nil in E0|now apply OKH]. do 3 f_equal. change (@nil E) with (map emb []). rewrite hists_map. apply OUT. now apply hists_forall. }
  split; [now apply Q|]. split; [apply Q; [exact NY|now rewrite <- L|exact OY]|]. split; [now rewrite map_length, hists_length|].
  assert (F := hists_forall2 _ _ _ A [] [] (Forall2_nil _)). assert (FX := hists_forall ok xs [] (Forall_nil _) OX). assert (FY := hists_forall ok ys [] (Forall_nil _) OY).
  clear - G F FX FY He. induction F as [|h k hs ks HK _ IH]; [constructor|]. inversion FX as [|? ? [N1 O1] F1]; subst. inversion FY as [|? ? [N2 O2] F2]; subst.
  cbn [map]. constructor; [now apply G|now apply IH].
Qed.
Theorem steady_scalars K (op : @operator ER) (f : list ext -> ext) (g : list R -> R) ok okh :
  @streams ER _ op okh (@scalars ER) (fun hs => @scalars ER (map f hs)) ->
  (forall h : list ext, (Z.of_nat (length h) < 2147483648)%Z -> okh h) ->
  (forall h, h <> [] -> Forall ok h -> f (map Fin h) = Fin (g h)) ->
  (forall e h k, 0 <= e -> h <> [] -> Forall ok h -> Forall ok k -> off e h k -> Rabs (g h - g k) <= K * e) ->
  steady_on op ok by_at_most reals (fun e => by_at_most (K * e)) reals.
Proof.
  intros S OK F G. unfold reals. refine (steady_on_from op okh (@scalars ER) Fin (fun l => @scalars ER (map Fin l)) _ g ok by_at_most _ S _ _ _).
  - intros xs H _. apply OK. now rewrite rev_length, map_length.
  - intros hs H. cbv beta. f_equal. rewrite !map_map. apply map_ext_in. intros h Hh. rewrite Forall_forall in H. destruct (H h Hh). now apply F.
  - intros e h k He NE O1 O2 A. unfold by_at_most. apply G; auto. now apply near_off.
Qed.
Lemma short_ok {X} (h : list X) : (Z.of_nat (length h) < 2147483648)%Z -> short h.
Proof. unfold short. lia. Qed.

(** ** Extrema *)
Lemma below_lip (m : list R -> R) e h k : (forall h, h <> [] -> In (m h) h /\ forall x, In x h -> m h <= x) -> h <> [] -> off e h k -> Rabs (m h - m k) <= 1 * e.
Proof.
  intros M NE [L H]. assert (NK : k <> []) by (destruct h, k; easy). destruct (M h NE) as [H1 H2]. destruct (M k NK) as [K1 K2].
  destruct (In_nth _ _ 0 H1) as (i & Hi & Ei). destruct (In_nth _ _ 0 K1) as (j & Hj & Ej).
  assert (A := H2 (nth j h 0) ltac:(apply nth_In; lia)). assert (B := K2 (nth i k 0) ltac:(apply nth_In; lia)).
  assert (C := H i ltac:(lia)). assert (D := H j ltac:(lia)). rewrite Ei in C. rewrite Ej in D.
  revert C D. unfold Rabs. repeat destruct (Rcase_abs _); lra.
Qed.
Lemma above_lip (m : list R -> R) e h k : (forall h, h <> [] -> In (m h) h /\ forall x, In x h -> x <= m h) -> h <> [] -> off e h k -> Rabs (m h - m k) <= 1 * e.
Proof.
  intros M NE [L H]. assert (NK : k <> []) by (destruct h, k; easy). destruct (M h NE) as [H1 H2]. destruct (M k NK) as [K1 K2].
  destruct (In_nth _ _ 0 H1) as (i & Hi & Ei). destruct (In_nth _ _ 0 K1) as (j & Hj & Ej).
  assert (A := H2 (nth j h 0) ltac:(apply nth_In; lia)). assert (B := K2 (nth i k 0) ltac:(apply nth_In; lia)).
  assert (C := H i ltac:(lia)). assert (D := H j ltac:(lia)). rewrite Ei in C. rewrite Ej in D.
  revert C D. unfold Rabs. repeat destruct (Rcase_abs _); lra.
Qed.
Definition real_of (x : ext) : R := match x with Fin r => r | _ => 0 end.
Lemma lt_false x y : @flt ER (Fin x) (Fin y) = false -> y <= x.
Proof. cbn. unfold Rltb. destruct (Rlt_dec x y); [discriminate|lra]. Qed.
Lemma lowest (f : list ext -> ext) : (forall h : list ext, h <> [] -> Forall er_usable h -> In (f h) h /\ forall x, In x h -> @flt ER x (f h) = false) ->
  forall h, h <> [] -> f (map Fin h) = Fin (real_of (f (map Fin h))) /\ In (real_of (f (map Fin h))) h /\ forall x, In x h -> real_of (f (map Fin h)) <= x.
Proof.
  intros M h NE. destruct (M (map Fin h)) as [H1 H2]; [destruct h; easy|apply Forall_map, Forall_forall; intros x _; discriminate|].
  apply in_map_iff in H1 as (r & E & I). rewrite <- E in *. cbn [real_of]. split; [reflexivity|]. split; [exact I|]. intros x Hx. apply lt_false. apply H2. now apply in_map.
Qed.
Lemma highest (f : list ext -> ext) : (forall h : list ext, h <> [] -> Forall er_usable h -> In (f h) h /\ forall x, In x h -> @flt ER (f h) x = false) ->
  forall h, h <> [] -> f (map Fin h) = Fin (real_of (f (map Fin h))) /\ In (real_of (f (map Fin h))) h /\ forall x, In x h -> x <= real_of (f (map Fin h)).
Proof.
  intros M h NE. destruct (M (map Fin h)) as [H1 H2]; [destruct h; easy|apply Forall_map, Forall_forall; intros x _; discriminate|].
  apply in_map_iff in H1 as (r & E & I). rewrite <- E in *. cbn [real_of]. split; [reflexivity|]. split; [exact I|]. intros x Hx. apply lt_false. apply H2. now apply in_map.
Qed.
Lemma window_in {X} p (h : list X) x : In x (firstn p h) -> In x h.
Proof. intros H. rewrite <- (firstn_skipn p h). apply in_or_app. now left. Qed.
Lemma window_some {X} p (h : list X) : (1 <= p)%nat -> h <> [] -> firstn p h <> [].
Proof. destruct p, h; easy || lia. Qed.
Theorem extrema_steady p : (1 <= p)%nat -> (Z.of_nat p < 2147483648)%Z ->
  Forall (fun op => steady_on op (fun _ => True) by_at_most reals (fun e => by_at_most (1 * e)) reals)
    [@GlobalMinimum ER; @GlobalMaximum ER; @LocalMinimum ER (Z.of_nat p); @LocalMaximum ER (Z.of_nat p)].
Proof.
  intros Hp Hb. assert (U : forall q (h : list ext), Forall er_usable h -> Forall er_usable (firstn q h)).
  { intros q h H. rewrite Forall_forall in *. intros x Hx. apply H. eapply window_in, Hx. }
  assert (A : forall h : list ext, h <> [] -> Forall er_usable h -> In (@running ER flt h) h /\ forall x, In x h -> @flt ER x (@running ER flt h) = false)
    by (intros h NE _; exact (running_min er_orderly h NE)).
  assert (B : forall h : list ext, h <> [] -> Forall er_usable h -> In (@running ER fgt h) h /\ forall x, In x h -> @flt ER (@running ER fgt h) x = false)
    by (intros h NE _; exact (running_max er_orderly h NE)).
  assert (C : forall h : list ext, h <> [] -> Forall er_usable h -> In (@frmin ER h) h /\ forall x, In x h -> @flt ER x (@frmin ER h) = false)
    by (intros h NE H; exact (Order.o_rmin _ _ er_orderly h NE H)).
  assert (D : forall h : list ext, h <> [] -> Forall er_usable h -> In (@frmax ER h) h /\ forall x, In x h -> @flt ER (@frmax ER h) x = false)
    by (intros h NE H; exact (Order.o_rmax _ _ er_orderly h NE H)).
  assert (P1 := lowest _ A). assert (P2 := highest _ B). assert (P3 := lowest _ C). assert (P4 := highest _ D). clear A B C D.
  repeat constructor.
  - apply (steady_scalars 1 _ (@running ER flt) (fun h => real_of (@running ER flt (map Fin h))) _ _ (@global_min_streams ER)); [easy|intros h NE _; apply P1, NE|].
    intros e h k He NE _ _ O. apply (below_lip (fun h => real_of (@running ER flt (map Fin h)))); [intros; now apply P1|assumption..].
  - apply (steady_scalars 1 _ (@running ER fgt) (fun h => real_of (@running ER fgt (map Fin h))) _ _ (@global_max_streams ER)); [easy|intros h NE _; apply P2, NE|].
    intros e h k He NE _ _ O. apply (above_lip (fun h => real_of (@running ER fgt (map Fin h)))); [intros; now apply P2|assumption..].
  - apply (steady_scalars 1 _ (fun h => @frmin ER (firstn p h)) (fun h => real_of (@frmin ER (map Fin (firstn p h)))) _ _ (@local_min_streams ER p Hp Hb)); [intros; now apply short_ok|intros h NE _; rewrite firstn_map; now apply P3, window_some|].
    intros e h k He NE _ _ O. apply (below_lip (fun h => real_of (@frmin ER (map Fin h)))); [intros; now apply P3|now apply window_some|now apply off_firstn].
  - apply (steady_scalars 1 _ (fun h => @frmax ER (firstn p h)) (fun h => real_of (@frmax ER (map Fin (firstn p h)))) _ _ (@local_max_streams ER p Hp Hb)); [intros; now apply short_ok|intros h NE _; rewrite firstn_map; now apply P4, window_some|].
    intros e h k He NE _ _ O. apply (above_lip (fun h => real_of (@frmax ER (map Fin h)))); [intros; now apply P4|now apply window_some|now apply off_firstn].
Qed.

(** ** Returns *)
Definition rratio (G : R -> R) (p : nat) (h : list R) : R := if (length h <=? p)%nat then 0 else G (nth 0 h 0 / nth p h 0).
Lemma rratio_fin G (fe : ext -> ext) p h : (forall q, 0 < q -> fe (Fin q) = Fin (G q)) -> Forall (fun x => 0 < x) h -> @change ER fe p (map Fin h) = Fin (rratio G p h).
Proof.
  intros H P. unfold change, rratio. change (@F ER) with ext. rewrite map_length. destruct (Nat.leb_spec (length h) p) as [L|L]; cbn [orb]; [reflexivity|].
  unfold now, ago. change (@f0 ER) with (Fin 0). rewrite !(map_nth Fin). rewrite Forall_forall in P.
  assert (A := P (nth 0 h 0) ltac:(apply nth_In; lia)). assert (B := P (nth p h 0) ltac:(apply nth_In; lia)).
  cbn [feq ER e_eq fdiv]. unfold e_eq, e_div, Reqb. destruct (Req_EM_T (nth p h 0) 0); [lra|]. apply H. now apply Rdiv_lt_0_compat.
Qed.
Lemma quotient_lip lo hi e x a y b : 0 < lo -> 0 <= e -> lo <= x <= hi -> lo <= y <= hi -> lo <= a <= hi -> lo <= b <= hi -> Rabs (x - y) <= e -> Rabs (a - b) <= e ->
  Rabs (x / a - y / b) <= (1 + hi / lo) / lo * e.
Proof.
  intros Hl He Hx Hy Ha Hb E1 E2. replace (x / a - y / b) with ((x - y) * / a + y * ((b - a) * / (a * b))) by (field; lra).
  assert (I1 : 0 < / a <= / lo) by (split; [apply Rinv_0_lt_compat; lra|apply Rinv_le_contravar; lra]).
  assert (I2 : 0 < / b <= / lo) by (split; [apply Rinv_0_lt_compat; lra|apply Rinv_le_contravar; lra]).
  assert (Il : 0 < / lo) by (apply Rinv_0_lt_compat; lra).
  eapply Rle_trans; [apply Rabs_triang|]. rewrite !Rabs_mult, (Rabs_right y), (Rabs_right (/ a)), (Rabs_minus_sym b a), Rinv_mult by (try apply Rle_ge; lra).
  rewrite (Rabs_right (/ a * / b)) by (apply Rle_ge, Rmult_le_pos; lra).
  assert (T1 : Rabs (x - y) * / a <= e * / lo) by (apply Rmult_le_compat; try apply Rabs_pos; lra).
  assert (T2 : Rabs (a - b) * (/ a * / b) <= e * (/ lo * / lo)) by (apply Rmult_le_compat; [apply Rabs_pos|apply Rmult_le_pos; lra|lra|apply Rmult_le_compat; lra]).
  assert (T3 : y * (Rabs (a - b) * (/ a * / b)) <= hi * (e * (/ lo * / lo))).
  { apply Rmult_le_compat; [lra|apply Rmult_le_pos; [apply Rabs_pos|apply Rmult_le_pos; lra]|lra|exact T2]. }
  replace ((1 + hi / lo) / lo * e) with (e * / lo + hi * (e * (/ lo * / lo))) by (field; lra). lra.
Qed.
Lemma log_lip lo e x y : 0 < lo -> lo <= x -> lo <= y -> Rabs (x - y) <= e -> Rabs (ln x - ln y) <= / lo * e.
Proof.
  intros Hl Hx Hy E. assert (W : forall u v, lo <= u -> lo <= v -> Rabs (u - v) <= e -> ln u - ln v <= / lo * e).
  { intros u v Hu Hv Huv. rewrite <- ln_quot by lra. eapply Rle_trans; [apply ln_below, Rdiv_lt_0_compat; lra|].
    replace (u / v - 1) with ((u - v) * / v) by (field; lra). assert (I : 0 < / v <= / lo) by (split; [apply Rinv_0_lt_compat; lra|apply Rinv_le_contravar; lra]).
    rewrite (Rmult_comm (/ lo)). apply (Rle_trans _ (Rabs (u - v) * / v)); [apply Rmult_le_compat_r; [lra|apply Rle_abs]|]. apply Rmult_le_compat; try apply Rabs_pos; lra. }
  assert (A := W x y Hx Hy E). rewrite Rabs_minus_sym in E. assert (B := W y x Hy Hx E). unfold Rabs. destruct (Rcase_abs _); lra.
Qed.
Lemma in_range (P : R -> Prop) h n : Forall P h -> (n < length h)%nat -> P (nth n h 0).
Proof. intros H Hn. rewrite Forall_forall in H. now apply H, nth_In. Qed.
Lemma ret_lip lo hi p e h k : 0 < lo -> 0 <= e -> h <> [] -> Forall (fun x => lo <= x <= hi) h -> Forall (fun x => lo <= x <= hi) k -> off e h k ->
  Rabs (rratio (fun q => q - 1) p h - rratio (fun q => q - 1) p k) <= (1 + hi / lo) / lo * e.
Proof.
  intros Hl He NE H K [L O]. unfold rratio. rewrite <- L. destruct (Nat.leb_spec (length h) p) as [C|C].
  - rewrite Rminus_eq_0, Rabs_R0. assert (B : lo <= hi) by (destruct h as [|x h]; [easy|inversion H; lra]).
    apply Rmult_le_pos; [|exact He]. apply Rle_mult_inv_pos; [|exact Hl]. assert (0 <= hi / lo) by (apply Rle_mult_inv_pos; lra). lra.
  - replace (nth 0 h 0 / nth p h 0 - 1 - (nth 0 k 0 / nth p k 0 - 1)) with (nth 0 h 0 / nth p h 0 - nth 0 k 0 / nth p k 0) by ring.
    apply quotient_lip; try assumption; try (apply (in_range (fun x => lo <= x <= hi)); [assumption|lia]); apply O; lia.
Qed.
Lemma log_ret_lip lo p e h k : 0 < lo -> 0 <= e -> Forall (fun x => lo <= x) h -> Forall (fun x => lo <= x) k -> off e h k ->
  Rabs (rratio ln p h - rratio ln p k) <= 2 / lo * e.
Proof.
  intros Hl He H K [L O]. unfold rratio. rewrite <- L. assert (Il : 0 < / lo) by (apply Rinv_0_lt_compat; lra). destruct (Nat.leb_spec (length h) p) as [C|C].
  - rewrite Rminus_eq_0, Rabs_R0. apply Rmult_le_pos; [lra|exact He].
  - assert (A0 := in_range _ h 0 H ltac:(lia)). assert (Ap := in_range _ h p H ltac:(lia)). assert (B0 := in_range _ k 0 K ltac:(lia)). assert (Bp := in_range _ k p K ltac:(lia)).
    rewrite !ln_quot by lra. assert (E0 := log_lip lo e _ _ Hl A0 B0 (O 0%nat ltac:(lia))). assert (Ep := log_lip lo e _ _ Hl Ap Bp (O p ltac:(lia))).
    replace (2 / lo * e) with (/ lo * e + / lo * e) by (field; lra). now apply diff_lip.
Qed.
Definition rvol (m r : nat) (h : list R) : R := if (length h <=? Nat.max m r)%nat then 0 else rmsd m (trail (rratio ln r) h).
Lemma rvol_fin m r h : (1 <= m)%nat -> Forall (fun x => 0 < x) h -> @volatility ER m r (map Fin h) = Fin (rvol m r h).
Proof.
  intros Hm P. unfold volatility, rvol. change (@F ER) with ext. rewrite map_length. destruct (length h <=? Nat.max m r)%nat; [reflexivity|].
  rewrite <- msd_eq by exact Hm. f_equal. induction P as [|x h Hx P IH]; [reflexivity|]. cbn [trail map]. f_equal; [|exact IH].
  apply (rratio_fin ln _ r (x :: h)); [|now constructor]. intros q Hq. cbn. destruct (Rlt_dec 0 q); [reflexivity|lra].
Qed.
Lemma trail_log_lip lo r e h k : 0 < lo -> 0 <= e -> Forall (fun x => lo <= x) h -> Forall (fun x => lo <= x) k -> off e h k ->
  off (2 / lo * e) (trail (rratio ln r) h) (trail (rratio ln r) k).
Proof.
  intros Hl He H. revert k. induction H as [|x h Hx H IH]; intros [|y k] K O; [split; [reflexivity|cbn; lia]|destruct O; discriminate..|].
  inversion K; subst. destruct (off_tail _ _ _ _ _ O) as [_ O2]. destruct (IH k ltac:(assumption) O2) as [L I]. split; [cbn [trail length]; lia|].
  intros [|i] Hi; cbn [trail nth]; [apply log_ret_lip; try assumption; now constructor|]. apply I. cbn [trail length] in Hi. lia.
Qed.
Lemma zero_same : @feq ER (@f0 ER) (@f0 ER) = true.
Proof. cbn. unfold Reqb. destruct (Req_EM_T 0 0); [reflexivity|lra]. Qed.
Theorem return_steady p lo hi : (1 <= p)%nat -> 0 < lo -> steady_on (@Return ER (Z.of_nat p)) (fun x => lo <= x <= hi) by_at_most reals (fun e => by_at_most ((1 + hi / lo) / lo * e)) reals.
Proof.
  intros Hp Hl. apply (steady_scalars _ _ (@ret ER p) (rratio (fun q => q - 1) p) _ _ (@ret_streams ER p Hp zero_same)); [intros; now apply short_ok| |].
  - intros h NE H. apply rratio_fin; [reflexivity|]. eapply Forall_impl; [|exact H]. cbn; intros; lra.
  - intros e h k He NE H K O. now apply ret_lip.
Qed.
Theorem log_return_steady p lo : (1 <= p)%nat -> 0 < lo -> steady_on (@LogarithmicReturn ER (Z.of_nat p)) (fun x => lo <= x) by_at_most reals (fun e => by_at_most (2 / lo * e)) reals.
Proof.
  intros Hp Hl. apply (steady_scalars _ _ (@log_ret ER p) (rratio ln p) _ _ (@log_ret_streams ER p Hp zero_same)); [intros; now apply short_ok| |].
  - intros h NE H. apply rratio_fin; [|eapply Forall_impl; [|exact H]; cbn; intros; lra]. intros q Hq. cbn. destruct (Rlt_dec 0 q); [reflexivity|lra].
  - intros e h k He NE H K O. now apply log_ret_lip.
Qed.
Theorem volatility_steady m r lo : (1 <= m)%nat -> (1 <= r)%nat -> 0 < lo ->
  steady_on (@Volatility ER (Z.of_nat m) (Z.of_nat r)) (fun x => lo <= x) by_at_most reals (fun e => by_at_most (2 / lo * e)) reals.
Proof.
  intros Hm Hr Hl. apply (steady_scalars _ _ (@volatility ER m r) (rvol m r) _ _ (@volatility_streams ER m r Hm Hr zero_same)); [intros; now apply short_ok| |].
  - intros h NE H. apply rvol_fin; [exact Hm|]. eapply Forall_impl; [|exact H]; cbn; intros; lra.
  - intros e h k He NE H K O. assert (Il : 0 < / lo) by (apply Rinv_0_lt_compat; lra). assert (P : 0 <= 2 / lo * e) by (apply Rmult_le_pos; [lra|exact He]).
    unfold rvol. destruct (O) as [L _]. rewrite <- L. destruct (length h <=? Nat.max m r)%nat; [now rewrite Rminus_eq_0, Rabs_R0|].
    assert (T := trail_log_lip lo r e h k Hl He H K O). assert (Q := rmsd_steady m Hm _ _ _ P T). now rewrite Rmult_1_l in Q.
Qed.

(** ** Candles *)
Lemma Rmax_by e a b c d : Rabs (a - b) <= e -> Rabs (c - d) <= e -> Rabs (Rmax a c - Rmax b d) <= e.
Proof. unfold Rmax, Rabs. intros. repeat (destruct (Rle_dec _ _) || destruct (Rcase_abs _)); lra. Qed.
Lemma Rmin_by e a b c d : Rabs (a - b) <= e -> Rabs (c - d) <= e -> Rabs (Rmin a c - Rmin b d) <= e.
Proof. unfold Rmin, Rabs. intros. repeat (destruct (Rle_dec _ _) || destruct (Rcase_abs _)); lra. Qed.
Definition closed (c : rcandle) : Prop := r_close c <> 0.
Lemma range_lip e h k c d : 0 <= e -> Forall closed h -> Forall closed k -> Forall2 (candles_apart e) h k -> candles_apart e c d ->
  Rabs (rrange (rlast_close h) c - rrange (rlast_close k) d) <= 2 * e.
Proof.
  intros He Ch Ck A (_ & B & C & D). unfold by_at_most in *. assert (E1 : Rabs (r_high c - r_low c - (r_high d - r_low d)) <= 2 * e) by (replace (2 * e) with (e + e) by ring; now apply diff_lip).
  assert (Z0 : Rabs (0 - 0) <= 2 * e) by (rewrite Rminus_eq_0, Rabs_R0; lra).
  destruct A as [|a b h k (_ & _ & _ & P) A].
  - unfold rrange. cbn [rlast_close]. destruct (Req_EM_T 0 0); [|lra]. now apply Rmax_by; [apply Rmax_by|].
  - inversion Ch; inversion Ck; subst. cbn [rlast_close]. rewrite !rrange_known by assumption. unfold by_at_most in P.
    apply Rmax_by; [apply Rmax_by; [exact E1|]|]; apply abs_gap; replace (2 * e) with (e + e) by ring; now apply diff_lip.
Qed.
Lemma ranges_lip e h k : 0 <= e -> Forall closed h -> Forall closed k -> Forall2 (candles_apart e) h k -> off (2 * e) (rranges h) (rranges k).
Proof.
  intros He Ch Ck A. revert Ch Ck. induction A as [|c d h k B A IH]; intros Ch Ck; [split; [reflexivity|cbn; lia]|]. inversion Ch; inversion Ck; subst.
  destruct IH as [L I]; [assumption..|]. cbn [rranges]. split; [cbn [length]; lia|]. intros [|i] Hi; cbn [nth]; [now apply range_lip|]. apply I. cbn [length] in Hi. lia.
Qed.
Theorem atr_steady p : (1 <= p)%nat -> steady_on (@AverageTrueRange ER (Z.of_nat p)) closed candles_apart bars_of (fun e => by_at_most (2 * e)) reals.
Proof.
  intros Hp. unfold bars_of, reals. refine (steady_on_from _ _ (@bars ER) cfin (fun l => @scalars ER (map Fin l)) _ (fun h => rrma p (rranges h)) _ _ _ (@atr_streams ER p Hp) _ _ _).
  - intros xs H _. apply short_ok. now rewrite rev_length, map_length.
  - intros hs _. cbv beta. f_equal. rewrite !map_map. apply map_ext. intros h. unfold atr. rewrite ranges_fin. now apply rma_eq.
  - intros e h k He NE O1 O2 A. unfold by_at_most. assert (Q := rrma_steady p Hp (2 * e) _ _ ltac:(lra) (ranges_lip e h k He O1 O2 A)). now rewrite Rmult_1_l in Q.
Qed.
Definition opened (c : rcandle) : Prop := r_open c <> 0.
Lemma heikin_lip e h k : 0 <= e -> h <> [] -> Forall opened h -> Forall opened k -> Forall2 (candles_apart e) h k -> candles_apart e (rheikin h) (rheikin k).
Proof.
  intros He NE Oh Ok A. destruct A as [|c d h k B A]; [easy|]. inversion Oh as [|? ? Qc Oh']; inversion Ok as [|? ? Qd Ok']; subst. unfold rheikin.
  destruct A as [|a b h k P A].
  - cbn [rlast_open]. destruct (Req_EM_T 0 0); [exact B|lra].
  - inversion Oh'; inversion Ok'; subst. cbn [rlast_open rlast_close]. destruct (Req_EM_T (r_open a) 0); [contradiction|]. destruct (Req_EM_T (r_open b) 0); [contradiction|].
    destruct B as (B1 & B2 & B3 & B4). destruct P as (P1 & _ & _ & P4). unfold candles_apart, by_at_most in *. cbn [r_open r_high r_low r_close].
    assert (X : Rabs ((r_open a + r_close a) / 2 - (r_open b + r_close b) / 2) <= e) by (clear - P1 P4; revert P1 P4; unfold Rabs; repeat destruct (Rcase_abs _); lra).
    assert (Y : Rabs ((r_open c + r_high c + r_low c + r_close c) / 4 - (r_open d + r_high d + r_low d + r_close d) / 4) <= e)
      by (clear - B1 B2 B3 B4; revert B1 B2 B3 B4; unfold Rabs; repeat destruct (Rcase_abs _); lra).
    repeat split; try assumption; [apply Rmax_by; [assumption|now apply Rmax_by]|apply Rmin_by; [assumption|now apply Rmin_by]].
Qed.
Theorem heikin_steady : steady_on (@HeikinAshi ER) opened candles_apart candles_of candles_apart candles_of.
Proof.
  unfold candles_of. refine (steady_on_from _ _ (@candles ER) cfin (fun l => @candles ER (map cfin l)) _ rheikin _ _ _ (@ha_streams ER) _ _ _).
  - easy.
  - intros hs _. cbv beta. f_equal. rewrite !map_map. apply map_ext. intros h. apply rheikin_fin.
  - intros. now apply heikin_lip.
Qed.

(** ** Drawdown *)
Lemma peak_lip e h k : 0 <= e -> off e h k -> Rabs (rpeak h - rpeak k) <= e.
Proof.
  intros He. revert k. induction h as [|x h IH]; intros [|y k] O; [cbn; now rewrite Rminus_eq_0, Rabs_R0|destruct O; discriminate..|].
  destruct (off_tail _ _ _ _ _ O) as [H1 H2]. cbn [rpeak]. apply Rmax_by; [exact H1|now apply IH].
Qed.
Lemma depth_lip lo e x y P Q : 0 < lo -> 0 <= e -> lo <= x -> lo <= y -> lo <= P -> lo <= Q -> Rabs (x - y) <= e -> Rabs (P - Q) <= e ->
  Rabs (Rmin 0 (x / P - 1) - Rmin 0 (y / Q - 1)) <= 2 / lo * e.
Proof.
  intros Hl He Hx Hy HP HQ E1 E2.
  assert (W : forall u R, lo <= u -> lo <= R -> Rmin 0 (u / R - 1) = Rmin R u / R - 1).
  { intros u R Hu HR. assert (IR : 0 < / R) by (apply Rinv_0_lt_compat; lra). unfold Rmin. destruct (Rle_dec 0 (u / R - 1)) as [A|A], (Rle_dec R u) as [B|B]; try reflexivity; [field; lra| |].
    - exfalso. apply B. apply (Rmult_le_reg_r (/ R)); [exact IR|]. rewrite Rinv_r by lra. unfold Rdiv in A. lra.
    - exfalso. apply A. assert (R * / R <= u * / R) by (apply Rmult_le_compat_r; lra). rewrite Rinv_r in H by lra. unfold Rdiv. lra. }
  rewrite !W by assumption. assert (E3 := Rmin_by e P Q x y E2 E1).
  assert (B1 : 0 < Rmin P x) by (unfold Rmin; destruct (Rle_dec _ _); lra). assert (B2 : 0 < Rmin Q y <= Q) by (unfold Rmin; destruct (Rle_dec _ _); lra).
  set (u := Rmin P x) in *. set (v := Rmin Q y) in *.
  replace (u / P - 1 - (v / Q - 1)) with ((u - v) * / P + v * / Q * ((Q - P) * / P)) by (field; lra).
  assert (IP : 0 < / P <= / lo) by (split; [apply Rinv_0_lt_compat; lra|apply Rinv_le_contravar; lra]). assert (IQ : 0 < / Q) by (apply Rinv_0_lt_compat; lra).
  assert (V : 0 <= v * / Q <= 1) by (split; [apply Rmult_le_pos; lra|]; rewrite <- (Rinv_r Q) by lra; apply Rmult_le_compat_r; lra).
  eapply Rle_trans; [apply Rabs_triang|]. rewrite (Rabs_mult (v * / Q)), !(Rabs_mult _ (/ P)), (Rabs_right (v * / Q)), (Rabs_right (/ P)), (Rabs_minus_sym Q P) by (apply Rle_ge; lra).
  assert (T1 : Rabs (u - v) * / P <= e * / lo) by (apply Rmult_le_compat; try apply Rabs_pos; lra).
  assert (T2 : Rabs (P - Q) * / P <= e * / lo) by (apply Rmult_le_compat; try apply Rabs_pos; lra).
  assert (T0 : 0 <= Rabs (P - Q) * / P) by (apply Rmult_le_pos; [apply Rabs_pos|lra]).
  assert (T3 : v * / Q * (Rabs (P - Q) * / P) <= 1 * (e * / lo)) by (apply Rmult_le_compat; lra).
  replace (2 / lo * e) with (e * / lo + 1 * (e * / lo)) by (field; lra). lra.
Qed.
Theorem drawdown_steady lo : 1 / 10000 <= lo -> steady_on (@Drawdown ER) (fun x => lo <= x) by_at_most reals (depths_apart (2 / lo)) drawdown_reals.
Proof.
  intros Hl. unfold reals, drawdown_reals.
  refine (steady_on_from _ _ (@scalars ER) Fin (fun l => @drawdowns ER (map (fun q => (Fin (fst q), snd q)) l)) _ (fun h => (rdrawdown h, @under_water ER (map Fin h))) _ _ _ (@drawdown_streams ER) _ _ _).
  - intros xs H _. unfold below31. rewrite rev_length, map_length. exact H.
  - intros hs _. cbv beta. f_equal. rewrite !map_map. apply map_ext. intros h. cbn [fst snd]. f_equal. apply rdrawdown_fin.
  - intros e h k He NE O1 O2 A. apply near_off in A. unfold depths_apart, by_at_most. cbn [fst]. assert (Il : 0 < / lo) by (apply Rinv_0_lt_compat; lra).
    destruct h as [|x h]; [easy|]. destruct k as [|y k]; [destruct A; discriminate|]. destruct (off_tail _ _ _ _ _ A) as [A1 A2]. inversion O1; inversion O2; subst. cbn [rdrawdown].
    assert (P := peak_lip e h k He A2). destruct h as [|a h]; (destruct k as [|b k]; [|try (destruct A2; discriminate)]); [| destruct A2; discriminate |].
    + cbn [rpeak]. destruct (Rlt_dec 0 (1 / 10000)); [|lra]. rewrite Rminus_eq_0, Rabs_R0. apply Rmult_le_pos; lra.
    + assert (L1 : lo <= rpeak (a :: h)) by (match goal with H : Forall _ (a :: h) |- _ => inversion H; subst end; cbn [rpeak]; eapply Rle_trans; [eassumption|apply Rmax_l]).
      assert (L2 : lo <= rpeak (b :: k)) by (match goal with H : Forall _ (b :: k) |- _ => inversion H; subst end; cbn [rpeak]; eapply Rle_trans; [eassumption|apply Rmax_l]).
      destruct (Rlt_dec (rpeak (a :: h)) (1 / 10000)); [lra|]. destruct (Rlt_dec (rpeak (b :: k)) (1 / 10000)); [lra|]. apply depth_lip; try assumption. lra.
Qed.
