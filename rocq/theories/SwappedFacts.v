(** * SwappedFacts: crossovers and MACD whose two periods are given in the wrong order (C76). *)
From Coq Require Import Reals Lra List ZArith Bool Lia.
From Verif Require Import Num Py Tensor Streamable Common Finance Series Formulas Positions ER MovingFacts Linear RealFacts RealStats RealMarket RealLinear RealScale RealScale2 NormFacts
  SignalFacts ImplBasic ImplComp ImplScalar ImplWindow ImplSignal MarketReal StatFacts Order OrderFacts Steady Agree AgreeFacts Line LineFacts UnitsFacts.
Import ListNotations.
Local Open Scope R_scope.

Lemma crossover_outputs slow fast xs : (1 <= slow)%nat -> (1 <= fast)%nat -> countable xs ->
  outputs (SimpleMovingAverageCrossover (Z.of_nat slow) (Z.of_nat fast)) xs (run (rcrossover slow fast) xs).
Proof.
  intros Hs Hf C. apply (of_tensors _ (@crossover_code ER slow fast)); [exact (@crossover_streams ER [] slow fast Hs Hf)|intros; now apply crossover_eq|exact C].
Qed.
Lemma rcrossover_swapped a b h : (1 <= a < b)%nat ->
  rcrossover a b h = if (length h <? a)%nat then 0 else if (length h <? b)%nat then - rsma a h else - rcrossover b a h.
Proof.
  intros H. unfold rcrossover. destruct (Nat.ltb_spec (length h) a) as [L|L].
  - assert (rsma a h = 0) as -> by (unfold rsma; destruct (Nat.ltb_spec (length h) a); [reflexivity|lia]). ring.
  - destruct (Nat.ltb_spec (length h) b) as [K|K].
    + assert (rsma b h = 0) as -> by (unfold rsma; destruct (Nat.ltb_spec (length h) b); [reflexivity|lia]). ring.
    + ring.
Qed.
Theorem crossover_swapped short long xs : (1 <= short < long)%nat -> countable xs ->
  exists proper swapped average,
    outputs (SimpleMovingAverageCrossover (Z.of_nat long) (Z.of_nat short)) xs proper /\
    outputs (SimpleMovingAverageCrossover (Z.of_nat short) (Z.of_nat long)) xs swapped /\
    outputs (SimpleMovingAverage (Z.of_nat short)) xs average /\
    forall n, (n < length xs)%nat ->
      ((n + 1 < short)%nat -> at_pos swapped n = 0) /\
      ((short <= n + 1 < long)%nat -> at_pos swapped n = - at_pos average n) /\
      ((long <= n + 1)%nat -> at_pos swapped n = - at_pos proper n).
Proof.
  intros H C. do 3 eexists. split; [apply crossover_outputs; [lia|lia|exact C]|]. split; [apply crossover_outputs; [lia|lia|exact C]|]. split; [apply (sma_outputs xs C short); lia|].
  intros n Hn. rewrite !run_at by exact Hn. rewrite (rcrossover_swapped short long) by exact H. rewrite upto_length by exact Hn.
  destruct (Nat.ltb_spec (S n) short), (Nat.ltb_spec (S n) long); repeat split; intros; try lia; reflexivity.
Qed.

(** ** The signal *)
Lemma rsum_positive l : l <> [] -> Forall (fun x => 0 < x) l -> 0 < rsum l.
Proof.
  intros NE P. destruct P as [|x l X P]; [contradiction|]. assert (G : 0 <= rsum l).
  { clear X NE. induction P as [|y l Y P IH]; unfold rsum in *; cbn [fold_right] in *; lra. }
  unfold rsum in *. cbn [fold_right] in *. lra.
Qed.
Lemma rsma_positive p h : (1 <= p <= length h)%nat -> Forall (fun x => 0 < x) h -> 0 < rsma p h.
Proof.
  intros H P. unfold rsma. destruct (Nat.ltb_spec (length h) p); [lia|]. unfold rmean. apply Rdiv_lt_0_compat.
  - apply rsum_positive; [intros E; apply (f_equal (@length R)) in E; rewrite firstn_length in E; cbn in E; lia|].
    rewrite Forall_forall in *. intros x Hx. apply P. rewrite <- (firstn_skipn p h). apply in_or_app. now left.
  - apply lt_0_INR. rewrite firstn_length. lia.
Qed.
Definition rsignal (slow fast : nat) (h : list R) : Z := if (length h <=? slow)%nat then 0%Z else @crossing ER (map Fin (trail (rcrossover slow fast) h)).
Lemma signal_outputs slow fast xs : (1 <= slow)%nat -> (1 <= fast)%nat -> countable xs ->
  exists sf s0, call (SimpleMovingAverageCrossoverSignal (Z.of_nat slow) (Z.of_nat fast)) (reals xs) None true = Ok (@ints ER (map (rsignal slow fast) (hists [] xs)), sf, s0).
Proof.
  intros Hs Hf C. destruct (@crossover_sig_streams ER [] slow fast Hs Hf) as (st & H & _). specialize (H (map (@sing ER) (map Fin xs))).
  rewrite one_input in H. do 2 eexists. rewrite H; [|apply map_some, map_some, C|now apply one_ok]. do 3 f_equal.
  assert (E2 : hists [] (map (@sing ER) (map Fin xs)) = map (map (@sing ER)) (map (map Fin) (hists [] xs))).
  { rewrite <- (hists_map Fin xs []). exact (hists_map (@sing ER) (map Fin xs) []). }
  rewrite E2, !map_map. set (q := fun c : list (@F ER) => if (length c <=? slow)%nat then 0%Z else @f_to_Z ER (@zc_sig ER (trail (crossover_code slow fast) c))).
  assert (Q : forall h, @each ER _ [] q (map (@sing ER) (map Fin h)) = [rsignal slow fast h]).
  { intros h. unfold each, column. cbn [prod fold_right seq map]. rewrite !map_map. cbn [nth sing]. f_equal. unfold q, rsignal. rewrite map_length. destruct (length h <=? slow)%nat; [reflexivity|].
    rewrite (trail_fin _ (rcrossover slow fast)) by (intros; now apply crossover_eq). apply (zc_sig_crossing er_orderly). apply Forall_map, Forall_forall. intros x _. discriminate. }
  rewrite (map_ext _ (fun h => [rsignal slow fast h]) Q). unfold int_tensors, ints. rewrite !map_length. f_equal. f_equal. f_equal.
  clear E2. induction (hists [] xs) as [|h l IH]; [reflexivity|]. cbn [map concat app]. now rewrite IH.
Qed.
Lemma negative_side x l : x < 0 -> @side ER (map Fin (x :: l)) = false.
Proof. intros H. cbn [map side]. change (@flt ER (Fin x) f0) with (Rltb x 0). unfold Rltb. destruct (Rlt_dec x 0); [reflexivity|contradiction]. Qed.
Lemma rsignal_swapped a b h : (1 <= a < b)%nat -> Forall (fun x => 0 < x) h ->
  ((length h < b)%nat -> rsignal a b h = 0%Z) /\
  (length h = b -> rsignal a b h = if Rlt_dec (rsma a h) (rsma b h) then 1%Z else 0%Z).
Proof.
  intros H P. unfold rsignal. destruct (Nat.leb_spec (length h) a) as [L|L]; [split; [reflexivity|lia]|].
  destruct h as [|x [|y h]]; [cbn in L; lia|cbn in L; lia|]. set (g := y :: h) in *. assert (Pg : Forall (fun x => 0 < x) g) by now inversion P.
  change (length (x :: g)) with (S (length g)) in *. cbn [trail]. change (map Fin (rcrossover a b (x :: g) :: trail (rcrossover a b) g)) with (Fin (rcrossover a b (x :: g)) :: map Fin (trail (rcrossover a b) g)).
  assert (N : (length g < b)%nat -> rcrossover a b g < 0).
  { intros K. rewrite (rcrossover_swapped a b) by exact H. destruct (Nat.ltb_spec (length g) a); [lia|]. destruct (Nat.ltb_spec (length g) b); [|lia].
    pose proof (rsma_positive a g ltac:(lia) Pg). lra. }
  assert (Sg : (length g < b)%nat -> @side ER (map Fin (trail (rcrossover a b) g)) = false) by (intros K; unfold g in *; cbn [trail]; apply negative_side; exact (N K)).
  assert (T : map Fin (trail (rcrossover a b) g) <> []) by (unfold g; discriminate).
  assert (E : @crossing ER (Fin (rcrossover a b (x :: g)) :: map Fin (trail (rcrossover a b) g)) =
    if Bool.eqb (@side ER (Fin (rcrossover a b (x :: g)) :: map Fin (trail (rcrossover a b) g))) (@side ER (map Fin (trail (rcrossover a b) g))) then 0%Z
    else if @side ER (Fin (rcrossover a b (x :: g)) :: map Fin (trail (rcrossover a b) g)) then 1%Z else (-1)%Z) by (destruct (map Fin (trail (rcrossover a b) g)); [contradiction|reflexivity]).
  rewrite E. split; intros K.
  - rewrite Sg by lia. change (Fin (rcrossover a b (x :: g)) :: map Fin (trail (rcrossover a b) g)) with (map Fin (rcrossover a b (x :: g) :: trail (rcrossover a b) g)).
    rewrite negative_side; [reflexivity|]. rewrite (rcrossover_swapped a b) by exact H. change (length (x :: g)) with (S (length g)).
    destruct (Nat.ltb_spec (S (length g)) a); [lia|]. destruct (Nat.ltb_spec (S (length g)) b); [|lia]. pose proof (rsma_positive a (x :: g)). cbn [length] in *. specialize (H2 ltac:(lia) P). lra.
  - rewrite Sg by lia. cbn [side]. rewrite Sg by lia. set (v := rcrossover a b (x :: g)). assert (V : v = rsma b (x :: g) - rsma a (x :: g)).
    { unfold v, rcrossover. change (length (x :: g)) with (S (length g)). destruct (Nat.ltb_spec (S (length g)) a); [lia|]. reflexivity. }
    change (@flt ER (Fin v) f0) with (Rltb v 0). change (@flt ER f0 (Fin v)) with (Rltb 0 v). unfold Rltb.
    destruct (Rlt_dec (rsma a (x :: g)) (rsma b (x :: g))), (Rlt_dec v 0), (Rlt_dec 0 v); try lra; reflexivity.
Qed.
Theorem signal_swapped short long xs : (1 <= short < long)%nat -> countable xs -> Forall (fun x => 0 < x) xs ->
  exists signals low high sf s0,
    call (SimpleMovingAverageCrossoverSignal (Z.of_nat short) (Z.of_nat long)) (reals xs) None true = Ok (@ints ER signals, sf, s0) /\ length signals = length xs /\
    outputs (SimpleMovingAverage (Z.of_nat short)) xs low /\ outputs (SimpleMovingAverage (Z.of_nat long)) xs high /\
    (forall n, (n < length xs)%nat -> (n + 1 < long)%nat -> nth n signals 0%Z = 0%Z) /\
    ((long <= length xs)%nat -> nth (long - 1) signals 0%Z = if Rlt_dec (at_pos low (long - 1)) (at_pos high (long - 1)) then 1%Z else 0%Z).
Proof.
  intros H C P. destruct (signal_outputs short long xs) as (sf & s0 & E); [lia|lia|exact C|]. eexists _, _, _, sf, s0. split; [exact E|]. split; [now rewrite map_length, hists_length|].
  split; [apply (sma_outputs xs C short); lia|]. split; [apply (sma_outputs xs C long); lia|].
  assert (U : forall n, Forall (fun x => 0 < x) (upto n xs)).
  { intros n. rewrite Forall_forall in *. intros x Hx. apply P. unfold upto in Hx. apply in_rev in Hx. rewrite <- (firstn_skipn (S n) xs). apply in_or_app. now left. }
  split.
  - intros n Hn L. rewrite nth_map_hists by exact Hn. apply (rsignal_swapped short long); [exact H|apply U|]. rewrite upto_length by exact Hn. lia.
  - intros L. rewrite nth_map_hists by lia. rewrite !run_at by lia. apply (rsignal_swapped short long); [exact H|apply U|]. rewrite upto_length by lia. lia.
Qed.

(** ** MACD *)
Lemma macd_outputs slow fast m xs : (1 <= slow)%nat -> (1 <= fast)%nat -> (1 <= m)%nat -> countable xs ->
  exists sf s0, call (MovingAverageConvergenceDivergence (Z.of_nat slow) (Z.of_nat fast) (Z.of_nat m)) (reals xs) None true =
    Ok (Tup [reals (run (rema slow) xs); reals (run (rema fast) xs); reals (run (rmacd slow fast) xs); reals (run (rmacd_signal slow fast m) xs);
             reals (run (rmacd_histogram slow fast m) xs)], sf, s0).
Proof.
  intros Hs Hf Hm C. destruct (@macd_streams ER [] slow fast m Hs Hf Hm) as (st & H & _). specialize (H (map (@sing ER) (map Fin xs))). do 2 eexists.
  rewrite one_input in H. rewrite H; [|apply map_some, map_some, C|now apply one_ok].
  rewrite (one_series _ (rema slow)), (one_series _ (rema fast)), (one_series _ (rmacd slow fast)), (one_series _ (rmacd_signal slow fast m)), (one_series _ (rmacd_histogram slow fast m)); [reflexivity|..]; intros h.
  - now apply macd_histogram_eq.
  - now apply macd_signal_eq.
  - now apply macd_eq.
  - now apply ema_eq.
  - now apply ema_eq.
Qed.
Lemma rema_early p h : (length h < p)%nat -> rema p h = 0.
Proof.
  intros L. destruct h as [|x h]; [reflexivity|]. cbn [rema]. destruct (Nat.leb_spec (length (x :: h)) p); [|lia]. unfold rsma. destruct (Nat.ltb_spec (length (x :: h)) p); [reflexivity|lia].
Qed.
Lemma rmacd_swapped a b h : (1 <= a < b)%nat ->
  rmacd a b h = if (length h <? a)%nat then 0 else if (length h <? b)%nat then - rema a h else - rmacd b a h.
Proof.
  intros H. unfold rmacd. destruct (Nat.ltb_spec (length h) a) as [L|L]; [reflexivity|]. destruct (Nat.ltb_spec (length h) b) as [K|K].
  - rewrite (rema_early b) by exact K. ring.
  - ring.
Qed.
Theorem macd_swapped short long m xs : (1 <= short < long)%nat -> (1 <= m)%nat -> countable xs ->
  exists low high proper swapped s1 h1 s2 h2 sf s0 sf' s0',
    call (MovingAverageConvergenceDivergence (Z.of_nat long) (Z.of_nat short) (Z.of_nat m)) (reals xs) None true =
      Ok (Tup [reals high; reals low; reals proper; s1; h1], sf, s0) /\
    call (MovingAverageConvergenceDivergence (Z.of_nat short) (Z.of_nat long) (Z.of_nat m)) (reals xs) None true =
      Ok (Tup [reals low; reals high; reals swapped; s2; h2], sf', s0') /\
    length low = length xs /\ length high = length xs /\ length proper = length xs /\ length swapped = length xs /\
    forall n, (n < length xs)%nat ->
      ((n + 1 < short)%nat -> at_pos swapped n = 0) /\
      ((short <= n + 1 < long)%nat -> at_pos swapped n = - at_pos low n) /\
      ((long <= n + 1)%nat -> at_pos swapped n = - at_pos proper n).
Proof.
  intros H Hm C. destruct (macd_outputs long short m xs) as (sf & s0 & E); [lia|lia|exact Hm|exact C|]. destruct (macd_outputs short long m xs) as (sf' & s0' & E'); [lia|lia|exact Hm|exact C|].
  eexists _, _, _, _, _, _, _, _, sf, s0, sf', s0'. split; [exact E|]. split; [exact E'|]. rewrite !run_length. do 4 (split; [reflexivity|]).
  intros n Hn. rewrite !run_at by exact Hn. rewrite (rmacd_swapped short long) by exact H. rewrite upto_length by exact Hn.
  destruct (Nat.ltb_spec (S n) short), (Nat.ltb_spec (S n) long); repeat split; intros; try lia; reflexivity.
Qed.
(** *** On a series that never changes *)
Lemma rsum_negative l : Forall (fun x => x <= 0) l -> last l 0 < 0 -> rsum l < 0.
Proof.
  induction l as [|x l IH]; intros A L; [cbn in L; lra|]. inversion A as [|? ? X A']; subst. destruct l as [|y l]; [cbn in *; lra|].
  specialize (IH A' L). unfold rsum in *. cbn [fold_right] in *. lra.
Qed.
Lemma rema_negative m h : (2 <= m <= length h)%nat -> Forall (fun x => x <= 0) h -> last h 0 < 0 -> rema m h < 0.
Proof.
  intros [Hm Hl]. revert Hl. induction h as [|x h IH]; intros Hl A L; [cbn in Hl; lia|]. cbn [rema]. destruct (Nat.leb_spec (length (x :: h)) m) as [K|K].
  - unfold rsma. destruct (Nat.ltb_spec (length (x :: h)) m); [lia|]. rewrite firstn_all2 by exact K. pose proof (rsum_negative _ A L). unfold rmean.
    assert (0 < INR (length (x :: h))) by (apply lt_0_INR; lia). apply Ropp_lt_cancel. rewrite Ropp_0. replace (- (rsum (x :: h) / INR (length (x :: h)))) with ((- rsum (x :: h)) / INR (length (x :: h))) by (field; lra).
    apply Rdiv_lt_0_compat; lra.
  - cbn [length] in K. inversion A as [|? ? X A']; subst. assert (L' : last h 0 < 0) by (destruct h; [cbn in K; lia|exact L]). specialize (IH ltac:(lia) A' L').
    assert (M : 2 <= INR m) by (apply (le_INR 2); lia). assert (0 < 2 / (INR m + 1)) by (apply Rdiv_lt_0_compat; lra).
    assert (2 / (INR m + 1) < 1) by (apply (Rmult_lt_reg_r (INR m + 1)); [lra|]; field_simplify; lra). nra.
Qed.
Lemma rema_repeat p c k : (1 <= p)%nat -> rema p (repeat c k) = if (k <? p)%nat then 0 else c.
Proof.
  intros Hp. destruct (Nat.ltb_spec k p) as [L|L]; [apply rema_early; now rewrite repeat_length|]. apply rema_const; [rewrite repeat_length; lia|]. intros x. apply repeat_spec.
Qed.
Lemma rmacd_repeat a b c k : (1 <= a < b)%nat -> rmacd a b (repeat c k) = if (k <? a)%nat then 0 else if (k <? b)%nat then - c else 0.
Proof.
  intros H. unfold rmacd. rewrite repeat_length, !rema_repeat by lia. destruct (Nat.ltb_spec k a); [reflexivity|]. destruct (k <? b)%nat; ring.
Qed.
(** What the signal line averages. *)
Definition seen (a b : nat) (c : R) (k : nat) : list R := firstn (k + 1 - a) (trail (rmacd a b) (repeat c k)).
Lemma seen_next a b c k : (a <= k + 1)%nat -> seen a b c (S k) = rmacd a b (repeat c (S k)) :: seen a b c k.
Proof. intros H. unfold seen. replace (S k + 1 - a)%nat with (S (k + 1 - a)) by lia. reflexivity. Qed.
Lemma seen_length a b c k : (1 <= a)%nat -> length (seen a b c k) = (k + 1 - a)%nat.
Proof. intros H. unfold seen. rewrite firstn_length, trail_length, repeat_length. lia. Qed.
Lemma seen_values a b c k : (1 <= a < b)%nat -> (a <= k)%nat -> Forall (fun x => c * x <= 0) (seen a b c k) /\ last (seen a b c k) 0 = - c.
Proof.
  intros H L. replace k with (a + (k - a))%nat by lia. induction (k - a)%nat as [|d IH].
  - rewrite Nat.add_0_r. destruct a as [|a]; [lia|]. rewrite seen_next by lia. assert (E : seen (S a) b c a = []) by (unfold seen; replace (a + 1 - S a)%nat with 0%nat by lia; reflexivity). rewrite E, rmacd_repeat by exact H.
    destruct (Nat.ltb_spec (S a) (S a)); [lia|]. destruct (Nat.ltb_spec (S a) b); [|lia]. split; [constructor; [nra|constructor]|reflexivity].
  - replace (a + S d)%nat with (S (a + d)) by lia. rewrite seen_next by lia. destruct IH as [I1 I2]. split.
    + constructor; [|exact I1]. rewrite rmacd_repeat by exact H. destruct (Nat.ltb_spec (S (a + d)) a); [lia|]. destruct (S (a + d) <? b)%nat; nra.
    + assert (seen a b c (a + d) <> []) by (intros Q; apply (f_equal (@length R)) in Q; rewrite seen_length in Q by lia; cbn in Q; lia). cbn [last]. destruct (seen a b c (a + d)); [contradiction|exact I2].
Qed.
Lemma signal_seen a b m c k : (a <= k)%nat -> rmacd_signal a b m (repeat c k) = rema m (seen a b c k).
Proof. intros H. unfold rmacd_signal. rewrite repeat_length. destruct (Nat.ltb_spec k a); [lia|reflexivity]. Qed.
Lemma signal_lasts a b m c k : (1 <= a < b)%nat -> (2 <= m)%nat -> (a + m <= k + 1)%nat -> c <> 0 -> c * rmacd_signal a b m (repeat c k) < 0.
Proof.
  intros H Hm L Hc. rewrite signal_seen by lia. destruct (seen_values a b c k H ltac:(lia)) as [V1 V2]. rewrite <- (linear_scale (rema m) c) by apply rema_linear. apply rema_negative.
  - rewrite map_length, seen_length by lia. lia.
  - now apply Forall_map.
  - assert (Q : forall l, last (map (fun x => c * x) l) 0 = c * last l 0).
    { induction l as [|x [|y l] I]; [cbn; ring|reflexivity|exact I]. }
    rewrite Q, V2. assert (0 < c * c) by (destruct (Rlt_dec 0 c); nra). lra.
Qed.
Lemma signal_fades a b m c k : (1 <= a < b)%nat -> (2 <= m)%nat -> (a + m <= k + 1)%nat -> (b <= k + 1)%nat ->
  rmacd_signal a b m (repeat c (S k)) = (INR m - 1) / (INR m + 1) * rmacd_signal a b m (repeat c k).
Proof.
  intros H Hm L K. rewrite !signal_seen by lia. rewrite seen_next by lia. cbn [rema]. destruct (Nat.leb_spec (length (rmacd a b (repeat c (S k)) :: seen a b c k)) m) as [J|J].
  - cbn [length] in J. rewrite seen_length in J by lia. lia.
  - rewrite rmacd_repeat by exact H. destruct (Nat.ltb_spec (S k) a); [lia|]. destruct (Nat.ltb_spec (S k) b); [lia|]. assert (0 <= INR m) by apply pos_INR. field. lra.
Qed.
Lemma upto_repeat (c : R) n len : (n < len)%nat -> upto n (repeat c len) = repeat c (S n).
Proof.
  intros H. unfold upto. assert (E : forall k l, (k <= l)%nat -> firstn k (repeat c l) = repeat c k) by (induction k as [|k I]; intros [|l] Hk; try lia; [reflexivity|reflexivity|cbn; f_equal; apply I; lia]).
  rewrite E by lia. clear E. generalize (S n). intros k. induction k as [|k IH]; [reflexivity|]. cbn [repeat rev]. rewrite IH. symmetry. apply repeat_cons.
Qed.
Theorem macd_swapped_flat short long m c len : (1 <= short < long)%nat -> (2 <= m)%nat -> c <> 0 -> countably len ->
  exists s f macd signal histogram sf s0,
    call (MovingAverageConvergenceDivergence (Z.of_nat short) (Z.of_nat long) (Z.of_nat m)) (reals (repeat c len)) None true =
      Ok (Tup [s; f; reals macd; reals signal; reals histogram], sf, s0) /\
    length macd = len /\ length signal = len /\ length histogram = len /\
    forall n, (n < len)%nat -> (long <= n + 1)%nat -> (short + m <= n + 2)%nat ->
      at_pos macd n = 0 /\ c * at_pos signal n < 0 /\ at_pos histogram n = - at_pos signal n /\
      ((n + 1 < len)%nat -> at_pos signal (n + 1) = (INR m - 1) / (INR m + 1) * at_pos signal n).
Proof.
  intros H Hm Hc [L1 L2]. assert (C : countable (repeat c len)) by (split; [destruct len; [lia|discriminate]|now rewrite repeat_length]).
  destruct (macd_outputs short long m (repeat c len)) as (sf & s0 & E); [lia|lia|lia|exact C|]. eexists _, _, _, _, _, sf, s0. split; [exact E|]. rewrite !run_length, repeat_length. do 3 (split; [reflexivity|]).
  intros n Hn B S. rewrite !run_at by now rewrite repeat_length. rewrite !upto_repeat by exact Hn.
  assert (Z : rmacd short long (repeat c (Datatypes.S n)) = 0). { rewrite rmacd_repeat by exact H. destruct (Nat.ltb_spec (Datatypes.S n) short); [reflexivity|]. destruct (Nat.ltb_spec (Datatypes.S n) long); [lia|reflexivity]. }
  split; [exact Z|]. split; [apply signal_lasts; [exact H|exact Hm|lia|exact Hc]|]. split.
  - unfold rmacd_histogram. rewrite repeat_length. destruct (Nat.ltb_spec (Datatypes.S n + 1) (short + m)); [lia|]. rewrite Z. ring.
  - intros Hn1. rewrite run_at by (rewrite repeat_length; exact Hn1). rewrite upto_repeat by exact Hn1. rewrite Nat.add_1_r. apply signal_fades; [exact H|exact Hm|lia|lia].
Qed.
(** *** On a falling line *)
Lemma crossover_line slow fast a b n : (1 <= fast)%nat -> (fast <= slow)%nat -> (slow <= S n)%nat -> rcrossover slow fast (back a b n) = b * ((INR slow - INR fast) / 2).
Proof.
  intros H1 H2 H3. unfold rcrossover. rewrite back_length. destruct (Nat.ltb_spec (S n) slow); [lia|]. rewrite !sma_line by lia. field.
Qed.
Lemma signal_line_none slow fast a b n : (1 <= fast < slow)%nat -> b < 0 -> rsignal slow fast (back a b n) = 0%Z.
Proof.
  intros H Hb. unfold rsignal. rewrite back_length. destruct (Nat.leb_spec (S n) slow) as [L|L]; [reflexivity|]. destruct n as [|n]; [lia|].
  assert (N : forall k, (slow <= S k)%nat -> rcrossover slow fast (back a b k) < 0).
  { intros k K. rewrite crossover_line by lia. assert (INR fast < INR slow) by (apply lt_INR; lia). nra. }
  assert (B : forall k, exists r, trail (rcrossover slow fast) (back a b k) = rcrossover slow fast (back a b k) :: r) by (intros [|k]; cbn [back trail]; eauto).
  assert (E : trail (rcrossover slow fast) (back a b (S n)) = rcrossover slow fast (back a b (S n)) :: trail (rcrossover slow fast) (back a b n)) by reflexivity.
  rewrite E. destruct (B n) as [r Er]. rewrite Er. set (x := rcrossover slow fast (back a b (S n))) in *. set (y := rcrossover slow fast (back a b n)).
  change (@crossing ER (map Fin (x :: y :: r))) with (if Bool.eqb (@side ER (map Fin (x :: y :: r))) (@side ER (map Fin (y :: r))) then 0%Z else if @side ER (map Fin (x :: y :: r)) then 1%Z else (-1)%Z).
  rewrite !negative_side by (apply N; lia). reflexivity.
Qed.
Theorem signal_swapped_line short long a b len : (1 <= short < long)%nat -> (long <= len)%nat -> b < 0 -> 0 < a + b * (INR len - 1) -> countably len ->
  exists swapped sf s0 sf' s0',
    call (SimpleMovingAverageCrossoverSignal (Z.of_nat long) (Z.of_nat short)) (reals (line a b len)) None true = Ok (@ints ER (repeat 0%Z len), sf, s0) /\
    call (SimpleMovingAverageCrossoverSignal (Z.of_nat short) (Z.of_nat long)) (reals (line a b len)) None true = Ok (@ints ER swapped, sf', s0') /\
    length swapped = len /\ nth (long - 1) swapped 0%Z = 1%Z.
Proof.
  intros H L Hb Ha Hl. assert (C := line_countable a b len Hl). destruct (signal_outputs long short (line a b len)) as (sf & s0 & E); [lia|lia|exact C|].
  assert (P : Forall (fun x => 0 < x) (line a b len)).
  { apply Forall_forall. intros x Hx. unfold line in Hx. apply in_map_iff in Hx as (i & <- & Hi). apply in_seq in Hi. assert (INR i <= INR len - 1) by (pose proof (le_INR (S i) len ltac:(lia)) as Q; rewrite S_INR in Q; lra). nra. }
  destruct (signal_swapped short long (line a b len) H C P) as (out & low & high & sf' & s0' & E' & Lo & [_ O1] & [_ O2] & _ & V). rewrite line_length in *. specialize (V L).
  exists out, sf, s0, sf', s0'. split.
  - rewrite E. do 4 f_equal. apply nth_ext with (d := 0%Z) (d' := 0%Z); [now rewrite map_length, hists_length, line_length, repeat_length|].
    intros n Hn. rewrite map_length, hists_length, line_length in Hn. rewrite nth_map_hists by now rewrite line_length. rewrite line_upto by exact Hn. rewrite signal_line_none by (lia || exact Hb).
    symmetry. assert (forall k i, nth i (repeat 0%Z k) 0%Z = 0%Z) as -> by (induction k as [|k I]; intros [|i]; try reflexivity; apply I). reflexivity.
  - split; [exact E'|]. split; [exact Lo|]. rewrite V. clear V.
    destruct (averages_on_line short a b len ltac:(lia) Hl) as (sma & ema & rma & [L1 (f1 & g1 & A1)] & _ & _ & V1).
    destruct (averages_on_line long a b len ltac:(lia) Hl) as (sma' & ema' & rma' & [L2 (f2 & g2 & A2)] & _ & _ & V2).
    destruct O1 as (f3 & g3 & A3), O2 as (f4 & g4 & A4). rewrite A1 in A3. rewrite A2 in A4.
    assert (I : forall x y : list R, reals x = reals y -> x = y).
    { intros x y Q. unfold reals in Q. injection Q as _ Q. revert y Q. induction x as [|u x J]; intros [|v y] Q; try discriminate; [reflexivity|]. injection Q as -> Q. f_equal. now apply J. }
    assert (X1 : reals sma = reals low) by congruence. assert (X2 : reals sma' = reals high) by congruence.
    apply I in X1, X2. subst low high. destruct (V1 (long - 1)%nat ltac:(lia) ltac:(lia)) as (-> & _). destruct (V2 (long - 1)%nat ltac:(lia) ltac:(lia)) as (-> & _).
    assert (INR short < INR long) by (apply lt_INR; lia). match goal with |- context [Rlt_dec ?x ?y] => destruct (Rlt_dec x y) as [_|Q] end; [reflexivity|]. exfalso. apply Q. nra.
Qed.
