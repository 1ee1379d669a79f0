(** * ForgetTrend: Supertrend never forgets (C83). *)
From Coq Require Import Reals Lra List ZArith Bool Lia.
From Verif Require Import Num Py Tensor Streamable Common Finance Series Formulas Positions ER Linear RealFacts RealMarket RealMirror RealLinear RealScale RealScale2 NormFacts ReturnFacts
  SignalFacts ImplBasic ImplComp ImplScalar ImplWindow ImplCorr ImplMarket MarketFacts MarketReal StatFacts Steady SteadyFacts SteadyMarket Super SuperFacts SuperNum
  Agree AgreeFacts Halt HaltFacts HaltMarket Fading FadingFacts.
Import ListNotations.
Local Open Scope R_scope.

(** A bar around 4 and a bar around 11, both of range 2. *)
Definition low_bar := RC 4 5 3 4.
Definition high_bar := RC 11 12 10 11.
Definition pair_bars (h : list rcandle) : Prop := Forall (fun b => b = low_bar \/ b = high_bar) h.
Lemma pair_bounded h : pair_bars h -> bounded_bars 12 h.
Proof. apply Forall_impl. intros b [->| ->]; cbn [r_high r_low r_close low_bar high_bar]; repeat split; rewrite Rabs_right; lra. Qed.
Lemma pair_ranges h : pair_bars h -> Forall (fun x => 2 <= x) (rranges h).
Proof.
  induction 1 as [|b h Hb Hh IH]; [constructor|]. cbn [rranges]. constructor; [|exact IH]. unfold rrange. eapply Rle_trans; [|apply Rmax_l]. eapply Rle_trans; [|apply Rmax_l].
  destruct Hb as [->| ->]; cbn [r_high r_low low_bar high_bar]; lra.
Qed.
Lemma pair_atr h : pair_bars h -> (2 <= length h)%nat -> 2 <= rrma 2 (rranges h).
Proof.
  intros H L. assert (B := rranges_bounded 12 h ltac:(lra) (pair_bounded h H)). apply (rrma_between 2 (rranges h) 2 (12 + 12)); [rewrite rranges_length; lia|].
  assert (C := pair_ranges h H). apply Forall_forall. intros x Hx. unfold bounded in B. rewrite Forall_forall in B, C. specialize (B x Hx). specialize (C x Hx). assert (Q := Rle_abs x). split; lra.
Qed.
Notation trend_of h := (@supertrend ER 2 (Fin 2) (map cfin h)).
Lemma trend_step y h d u t l : pair_bars (y :: h) -> (1 <= length h)%nat -> trend_of h = Trend (Fin d) (Fin u) t l ->
  exists d' u' t' a, trend_of (y :: h) = Trend (Fin d') (Fin u') t' (Fin (if Z.eqb t' 1 then u' else d')) /\ 2 <= a /\
    u' = (if Rlt_dec u (rlast_close h) then Rmax ((r_high y + r_low y) / 2 - 2 * a) u else (r_high y + r_low y) / 2 - 2 * a) /\
    d' = (if Rlt_dec (rlast_close h) d then Rmin ((r_high y + r_low y) / 2 + 2 * a) d else (r_high y + r_low y) / 2 + 2 * a) /\
    t' = (if Rlt_dec d (r_close y) then 1 else if Rlt_dec (r_close y) u then -1 else if Z.eqb t 0 then 1 else t)%Z /\
    a = rrma 2 (rranges (y :: h)).
Proof.
  intros H L E. assert (A := pair_atr (y :: h) H ltac:(cbn; lia)). set (a := rrma 2 (rranges (y :: h))) in *.
  destruct (next_fin 2 a y (rlast_close h) d u t l) as (d' & u' & t' & E' & Eu & Ed & Et). exists d', u', t', a. split; [|now repeat split].
  change (map cfin (y :: h)) with (cfin y :: map cfin h). cbn [supertrend]. change (cfin y :: map cfin h) with (map cfin (y :: h)). rewrite atr_fin by lia. fold a. rewrite feq_fin, E, last_close_fin by lra. exact E'.
Qed.
Lemma first_bar y : trend_of [y] = no_trend.
Proof.
  change (map cfin [y]) with (cfin y :: map cfin []). cbn [supertrend]. change (cfin y :: map cfin []) with (map cfin [y]). rewrite atr_fin by lia. rewrite early_zero by (cbn; lia).
  cbn [feq ER]. change (@f0 ER) with (Fin 0). cbn [e_eq]. unfold Reqb. destruct (Req_EM_T 0 0); [reflexivity|lra].
Qed.
Lemma no_trend_fin : @no_trend ER = Trend (Fin 0) (Fin 0) 0%Z (Fin 0).
Proof. reflexivity. Qed.
Lemma last_low j h : rlast_close h = 4 -> rlast_close (repeat low_bar j ++ h) = 4.
Proof. intros H. destruct j; [exact H|reflexivity]. Qed.
Lemma pair_low j h : pair_bars h -> pair_bars (repeat low_bar j ++ h).
Proof. intros H. apply Forall_app. split; [|exact H]. apply Forall_forall. intros x Hx. apply repeat_spec in Hx. now left. Qed.
(** Bars around 4 from the start: the trend is up, the line below 0. *)
Lemma always_low j : exists d u t l, trend_of (repeat low_bar j ++ [low_bar]) = Trend (Fin d) (Fin u) t (Fin l) /\ u <= 0 /\ (t = 0%Z /\ d = 0 \/ t = 1%Z) /\ l <= 0.
Proof.
  induction j as [|j (d & u & t & l & E & U & T & Hl)]; [exists 0, 0, 0%Z, 0; cbn [repeat app]; rewrite first_bar, no_trend_fin; repeat split; try lra; left; split; [reflexivity|lra]|].
  cbn [repeat app]. destruct (trend_step low_bar (repeat low_bar j ++ [low_bar]) d u t (Fin l)) as (d' & u' & t' & a & E' & A & Eu & Ed & Et & _).
  { change (low_bar :: repeat low_bar j ++ [low_bar]) with (repeat low_bar (S j) ++ [low_bar]). apply pair_low. constructor; [now left|constructor]. }
  { rewrite app_length. cbn. lia. }
  { exact E. }
  rewrite last_low in Eu, Ed by reflexivity. cbn [r_high r_low r_close low_bar] in Eu, Ed, Et. assert (U' : u' <= 0) by (rewrite Eu; destruct (Rlt_dec u 4); [apply Rmax_lub|]; lra).
  assert (T' : t' = 1%Z). { rewrite Et. destruct (Rlt_dec d 4); [reflexivity|]. destruct (Rlt_dec 4 u); [lra|]. destruct T as [[-> _]| ->]; reflexivity. }
  exists d', u', t', (if Z.eqb t' 1 then u' else d'). split; [exact E'|]. split; [exact U'|]. split; [now right|]. rewrite T'. exact U'.
Qed.
(** Two bars around 11 before: the trend is down from the first bar around 4 on, the line at 8 or above. *)
Lemma fallen j : exists d u l, trend_of (repeat low_bar j ++ [low_bar; high_bar; high_bar]) = Trend (Fin d) (Fin u) (-1)%Z (Fin l) /\ 8 <= d /\ 8 <= l.
Proof.
  assert (PB : pair_bars [low_bar; high_bar; high_bar]) by (repeat constructor; auto).
  induction j as [|j (d & u & l & E & D & Hl)].
  - cbn [repeat app]. assert (E1 := first_bar high_bar). rewrite no_trend_fin in E1.
    destruct (trend_step high_bar [high_bar] 0 0 0%Z (Fin 0)) as (d & u & t & a & E2 & A & Eu & Ed & Et & Ea); [now inversion PB|cbn; lia|exact E1|].
    assert (Ra : a = 2).
    { rewrite Ea. cbn [rranges rlast_close]. assert (R0 : rrange 0 high_bar = 2). { unfold rrange. cbn [r_high r_low high_bar]. destruct (Req_EM_T 0 0); [|lra]. unfold Rmax. repeat (destruct (Rle_dec _ _); try lra). }
      assert (R1 : rrange (r_close high_bar) high_bar = 2). { cbn [r_close high_bar]. rewrite rrange_known by lra. cbn [r_high r_low high_bar]. unfold Rabs. repeat (destruct (Rcase_abs _); try lra); unfold Rmax; repeat (destruct (Rle_dec _ _); try lra). }
      rewrite R0, R1. cbn. unfold rsma, rmean. cbn. field. }
    cbn [rlast_close r_high r_low r_close high_bar] in Eu, Ed, Et. rewrite Ra in Eu, Ed.
    assert (U7 : 7 <= u) by (rewrite Eu; destruct (Rlt_dec 0 11); [eapply Rle_trans; [|apply Rmax_l]|]; lra).
    assert (D15 : d = 15) by (rewrite Ed; destruct (Rlt_dec 11 0); lra).
    destruct (trend_step low_bar [high_bar; high_bar] d u t (Fin (if Z.eqb t 1 then u else d))) as (d' & u' & t' & a' & E3 & A' & Eu' & Ed' & Et' & Ea'); [exact PB|cbn; lia|exact E2|].
    cbn [rlast_close r_high r_low r_close high_bar low_bar] in Eu', Ed', Et'.
    assert (T' : t' = (-1)%Z). { rewrite Et'. destruct (Rlt_dec d 4); [lra|]. destruct (Rlt_dec 4 u); [reflexivity|lra]. }
    assert (D' : 8 <= d') by (rewrite Ed'; destruct (Rlt_dec 11 d); [apply Rmin_glb|]; lra).
    exists d', u', d'. rewrite E3, T'. repeat split; exact D'.
  - cbn [repeat app]. destruct (trend_step low_bar (repeat low_bar j ++ [low_bar; high_bar; high_bar]) d u (-1)%Z (Fin l)) as (d' & u' & t' & a & E' & A & Eu & Ed & Et & _).
    { change (low_bar :: repeat low_bar j ++ [low_bar; high_bar; high_bar]) with (repeat low_bar (S j) ++ [low_bar; high_bar; high_bar]). now apply pair_low. }
    { rewrite app_length. cbn. lia. }
    { exact E. }
    rewrite last_low in Eu, Ed by reflexivity. cbn [r_high r_low r_close low_bar] in Eu, Ed, Et.
    assert (T' : t' = (-1)%Z). { rewrite Et. destruct (Rlt_dec d 4); [lra|]. destruct (Rlt_dec 4 u); reflexivity. }
    assert (D' : 8 <= d') by (rewrite Ed; destruct (Rlt_dec 4 d); [apply Rmin_glb|]; lra).
    exists d', u', d'. rewrite E', T'. repeat split; exact D'.
Qed.
Lemma trend_line xs : xs <> [] -> pair_bars xs -> (Z.of_nat (length xs) < 2147483648)%Z ->
  exists (line : list ext) sf s0, call (@Supertrend ER (Z.of_nat 2) (PyInt 2)) (bars_of xs) None true = Ok (@scalars ER line, sf, s0) /\ length line = length xs /\
    forall m, (m < length xs)%nat -> nth m line (Fin 0) = t_line (trend_of (upto m xs)).
Proof.
  intros NE P L. assert (Sh : short (rev xs)) by (unfold short; rewrite rev_length; lia). assert (Sh' : short (rev (map cfin xs))) by (unfold short; rewrite rev_length, map_length; lia).
  destruct (super_safe_factor 2 (PyInt 2) 2 xs) as (out & sf & s0 & E & Lo); [lia|reflexivity|cbn; lra|exact NE|exact Sh| |].
  { revert P. apply Forall_impl. intros b [->| ->]; cbn; lra. }
  destruct (super_known (N := ER) 2 (PyInt 2) (map cfin xs) ltac:(lia) (map_some cfin xs NE) Sh' _ E) as (out' & a & sf2 & s2 & sf3 & s3 & Er & _ & Lo' & _ & _ & V & _).
  exists out', sf2, s2. split; [unfold bars_of; rewrite E; now f_equal|]. rewrite map_length in *. split; [exact Lo'|]. intros m Hm. destruct (V m Hm) as [Vm _]. change (@num ER (PyInt 2)) with (Fin 2) in Vm. rewrite <- StatFacts.upto_map in Vm. exact Vm.
Qed.
Lemma upto_repeat {X} (b : X) n k : (n < k)%nat -> upto n (repeat b k) = repeat b (S n).
Proof.
  intros H. unfold upto. replace k with (S n + (k - S n))%nat by lia. rewrite repeat_app, firstn_app, repeat_length, Nat.sub_diag, firstn_O, app_nil_r, firstn_all2 by (rewrite repeat_length; lia).
  assert (G : forall j, rev (repeat b j) = repeat b j); [|apply G]. intros j. induction j as [|j IH]; [reflexivity|]. cbn [repeat rev]. rewrite IH. clear. induction j; cbn; [reflexivity|now f_equal].
Qed.
Lemma repeat_last {X} (b : X) n r : repeat b (S n) ++ r = repeat b n ++ [b] ++ r.
Proof. rewrite app_assoc. f_equal. induction n as [|n IH]; [reflexivity|]. cbn [repeat app] in *. now f_equal. Qed.
Theorem trend_remembers K : (Z.of_nat (2 + S K) < 2147483648)%Z ->
  exists xs ys zs (line line' : list ext) sf s0 sf' s0' below above, bounded_bars 12 (xs ++ zs) /\ bounded_bars 12 (ys ++ zs) /\ length zs = S K /\
    call (@Supertrend ER 2 (PyInt 2)) (bars_of (xs ++ zs)) None true = Ok (@scalars ER line, sf, s0) /\
    call (@Supertrend ER 2 (PyInt 2)) (bars_of (ys ++ zs)) None true = Ok (@scalars ER line', sf', s0') /\
    nth (length xs + K) line NaN = Fin below /\ below <= 0 /\ nth (length ys + K) line' NaN = Fin above /\ 8 <= above.
Proof.
  intros Hb. exists [], [high_bar; high_bar], (repeat low_bar (S K)).
  assert (P1 : pair_bars ([] ++ repeat low_bar (S K))) by (rewrite <- (app_nil_r (repeat low_bar (S K))); apply pair_low; constructor).
  assert (P2 : pair_bars ([high_bar; high_bar] ++ repeat low_bar (S K))) by (apply Forall_app; split; [repeat constructor; auto|exact P1]).
  assert (Lr := repeat_length low_bar (S K)).
  destruct (trend_line ([] ++ repeat low_bar (S K))) as (o & sf & s0 & E & L & V); [discriminate|exact P1|cbn [app]; rewrite Lr; lia|].
  destruct (trend_line ([high_bar; high_bar] ++ repeat low_bar (S K))) as (o' & sf' & s0' & E' & L' & V'); [discriminate|exact P2|rewrite app_length, Lr; cbn [length]; exact Hb|].
  destruct (always_low K) as (d & u & t & l & Q & _ & _ & Hl). destruct (fallen K) as (d2 & u2 & l2 & Q2 & _ & Hl2).
  exists o, o', sf, s0, sf', s0', l, l2. split; [now apply pair_bounded|]. split; [now apply pair_bounded|]. split; [exact Lr|]. split; [exact E|]. split; [exact E'|]. clear E E' Hb.
  split; [|split; [exact Hl|split; [|exact Hl2]]].
  - rewrite (nth_indep o NaN (Fin 0)) by (rewrite L; cbn [app]; rewrite Lr; cbn [length]; lia). rewrite V by (cbn [app]; rewrite Lr; cbn [length]; lia).
    rewrite upto_app by (rewrite Lr; lia). rewrite upto_repeat by lia. cbn [rev]. rewrite repeat_last, app_nil_r, Q. reflexivity.
  - rewrite (nth_indep o' NaN (Fin 0)) by (rewrite L', app_length, Lr; cbn [length]; lia). rewrite V' by (rewrite app_length, Lr; cbn [length]; lia).
    rewrite upto_app by (rewrite Lr; lia). rewrite upto_repeat by lia. cbn [rev app]. rewrite (repeat_last low_bar K [high_bar; high_bar]). cbn [app]. rewrite Q2. reflexivity.
Qed.
