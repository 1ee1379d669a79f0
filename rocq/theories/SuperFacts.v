(** * SuperFacts: when Supertrend turns, how its line moves, when it cannot abort (C66). *)
From Coq Require Import Reals Lra List ZArith Bool Lia.
From Verif Require Import Num Py Tensor Streamable Spec Meta Common Finance Series Formulas Positions Implements ImplMarket Genuine GenuineLib SignalFacts MarketFacts Super.
Import ListNotations.

Section SuperFacts.
Context {N : FOps}.
Section One.
Context (p : nat) (factor : pynum) (xs : list (@candle N)).
Context (Hp : p >= 1) (NE : xs <> []) (OK : short (rev xs)).
Let T n := supertrend p (num factor) (upto n xs).
Lemma calm_upto n : calm p (num factor) (rev xs) -> n < length xs -> calm p (num factor) (upto n xs).
Proof.
  intros CL Hn. rewrite <- (upto_last xs) in CL. destruct (upto_split n (length xs - 1) xs ltac:(lia) ltac:(lia)) as (g & _ & E & _).
  rewrite E in CL. clear E. induction g as [|x g IH]; [exact CL|]. apply IH. apply CL.
Qed.
Lemma after_call n : calm p (num factor) (rev xs) -> n < length xs ->
  exists out s0, call (Supertrend (Z.of_nat p) factor) (bars (firstn (S n) xs)) None true = Ok (out, at_ (super_st p (num factor)) (upto n xs), s0).
Proof.
  intros CL Hn. assert (NE' : firstn (S n) xs <> []) by (destruct xs; [easy|discriminate]).
  rewrite <- stack_bars by exact NE'. do 2 eexists.
  rewrite (implements_stream _ _ _ _ _ (super_implements p factor Hp) [] (firstn (S n) xs) None).
  - unfold upto. now rewrite app_nil_r.
  - rewrite app_nil_r. split; [|now apply calm_upto]. unfold short in *. rewrite rev_length in *. rewrite firstn_length. lia.
  - exact NE'.
  - discriminate.
  - now right.
Qed.
Lemma after_iff n d : calm p (num factor) (rev xs) -> n < length xs -> direction_after p factor xs n d <-> d = t_dir (T n).
Proof.
  intros CL Hn. destruct (after_call n CL Hn) as (out & s0 & E). unfold direction_after. rewrite E. split.
  - intros (? & ? & ? & [= <- <- <-] & D). rewrite at_super_st in D. cbn in D. now injection D.
  - intros ->. exists out, (at_ (super_st p (num factor)) (upto n xs)), s0. split; [reflexivity|]. rewrite at_super_st. reflexivity.
Qed.
Lemma super_known r : call (Supertrend (Z.of_nat p) factor) (bars xs) None true = Ok r ->
  exists out a sf s0 sf' s0', r = (scalars out, sf, s0) /\ call (AverageTrueRange (Z.of_nat p)) (bars xs) None true = Ok (scalars a, sf', s0') /\
    length out = length xs /\ length a = length xs /\ calm p (num factor) (rev xs) /\
    (forall n, n < length xs -> nth n out f0 = t_line (T n) /\ nth n a f0 = atr p (upto n xs)) /\
    (forall n d, n < length xs -> direction_after p factor xs n d <-> d = t_dir (T n)).
Proof.
  intros H. pose proof (super_calm p factor xs r Hp OK (genuine_supertrend _ _) NE H) as CL.
  destruct (super_streams p factor Hp) as (st & H1 & _). rewrite (H1 xs NE (conj OK CL)) in H. injection H as <-.
  destruct (atr_streams p Hp) as (st' & H2 & _). specialize (H2 xs NE OK).
  eexists _, _, _, _, _, _. split; [reflexivity|]. split; [exact H2|]. split; [now rewrite map_length, hists_length|]. split; [now rewrite map_length, hists_length|].
  split; [exact CL|]. split; [|intros n d Hn; now apply after_iff]. intros n Hn. rewrite !nth_map_hists by exact Hn. split; reflexivity.
Qed.
Lemma T_0 : 0 < length xs -> T 0 = if feq (atr p (upto 0 xs)) f0 then no_trend else next_trend (num factor) (atr p (upto 0 xs)) (nth 0 xs no_candle) f0 no_trend.
Proof. intros H. unfold T. now rewrite (upto_0 xs no_candle) by exact H. Qed.
Lemma T_S n : S n < length xs -> T (S n) = if feq (atr p (upto (S n) xs)) f0 then no_trend
  else next_trend (num factor) (atr p (upto (S n) xs)) (nth (S n) xs no_candle) (c_close (nth n xs no_candle)) (T n).
Proof. intros H. unfold T. rewrite (upto_S n xs no_candle) by exact H. cbn [supertrend]. rewrite last_close_upto by lia. reflexivity. Qed.
Lemma T_line n : n < length xs -> t_line (T n) = if Z.eqb (t_dir (T n)) 1 then t_up (T n) else t_down (T n).
Proof. intros H. destruct n as [|n]; [rewrite T_0 by exact H|rewrite T_S by exact H]; destruct (feq _ _); reflexivity. Qed.
Lemma T_dir n : n < length xs -> (feq (atr p (upto n xs)) f0 = true -> T n = no_trend) /\ (feq (atr p (upto n xs)) f0 = false -> t_dir (T n) = 1%Z \/ t_dir (T n) = (-1)%Z).
Proof.
  induction n as [|n IH]; intros H.
  - rewrite T_0 by exact H. split; intros ->; [reflexivity|]. unfold next_trend. cbn [t_dir]. destruct (flt _ _); [now left|]. destruct (flt _ _); [now right|now left].
  - rewrite T_S by exact H. split; intros ->; [reflexivity|]. unfold next_trend. cbn [t_dir]. destruct (flt _ _); [now left|]. destruct (flt _ _); [now right|].
    destruct (IH ltac:(lia)) as [I1 I2]. destruct (feq (atr p (upto n xs)) f0); [rewrite I1 by reflexivity; now left|]. destruct (I2 eq_refl) as [->| ->]; [now left|now right].
Qed.
Lemma T_calm n : calm p (num factor) (rev xs) -> S n < length xs -> feq (atr p (upto (S n) xs)) f0 = false ->
  flt (t_down (T n)) (c_close (nth (S n) xs no_candle)) && flt (c_close (nth (S n) xs no_candle)) (t_up (T n)) = false.
Proof.
  intros CL H A. pose proof (calm_upto (S n) CL H) as CN. rewrite (upto_S n xs no_candle) in CN, A by exact H. destruct CN as [CN _]. unfold conflict in CN. rewrite A in CN. exact CN.
Qed.
Theorem super_turns r : call (Supertrend (Z.of_nat p) factor) (bars xs) None true = Ok r ->
  exists out a dir sf s0 sf' s0', r = (scalars out, sf, s0) /\ call (AverageTrueRange (Z.of_nat p)) (bars xs) None true = Ok (scalars a, sf', s0') /\
    length out = length xs /\
    forall n, n < length xs -> let close := c_close (nth n xs no_candle) in
      direction_after p factor xs n (dir n) /\
      (feq (nth n a f0) f0 = true -> dir n = 0%Z /\ nth n out f0 = f0) /\
      (feq (nth n a f0) f0 = false -> dir n = 1%Z \/ dir n = (-1)%Z) /\
      (feq (nth n a f0) f0 = false -> n = 0 \/ dir (n - 1) = 0%Z -> (dir n = (-1)%Z <-> flt f0 close = false /\ flt close f0 = true)) /\
      (feq (nth n a f0) f0 = false -> 0 < n -> dir (n - 1) = 1%Z -> (dir n = (-1)%Z <-> flt close (nth (n - 1) out f0) = true)) /\
      (feq (nth n a f0) f0 = false -> 0 < n -> dir (n - 1) = (-1)%Z -> (dir n = 1%Z <-> flt (nth (n - 1) out f0) close = true)).
Proof.
  intros H. destruct (super_known r H) as (out & a & sf & s0 & sf' & s0' & E & E' & L & La & CL & K & D).
  exists out, a, (fun n => t_dir (T n)), sf, s0, sf', s0'. split; [exact E|]. split; [exact E'|]. split; [exact L|].
  intros n Hn close. destruct (K n Hn) as [Kl ->]. rewrite Kl. destruct (T_dir n Hn) as [D0 D1]. split; [now apply D|].
  split; [intros A; rewrite D0 by exact A; split; reflexivity|]. split; [exact D1|].
  assert (C0 : forall s, s = no_trend -> forall aa pr, t_dir (next_trend (num factor) aa (nth n xs no_candle) pr s) = (-1)%Z <-> flt f0 close = false /\ flt close f0 = true).
  { intros s -> aa pr. unfold next_trend. cbn [t_dir t_down t_up no_trend Z.eqb]. fold close. destruct (flt f0 close), (flt close f0); intuition discriminate. }
  destruct n as [|n].
  - split; [|split; lia]. intros A _. rewrite T_0, A by exact Hn. now apply C0.
  - replace (S n - 1) with n by lia. assert (Hn' : n < length xs) by lia. destruct (K n Hn') as [-> _]. destruct (T_dir n Hn') as [P0 P1].
    pose proof (T_line n Hn') as TL. split; [|split].
    + intros A [?|Z0]; [lia|]. rewrite (T_S n Hn), A. apply C0. destruct (feq (atr p (upto n xs)) f0); [now apply P0|]. destruct (P1 eq_refl) as [Q|Q]; rewrite Q in Z0; discriminate.
    + intros A _ Z1. pose proof (T_calm n CL Hn A) as CN. rewrite (T_S n Hn), A, TL, Z1. unfold next_trend. cbn [t_dir Z.eqb]. rewrite Z1. cbn [Z.eqb]. fold close in CN. fold close.
      change (Pos.eqb 1 1) with true. cbn match.
      destruct (flt (t_down (T n)) close), (flt close (t_up (T n))); cbn in CN |- *; intuition discriminate.
    + intros A _ Z1. pose proof (T_calm n CL Hn A) as CN. rewrite (T_S n Hn), A, TL, Z1. unfold next_trend. cbn [t_dir Z.eqb]. rewrite Z1. cbn [Z.eqb]. fold close in CN. fold close.
      destruct (flt (t_down (T n)) close), (flt close (t_up (T n))); cbn in CN |- *; intuition discriminate.
Qed.
Theorem super_moves r : call (Supertrend (Z.of_nat p) factor) (bars xs) None true = Ok r ->
  exists out a sf s0 sf' s0', r = (scalars out, sf, s0) /\ call (AverageTrueRange (Z.of_nat p)) (bars xs) None true = Ok (scalars a, sf', s0') /\
    length out = length xs /\
    forall n, 0 < n < length xs ->
      let m := middle (nth n xs no_candle) in let reach := fmul (num factor) (nth n a f0) in
      let close := c_close (nth (n - 1) xs no_candle) in let line := nth (n - 1) out f0 in
      (direction_after p factor xs (n - 1) 1 -> direction_after p factor xs n 1 ->
         nth n out f0 = if flt line close then fmax (fsub m reach) line else fsub m reach) /\
      (direction_after p factor xs (n - 1) (-1) -> direction_after p factor xs n (-1) ->
         nth n out f0 = if flt close line then fmin (fadd m reach) line else fadd m reach).
Proof.
  intros H. destruct (super_known r H) as (out & a & sf & s0 & sf' & s0' & E & E' & L & La & CL & K & D).
  exists out, a, sf, s0, sf', s0'. split; [exact E|]. split; [exact E'|]. split; [exact L|].
  intros n Hn. destruct n as [|n]; [lia|]. replace (S n - 1) with n by lia. intros m reach close line. assert (Hn' : n < length xs) by lia. destruct Hn as [_ Hn].
  destruct (K n Hn') as [Kl _]. destruct (K (S n) Hn) as [Ks Ka]. unfold line, reach. rewrite Kl, Ks, Ka. rewrite !D by assumption.
  split; intros D1 D2.
  - rewrite (T_line n Hn'), (T_line (S n) Hn), <- D1, <- D2. change (1 =? 1)%Z with true. cbn match. rewrite (T_S n Hn) in D2 |- *. destruct (feq _ _); [discriminate|]. reflexivity.
  - rewrite (T_line n Hn'), (T_line (S n) Hn), <- D1, <- D2. change (-1 =? 1)%Z with false. cbn match. rewrite (T_S n Hn) in D2 |- *. destruct (feq _ _); [discriminate|]. reflexivity.
Qed.
End One.

(** ** The line moves with the trend only *)
Section Ordered.
Context {usable : F -> Prop} (P : picking N usable).
Lemma asym x y : flt x y = true -> flt y x = false.
Proof. intros H. destruct (flt y x) eqn:Q; [|reflexivity]. rewrite <- (p_irrefl _ _ P x). symmetry. now apply (p_trans _ _ P _ y). Qed.
Theorem super_trailing p factor xs r : p >= 1 -> xs <> [] -> short (rev xs) -> call (Supertrend (Z.of_nat p) factor) (bars xs) None true = Ok r ->
  exists out sf s0, r = (scalars out, sf, s0) /\ length out = length xs /\
    forall n, 0 < n < length xs -> let close := c_close (nth (n - 1) xs no_candle) in let line := nth (n - 1) out f0 in
      (direction_after p factor xs (n - 1) 1 -> direction_after p factor xs n 1 -> flt line close = true -> flt (nth n out f0) line = false) /\
      (direction_after p factor xs (n - 1) (-1) -> direction_after p factor xs n (-1) -> flt close line = true -> flt line (nth n out f0) = false).
Proof.
  intros Hp NE OK H. destruct (super_moves p factor xs Hp NE OK r H) as (out & a & sf & s0 & sf' & s0' & E & E' & L & K). exists out, sf, s0. split; [exact E|]. split; [exact L|].
  intros n Hn close line. destruct (K n Hn) as [K1 K2]. split; intros D1 D2 Q.
  - rewrite (K1 D1 D2). fold close line. rewrite Q. apply (p_max _ _ P).
  - rewrite (K2 D1 D2). fold close line. rewrite Q. apply (p_min _ _ P).
Qed.

(** ** When it cannot abort *)
(** Every bar is near the close before it: within the factor times the average true range. *)
Fixpoint near (p : nat) (k : F) (h : list candle) : Prop :=
  match h with
  | [] => True
  | c :: r => (feq (atr p h) f0 = false ->
       match r with
       | [] => flt (fadd (middle c) (fmul k (atr p h))) (fsub (middle c) (fmul k (atr p h))) = false
       | b :: _ => usable (c_close b) /\ flt (c_close b) (fsub (middle c) (fmul k (atr p h))) = false /\ flt (fadd (middle c) (fmul k (atr p h))) (c_close b) = false
       end) /\ near p k r
  end.
Lemma lines_apart p k h x : near p k h -> flt (t_down (supertrend p k h)) x = true -> flt x (t_up (supertrend p k h)) = true -> False.
Proof.
  destruct h as [|c r]; [cbn; intros _ H1 H2; pose proof (p_trans _ _ P _ _ _ H1 H2) as Q; now rewrite (p_irrefl _ _ P) in Q|].
  intros [H _] H1 H2. pose proof (p_trans _ _ P _ _ _ H1 H2) as Q. clear H1 H2. cbn [supertrend] in Q. destruct (feq (atr p (c :: r)) f0); [cbn in Q; now rewrite (p_irrefl _ _ P) in Q|].
  specialize (H eq_refl). unfold next_trend in Q. cbn [t_down t_up] in Q. fold (middle c) in Q.
  set (lo := fsub (middle c) (fmul k (atr p (c :: r)))) in *. set (hi := fadd (middle c) (fmul k (atr p (c :: r)))) in *. destruct r as [|b r].
  - cbn [last_close supertrend no_trend t_up t_down] in Q. rewrite (p_irrefl _ _ P) in Q. congruence.
  - destruct H as (U & H1 & H2). cbn [last_close] in Q. set (m := c_close b) in *. set (s := supertrend p k (b :: r)) in *.
    set (tu := if flt (t_up s) m then _ else lo) in Q. set (td := if flt m (t_down s) then _ else hi) in Q.
    assert (B1 : flt m tu = false).
    { unfold tu. destruct (flt (t_up s) m) eqn:G; [|exact H1]. destruct (p_max _ _ P lo (t_up s)) as [[-> | ->] _]; [exact H1|now apply asym]. }
    assert (B2 : flt td m = false).
    { unfold td. destruct (flt m (t_down s)) eqn:G; [|exact H2]. destruct (p_min _ _ P hi (t_down s)) as [[-> | ->] _]; [exact H2|now apply asym]. }
    destruct (p_split _ _ P td m tu U Q); congruence.
Qed.
Lemma near_calm p k h : near p k h -> calm p k h.
Proof.
  induction h as [|c r IH]; intros H; [exact I|]. destruct H as [H1 H2]. split; [|auto]. unfold conflict.
  destruct (feq _ _); [reflexivity|]. cbn [negb andb].
  destruct (flt (t_down (supertrend p k r)) (c_close c)) eqn:Q1, (flt (c_close c) (t_up (supertrend p k r))) eqn:Q2; try reflexivity.
  exfalso. exact (lines_apart p k r _ H2 Q1 Q2).
Qed.
Theorem super_never_aborts p factor xs a sf' s0' : p >= 1 -> xs <> [] -> short (rev xs) ->
  call (AverageTrueRange (Z.of_nat p)) (bars xs) None true = Ok (scalars a, sf', s0') -> length a = length xs ->
  (forall n, n < length xs -> feq (nth n a f0) f0 = false ->
     let m := middle (nth n xs no_candle) in let reach := fmul (num factor) (nth n a f0) in let close := c_close (nth (n - 1) xs no_candle) in
     if n =? 0 then flt (fadd m reach) (fsub m reach) = false
     else usable close /\ flt close (fsub m reach) = false /\ flt (fadd m reach) close = false) ->
  exists out sf s0, call (Supertrend (Z.of_nat p) factor) (bars xs) None true = Ok (scalars out, sf, s0) /\ length out = length xs.
Proof.
  intros Hp NE OK E' La K. destruct (atr_streams p Hp) as (st' & H2 & _). specialize (H2 xs NE OK). rewrite H2 in E'.
  assert (Ea : a = map (atr p) (hists [] xs)).
  { injection E' as _ E' _ _. now symmetry. }
  assert (Nr : forall n, n < length xs -> near p (num factor) (upto n xs)).
  { induction n as [|n IH]; intros Hn; specialize (K _ Hn); rewrite Ea, nth_map_hists in K by exact Hn.
    - rewrite (upto_0 xs no_candle) in K |- * by exact Hn. split; [exact K|exact I].
    - specialize (IH ltac:(lia)). rewrite (upto_S n xs no_candle) in K |- * by exact Hn. split; [|exact IH]. cbn [Nat.eqb] in K. replace (S n - 1) with n in K by lia.
      destruct (upto n xs) as [|b g] eqn:G; [exfalso; now apply (StatFacts.upto_ne n xs ltac:(lia))|].
      replace (c_close b) with (c_close (nth n xs no_candle)); [exact K|]. rewrite <- last_close_upto by lia. now rewrite G. }
  assert (CL : calm p (num factor) (rev xs)).
  { rewrite <- (upto_last xs). apply near_calm, Nr. destruct xs; [easy|cbn; lia]. }
  destruct (super_streams p factor Hp) as (st & H1 & _). eexists _, _, _. split; [apply H1; [exact NE|now split]|]. now rewrite map_length, hists_length.
Qed.
End Ordered.
End SuperFacts.
