(** * RiskFacts: the risk-ratio evaluator, position by position. *)
From Coq Require Import Lia List ZArith Bool.
From Verif Require Import Num Py Tensor Streamable Common Finance Series Formulas Positions EvalFacts
  ImplBasic ImplComp ImplMarket ImplRisk MovingFacts ReturnFacts SignalFacts StatFacts MarketFacts.
Import ListNotations.

(** Reading the emitted signals: the value at [n], the value before [n] (0 at the start). *)
Definition zat (l : list Z) (n : nat) : Z := nth n l 0%Z.
Definition zbefore (l : list Z) (n : nat) : Z := if n =? 0 then 0%Z else nth (n - 1) l 0%Z.
(** Bought at [i] and neither sold nor bought again before [n]. *)
Definition bought (sigs : list Z) (i n : nat) : Prop :=
  i < n /\ zat sigs i = 1%Z /\ forall k, i < k < n -> zat sigs k = 0%Z.
(** Nothing bought before [n], or everything sold. *)
Definition idle (sigs : list Z) (n : nat) : Prop :=
  (forall k, k < n -> zat sigs k = 0%Z) \/
  (exists i, i < n /\ zat sigs i = (-1)%Z /\ forall k, i < k < n -> zat sigs k = 0%Z).

Section Books.
Context {N : FOps}.
Variables (ks kl : F) (duration : option Z).
Variable (vol : nat -> F).
Variable (t : nat -> tick).
Variable (B : nat -> book).
Variable (len : nat).
Hypothesis zz : feq f0 f0 = true.
Hypothesis step : forall n, n < len -> B n = next_book ks kl duration (vol n) (t n) (if n =? 0 then empty_book else B (n - 1)).
Let bef (n : nat) : book := if n =? 0 then empty_book else B (n - 1).
Let sig n := b_signal (B n).
Let stop_at i := fsub (k_close (t i)) (fmul ks (vol i)).
Let limit_at i := fadd (k_close (t i)) (fmul kl (vol i)).

Lemma bef_S n : bef (S n) = B n.
Proof. unfold bef. cbn [Nat.eqb]. now replace (S n - 1) with n by lia. Qed.
(** What each signal says about the step. *)
Lemma step_quiet n : n < len -> sig n = 0%Z ->
  B n = Book (b_stop (bef n)) (b_limit (bef n)) (b_price (bef n)) (b_age (bef n) + 1) (b_wins (bef n)) (b_bets (bef n)) 0.
Proof.
  intros Hn. unfold sig. rewrite step by exact Hn. fold (bef n). unfold next_book, sold. cbv zeta.
  destruct (feq (b_stop (bef n)) f0); cbn [negb andb].
  - destruct (Z.eqb _ 1); [discriminate|]. reflexivity.
  - destruct (fle _ _); [discriminate|]. destruct (fle _ _); [discriminate|].
    destruct duration as [m|]; [|reflexivity]. destruct (Z.eqb _ m); [discriminate|reflexivity].
Qed.
Lemma step_buy n : n < len -> sig n = 1%Z ->
  B n = Book (stop_at n) (limit_at n) (k_close (t n)) 1 (b_wins (bef n)) (b_bets (bef n)) 1 /\
  feq (b_stop (bef n)) f0 = true /\ k_signal (t n) = 1%Z.
Proof.
  intros Hn. unfold sig. rewrite step by exact Hn. fold (bef n). unfold next_book, sold. cbv zeta.
  destruct (feq (b_stop (bef n)) f0); cbn [negb andb].
  - destruct (Z.eqb_spec (k_signal (t n)) 1) as [E|E]; [|discriminate]. intros _. auto.
  - destruct (fle _ _); [discriminate|]. destruct (fle _ _); [discriminate|].
    destruct duration as [m|]; [destruct (Z.eqb _ m)|]; discriminate.
Qed.
Lemma step_sell n : n < len -> sig n = (-1)%Z -> b_stop (B n) = f0.
Proof.
  intros Hn. unfold sig. rewrite step by exact Hn. fold (bef n). unfold next_book, sold. cbv zeta.
  destruct (feq (b_stop (bef n)) f0); cbn [negb andb].
  - destruct (Z.eqb _ 1); discriminate.
  - destruct (fle _ _); [reflexivity|]. destruct (fle _ _); [reflexivity|].
    destruct duration as [m|]; [|discriminate]. destruct (Z.eqb _ m); [reflexivity|discriminate].
Qed.
Lemma step_signal n : n < len -> (sig n = 1 \/ sig n = 0 \/ sig n = -1)%Z.
Proof.
  intros Hn. unfold sig. rewrite step by exact Hn. fold (bef n). unfold next_book, sold. cbv zeta.
  repeat match goal with |- context [if ?c then _ else _] => destruct c end; cbn [b_signal]; auto.
Qed.
Lemma step_counts n : n < len ->
  b_bets (B n) = (b_bets (bef n) + (if Z.eqb (sig n) (-1) then 1 else 0))%Z /\
  (b_wins (bef n) <= b_wins (B n) <= b_wins (bef n) + (if Z.eqb (sig n) (-1) then 1 else 0))%Z.
Proof.
  intros Hn. unfold sig. rewrite step by exact Hn. fold (bef n). unfold next_book, sold. cbv zeta.
  generalize (bef n). intros b. destruct (feq (b_stop b) f0); cbn [negb andb].
  - destruct (Z.eqb (k_signal (t n)) 1); cbn [b_signal b_bets b_wins]; change (1 =? -1)%Z with false; change (0 =? -1)%Z with false; cbv iota; split; lia.
  - destruct (fle _ _); [cbn [b_signal b_bets b_wins Z.eqb Pos.eqb]; split; lia|].
    destruct (fle _ _); [cbn [b_signal b_bets b_wins Z.eqb Pos.eqb]; split; lia|].
    destruct duration as [m|]; [destruct (Z.eqb (b_age b) m)|]; cbn [b_signal b_bets b_wins Z.eqb Pos.eqb]; try destruct (flt _ _); split; lia.
Qed.
(** The position bought at [i]. *)
Lemma held i n : i < n -> n <= len -> sig i = 1%Z -> (forall k, i < k < n -> sig k = 0%Z) ->
  b_stop (bef n) = stop_at i /\ b_limit (bef n) = limit_at i /\ b_price (bef n) = k_close (t i) /\ b_age (bef n) = Z.of_nat (n - i).
Proof.
  intros Hi Hn Si Q. induction n as [|n IH]; [lia|]. rewrite bef_S. destruct (Nat.eq_dec n i) as [->|Ne].
  - destruct (step_buy i ltac:(lia) Si) as (-> & _ & _). cbn [b_stop b_limit b_price b_age]. repeat split. replace (S i - i) with 1 by lia. reflexivity.
  - rewrite step_quiet by (try apply Q; lia). cbn [b_stop b_limit b_price b_age].
    destruct IH as (I1 & I2 & I3 & I4); [lia|lia|intros; apply Q; lia|]. rewrite I1, I2, I3, I4. repeat split. lia.
Qed.
Lemma free n : n <= len -> ((forall k, k < n -> sig k = 0%Z) \/ (exists i, i < n /\ sig i = (-1)%Z /\ forall k, i < k < n -> sig k = 0%Z)) ->
  feq (b_stop (bef n)) f0 = true.
Proof.
  intros Hn I. induction n as [|n IH]; [exact zz|]. rewrite bef_S. destruct I as [Q|(i & Hi & Si & Q)].
  - rewrite step_quiet by (try apply Q; lia). cbn [b_stop]. apply IH; [lia|]. left. intros; apply Q; lia.
  - destruct (Nat.eq_dec n i) as [->|Ne]; [rewrite step_sell by (try exact Si; lia); exact zz|].
    rewrite step_quiet by (try apply Q; lia). cbn [b_stop]. apply IH; [lia|]. right. exists i. repeat split; [lia|exact Si|]. intros; apply Q; lia.
Qed.
Lemma when_free n : n < len -> feq (b_stop (bef n)) f0 = true ->
  sig n = (if Z.eqb (k_signal (t n)) 1 then 1%Z else 0%Z) /\ b_wins (B n) = b_wins (bef n) /\ b_bets (B n) = b_bets (bef n).
Proof.
  intros Hn Z0. unfold sig. rewrite step by exact Hn. fold (bef n). unfold next_book, sold. cbv zeta. rewrite Z0. cbn [negb andb].
  destruct (Z.eqb _ 1); cbn; auto.
Qed.
Lemma when_held i n : i < n -> n < len -> sig i = 1%Z -> (forall k, i < k < n -> sig k = 0%Z) -> feq (stop_at i) f0 = false ->
  (sig n, b_wins (B n)) =
    if fle (k_low (t n)) (stop_at i) then ((-1)%Z, b_wins (bef n))
    else if fle (limit_at i) (k_high (t n)) then ((-1)%Z, (b_wins (bef n) + 1)%Z)
    else if match duration with None => false | Some m => Z.eqb (Z.of_nat (n - i)) m end
         then ((-1)%Z, if flt (k_close (t i)) (k_close (t n)) then (b_wins (bef n) + 1)%Z else b_wins (bef n))
    else (0%Z, b_wins (bef n)).
Proof.
  intros Hi Hn Si Q NZ. destruct (held i n Hi ltac:(lia) Si Q) as (H1 & H2 & H3 & H4).
  unfold sig. rewrite step by exact Hn. fold (bef n). unfold next_book, sold. cbv zeta. rewrite H1, H2, H3, H4, NZ. cbn [negb andb].
  destruct (fle _ _); [reflexivity|]. destruct (fle _ _); [reflexivity|].
  destruct duration as [m|]; [|reflexivity]. destruct (Z.eqb _ m); reflexivity.
Qed.
(** The last signal different from 0 before [n]. *)
Lemma last_signal n : n <= len -> (forall k, k < n -> sig k = 0%Z) \/
  (exists i, i < n /\ sig i <> 0%Z /\ forall k, i < k < n -> sig k = 0%Z).
Proof.
  induction n as [|n IH]; intros Hn; [left; lia|]. destruct (Z.eq_dec (sig n) 0) as [E|E].
  - destruct (IH ltac:(lia)) as [Q|(i & Hi & Si & Q)].
    + left. intros k Hk. destruct (Nat.eq_dec k n) as [->|]; [exact E|apply Q; lia].
    + right. exists i. repeat split; [lia|exact Si|]. intros k Hk. destruct (Nat.eq_dec k n) as [->|]; [exact E|apply Q; lia].
  - right. exists n. repeat split; [lia|exact E|]. intros; lia.
Qed.
Lemma alternate : (forall i, i < len -> sig i = 1%Z -> feq (stop_at i) f0 = false) ->
  (forall n, n < len -> (forall k, k < n -> sig k = 0%Z) -> sig n <> 0%Z -> sig n = 1%Z) /\
  (forall m n, m < n -> n < len -> sig m <> 0%Z -> sig n <> 0%Z -> (forall k, m < k < n -> sig k = 0%Z) -> sig n = (- sig m)%Z).
Proof.
  intros NZ. split.
  - intros n Hn Q S. pose proof (free n ltac:(lia) (or_introl Q)) as Fr. destruct (when_free n Hn Fr) as (E & _ & _).
    rewrite E in *. destruct (Z.eqb _ 1); [reflexivity|easy].
  - intros m n Hm Hn Sm Sn Q. destruct (step_signal m ltac:(lia)) as [E|[E|E]]; [|easy|].
    + pose proof (when_held m n Hm Hn E Q (NZ m ltac:(lia) E)) as W. rewrite E.
      repeat match type of W with _ = (if ?c then _ else _) => destruct c end; injection W as W _; [exact W|exact W|exact W|easy].
    + pose proof (free n ltac:(lia)) as Fr. destruct (when_free n Hn) as (E' & _ & _).
      { apply Fr. right. exists m. auto. }
      rewrite E, E' in *. destruct (Z.eqb _ 1); [reflexivity|easy].
Qed.
End Books.

Section Risk.
Context {N : FOps}.
Definition no_tick : tick := Tick f0 f0 f0 0.
Variables (stop limit : pynum) (p : nat) (duration : option Z).
Lemma msd_scalars l : p >= 1 -> l <> [] -> short (rev l) ->
  exists sf s0, call (MovingStandardDeviation (Z.of_nat p)) (scalars l) None true = Ok (scalars (map (msd p) (hists [] l)), sf, s0).
Proof.
  intros Hp NE OK. destruct (msd_streams [] p Hp) as (st & H & _). specialize (H (map (fun x => [x]) l)). rewrite tensors_single in H.
  eexists _, _. rewrite H.
  - do 3 f_equal. rewrite <- tensors_single. f_equal. change (@nil (list F)) with (map (fun x : F => [x]) []). rewrite hists_map, !map_map.
    apply map_ext. intros h. apply each_single.
  - now destruct l.
  - split.
    + apply Forall_rev, Forall_map, Forall_forall. reflexivity.
    + unfold short in *. rewrite rev_length in *. now rewrite map_length.
Qed.
(** The price levels of a purchase at [i]. *)
Definition stop_of (xs : list tick) (vols : list F) (i : nat) : F :=
  fsub (k_close (nth i xs no_tick)) (fmul (num stop) (nth i vols f0)).
Definition limit_of (xs : list tick) (vols : list F) (i : nat) : F :=
  fadd (k_close (nth i xs no_tick)) (fmul (num limit) (nth i vols f0)).
Definition risk_run (xs : list tick) (wins bets : list Z) (vols : list F) (sigs : list Z) : Prop :=
  exists sf s0 sf' s0',
    call (RiskRatioEvaluator stop limit (Z.of_nat p) duration) (ticks xs) None true =
      Ok (Tup [ints wins; ints bets; scalars vols; ints sigs], sf, s0) /\
    call (MovingStandardDeviation (Z.of_nat p)) (scalars (map k_close xs)) None true = Ok (scalars vols, sf', s0') /\
    length wins = length xs /\ length bets = length xs /\ length vols = length xs /\ length sigs = length xs.
Lemma risk_book xs : p >= 1 -> xs <> [] -> below31 (rev xs) ->
  let W f := map (fun h => f (evaluation (num stop) (num limit) p duration h)) (hists [] xs) in
  risk_run xs (W b_wins) (W b_bets) (map (fun h => msd p (map k_close h)) (hists [] xs)) (W b_signal).
Proof.
  intros Hp NE OK W. destruct (risk_streams stop limit p duration Hp) as (st & H & _). specialize (H xs NE OK).
  unfold evaluations in H. rewrite !map_map in H. cbn [fst snd] in H.
  destruct (msd_scalars (map k_close xs) Hp) as (sf' & s0' & E').
  { now destruct xs. }
  { unfold below31, short in *. rewrite rev_length in *. rewrite map_length. lia. }
  eexists _, _, sf', s0'. split; [exact H|]. split.
  - rewrite E'. do 4 f_equal. change (@nil F) with (map k_close []). rewrite hists_map, map_map. reflexivity.
  - unfold W. rewrite !map_length, hists_length. auto.
Qed.
Lemma risk_unique xs w b v s w' b' v' s' : risk_run xs w b v s -> risk_run xs w' b' v' s' -> w = w' /\ b = b' /\ v = v' /\ s = s'.
Proof.
  intros (sf & s0 & sf1 & s01 & E & _) (sf' & s0' & sf1' & s01' & E' & _). rewrite E in E'. unfold ints, scalars in E'. injection E' as _ -> _ -> _ -> _ -> _ _. auto.
Qed.
Lemma risk_facts xs : p >= 1 -> feq f0 f0 = true -> xs <> [] -> below31 (rev xs) ->
  exists wins bets vols sigs, risk_run xs wins bets vols sigs /\
  (forall n, n < length xs ->
     (zat sigs n = 1 \/ zat sigs n = 0 \/ zat sigs n = -1)%Z /\
     (0 <= zat wins n <= zat bets n)%Z /\
     zat bets n = (zbefore bets n + (if Z.eqb (zat sigs n) (-1) then 1 else 0))%Z /\
     (zbefore wins n <= zat wins n <= zbefore wins n + (if Z.eqb (zat sigs n) (-1) then 1 else 0))%Z) /\
  (forall n, n < length xs -> idle sigs n ->
     zat sigs n = (if Z.eqb (k_signal (nth n xs no_tick)) 1 then 1%Z else 0%Z) /\ zat wins n = zbefore wins n /\ zat bets n = zbefore bets n) /\
  (forall i n, n < length xs -> bought sigs i n -> feq (stop_of xs vols i) f0 = false ->
     (zat sigs n, zat wins n) =
       if fle (k_low (nth n xs no_tick)) (stop_of xs vols i) then ((-1)%Z, zbefore wins n)
       else if fle (limit_of xs vols i) (k_high (nth n xs no_tick)) then ((-1)%Z, (zbefore wins n + 1)%Z)
       else if match duration with None => false | Some m => Z.eqb (Z.of_nat (n - i)) m end
            then ((-1)%Z, if flt (k_close (nth i xs no_tick)) (k_close (nth n xs no_tick)) then (zbefore wins n + 1)%Z else zbefore wins n)
       else (0%Z, zbefore wins n)) /\
  (forall i n, n < length xs -> bought sigs i n -> feq (stop_of xs vols i) f0 = true ->
     zat sigs n = (if Z.eqb (k_signal (nth n xs no_tick)) 1 then 1%Z else 0%Z) /\ zat wins n = zbefore wins n /\ zat bets n = zbefore bets n) /\
  ((forall i, i < length xs -> zat sigs i = 1%Z -> feq (stop_of xs vols i) f0 = false) ->
   (forall n, n < length xs -> (forall k, k < n -> zat sigs k = 0%Z) -> zat sigs n <> 0%Z -> zat sigs n = 1%Z) /\
   (forall m n, m < n -> n < length xs -> zat sigs m <> 0%Z -> zat sigs n <> 0%Z -> (forall k, m < k < n -> zat sigs k = 0%Z) ->
      zat sigs n = (- zat sigs m)%Z)).
Proof.
  intros Hp ZZ NE OK. pose proof (risk_book xs Hp NE OK) as RB. cbv zeta in RB.
  set (ev_ := evaluation (num stop) (num limit) p duration) in *.
  set (wins := map (fun h => b_wins (ev_ h)) (hists [] xs)) in *.
  set (bets := map (fun h => b_bets (ev_ h)) (hists [] xs)) in *.
  set (sigs := map (fun h => b_signal (ev_ h)) (hists [] xs)) in *.
  set (vols := map (fun h => msd p (map k_close h)) (hists [] xs)) in *.
  exists wins, bets, vols, sigs. split; [exact RB|].
  set (B := fun n => ev_ (upto n xs)). set (vol := fun n => nth n vols f0). set (t := fun n => nth n xs no_tick).
  assert (step : forall n, n < length xs -> B n = next_book (num stop) (num limit) duration (vol n) (t n) (if n =? 0 then empty_book else B (n - 1))).
  { intros n Hn. unfold B, vol, vols. rewrite nth_map_hists by exact Hn. destruct n as [|n].
    - rewrite (upto_0 xs no_tick) by lia. reflexivity.
    - rewrite (upto_S n xs no_tick) by lia. cbn [Nat.eqb]. replace (S n - 1) with n by lia. reflexivity. }
  assert (AW : forall n, n < length xs -> zat wins n = b_wins (B n)) by (intros n Hn; unfold zat, wins; now rewrite nth_map_hists).
  assert (AB : forall n, n < length xs -> zat bets n = b_bets (B n)) by (intros n Hn; unfold zat, bets; now rewrite nth_map_hists).
  assert (AS : forall n, n < length xs -> zat sigs n = b_signal (B n)) by (intros n Hn; unfold zat, sigs; now rewrite nth_map_hists).
  assert (PW : forall n, n < length xs -> zbefore wins n = b_wins (if n =? 0 then empty_book else B (n - 1))).
  { intros n Hn. unfold zbefore. destruct (Nat.eqb_spec n 0); [reflexivity|]. apply (AW (n - 1)). lia. }
  assert (PB : forall n, n < length xs -> zbefore bets n = b_bets (if n =? 0 then empty_book else B (n - 1))).
  { intros n Hn. unfold zbefore. destruct (Nat.eqb_spec n 0); [reflexivity|]. apply (AB (n - 1)). lia. }
  assert (BO : forall i n, n < length xs -> bought sigs i n -> i < n /\ b_signal (B i) = 1%Z /\ forall k, i < k < n -> b_signal (B k) = 0%Z).
  { intros i n Hn (H1 & H2 & H3). rewrite AS in H2 by lia. split; [exact H1|]. split; [exact H2|]. intros k Hk. rewrite <- AS by lia. now apply H3. }
  split; [|split; [|split; [|split]]].
  - intros n Hn. rewrite PW, PB, AW, AB, AS by exact Hn.
    pose proof (step_signal _ _ _ _ _ _ _ step n Hn) as S1. pose proof (step_counts _ _ _ _ _ _ _ step n Hn) as [S2 S3].
    destruct (evaluation_bounds (num stop) (num limit) p duration (upto n xs)) as (_ & S4 & _).
    split; [exact S1|]. split; [exact S4|]. split; [exact S2|exact S3].
  - intros n Hn Id. rewrite PW, PB, AW, AB, AS by exact Hn.
    apply (when_free _ _ _ _ _ _ _ step n Hn). apply (free _ _ _ _ _ _ _ ZZ step n ltac:(lia)).
    destruct Id as [Q|(i & Hi & Si & Q)].
    + left. intros k Hk. rewrite <- AS by lia. now apply Q.
    + right. exists i. rewrite <- AS by lia. split; [exact Hi|]. split; [exact Si|]. intros k Hk. rewrite <- AS by lia. now apply Q.
  - intros i n Hn Bo NZ. destruct (BO i n Hn Bo) as (B1 & B2 & B3). rewrite PW, AW, AS by exact Hn.
    exact (when_held _ _ _ _ _ _ _ step i n B1 Hn B2 B3 NZ).
  - intros i n Hn Bo Z0. destruct (BO i n Hn Bo) as (B1 & B2 & B3). rewrite PW, PB, AW, AB, AS by exact Hn.
    apply (when_free _ _ _ _ _ _ _ step n Hn). destruct (held _ _ _ _ _ _ _ step i n B1 ltac:(lia) B2 B3) as (-> & _). exact Z0.
  - intros NZ. destruct (alternate _ _ _ _ _ _ _ ZZ step) as [A1 A2].
    { intros i Hi Si. apply NZ; [exact Hi|]. now rewrite AS by exact Hi. }
    split.
    + intros n Hn Q. rewrite AS by exact Hn. apply A1; [exact Hn|]. intros k Hk. rewrite <- AS by lia. now apply Q.
    + intros m n Hm Hn. rewrite !AS by lia. intros Sm Sn Q. apply A2; [exact Hm|exact Hn|exact Sm|exact Sn|]. intros k Hk. rewrite <- AS by lia. now apply Q.
Qed.
Lemma risk_succeeds xs : p >= 1 -> feq f0 f0 = true -> xs <> [] -> below31 (rev xs) -> exists wins bets vols sigs, risk_run xs wins bets vols sigs.
Proof. intros Hp _ NE OK. pose proof (risk_book xs Hp NE OK) as RB. cbv zeta in RB. eexists _, _, _, _. exact RB. Qed.
Section Facts.
Variables (xs : list tick) (wins bets : list Z) (vols : list F) (sigs : list Z).
Hypothesis (Hp : p >= 1) (ZZ : feq f0 f0 = true) (NE : xs <> []) (OK : below31 (rev xs)) (R : risk_run xs wins bets vols sigs).
Ltac from := destruct (risk_facts xs Hp ZZ NE OK) as (w & b & v & s & R' & H1 & H2 & H3 & H4 & H5);
  destruct (risk_unique _ _ _ _ _ _ _ _ _ R' R) as (-> & -> & -> & ->); assumption.
Lemma risk_accounting n : n < length xs ->
     (zat sigs n = 1 \/ zat sigs n = 0 \/ zat sigs n = -1)%Z /\
     (0 <= zat wins n <= zat bets n)%Z /\
     zat bets n = (zbefore bets n + (if Z.eqb (zat sigs n) (-1) then 1 else 0))%Z /\
     (zbefore wins n <= zat wins n <= zbefore wins n + (if Z.eqb (zat sigs n) (-1) then 1 else 0))%Z.
Proof. revert n. from. Qed.
Lemma risk_buying n : n < length xs -> idle sigs n ->
     zat sigs n = (if Z.eqb (k_signal (nth n xs no_tick)) 1 then 1%Z else 0%Z) /\ zat wins n = zbefore wins n /\ zat bets n = zbefore bets n.
Proof. revert n. from. Qed.
Lemma risk_selling i n : n < length xs -> bought sigs i n -> feq (stop_of xs vols i) f0 = false ->
     (zat sigs n, zat wins n) =
       if fle (k_low (nth n xs no_tick)) (stop_of xs vols i) then ((-1)%Z, zbefore wins n)
       else if fle (limit_of xs vols i) (k_high (nth n xs no_tick)) then ((-1)%Z, (zbefore wins n + 1)%Z)
       else if match duration with None => false | Some m => Z.eqb (Z.of_nat (n - i)) m end
            then ((-1)%Z, if flt (k_close (nth i xs no_tick)) (k_close (nth n xs no_tick)) then (zbefore wins n + 1)%Z else zbefore wins n)
       else (0%Z, zbefore wins n).
Proof. revert i n. from. Qed.
Lemma risk_forgotten i n : n < length xs -> bought sigs i n -> feq (stop_of xs vols i) f0 = true ->
     zat sigs n = (if Z.eqb (k_signal (nth n xs no_tick)) 1 then 1%Z else 0%Z) /\ zat wins n = zbefore wins n /\ zat bets n = zbefore bets n.
Proof. revert i n. from. Qed.
Lemma risk_alternate : (forall i, i < length xs -> zat sigs i = 1%Z -> feq (stop_of xs vols i) f0 = false) ->
   (forall n, n < length xs -> (forall k, k < n -> zat sigs k = 0%Z) -> zat sigs n <> 0%Z -> zat sigs n = 1%Z) /\
   (forall m n, m < n -> n < length xs -> zat sigs m <> 0%Z -> zat sigs n <> 0%Z -> (forall k, m < k < n -> zat sigs k = 0%Z) ->
      zat sigs n = (- zat sigs m)%Z).
Proof. from. Qed.
End Facts.
End Risk.
