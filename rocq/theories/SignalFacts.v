(** * SignalFacts: crossing signals, extrema, position by position. *)
From Coq Require Import Lia List ZArith Bool.
From Verif Require Import Num Py Tensor Streamable Common Finance Series Formulas Positions EvalFacts
  ImplBasic ImplComp ImplSignal ImplWindow Order OrderFacts MovingFacts ReturnFacts.
Import ListNotations.

(** Position [n] of number [j] of a series of integer tensors. *)
Definition inumber (xs : list (list Z)) (j n : nat) : Z := nth j (nth n xs []) 0%Z.

Section Signals.
Context {N : FOps}.
(** The last value different from 0 before position [n] is negative; is positive (nothing counts as positive). *)
Definition was_negative (x : nat -> F) (n : nat) : Prop :=
  exists i, i < n /\ flt (x i) f0 = true /\ forall k, i < k < n -> feq (x k) f0 = true.
Definition was_positive (x : nat -> F) (n : nat) : Prop :=
  (exists i, i < n /\ flt f0 (x i) = true /\ forall k, i < k < n -> feq (x k) f0 = true) \/
  (forall k, k < n -> feq (x k) f0 = true).

Lemma int_positions op ok s (f : list F -> Z) :
  streams op ok (tensors s) (fun hs => int_tensors s (map (each s f) hs)) ->
  forall xs, xs <> [] -> ok (rev xs) ->
  exists out sf s0, call op (tensors s xs) None true = Ok (int_tensors s out, sf, s0) /\ length out = length xs /\
    forall n j, n < length xs -> j < prod s -> inumber out j n = f (upto n (numbers xs j)).
Proof.
  intros (st & H & _) xs NE OK. exists (map (each s f) (hists [] xs)), (st (rev xs)), (st []).
  split; [now apply H|]. split; [now rewrite map_length, hists_length|]. intros n j Hn Hj.
  unfold inumber. rewrite nth_map_hists by exact Hn. rewrite each_nth by exact Hj. now rewrite column_upto.
Qed.
Context {usable : F -> Prop} (O : orderly N usable).
Lemma side_spec h : Forall usable h ->
  (side h = false -> exists i, i < length h /\ flt (nth i h f0) f0 = true /\ forall k, k < i -> feq (nth k h f0) f0 = true) /\
  (side h = true -> (exists i, i < length h /\ flt f0 (nth i h f0) = true /\ forall k, k < i -> feq (nth k h f0) f0 = true) \/
                    forall k, k < length h -> feq (nth k h f0) f0 = true).
Proof.
  induction h as [|x h IH]; intros H; [split; [discriminate|]; intros _; right; cbn; lia|].
  inversion H as [|? ? Hx Hh]; subst. destruct (IH Hh) as [I1 I2]. cbn [side length].
  destruct (flt x f0) eqn:E; [split; [|discriminate]; intros _; exists 0; repeat split; [lia|exact E|lia]|].
  destruct (flt f0 x) eqn:E'; [split; [discriminate|]; intros _; left; exists 0; repeat split; [lia|exact E'|lia]|].
  assert (Z : feq x f0 = true) by (rewrite (o_nonzero _ _ O) by exact Hx; now rewrite E, E'). split.
  - intros Sd. destruct (I1 Sd) as (i & Hi & Hn & K). exists (S i). split; [lia|]. split; [exact Hn|]. intros [|k] Hk; [exact Z|apply K; lia].
  - intros Sd. destruct (I2 Sd) as [(i & Hi & Hn & K)|K].
    + left. exists (S i). split; [lia|]. split; [exact Hn|]. intros [|k] Hk; [exact Z|apply K; lia].
    + right. intros [|k] Hk; [exact Z|apply K; lia].
Qed.
Lemma was_exclusive x n : (forall i, i < n -> usable (x i)) -> was_negative x n -> was_positive x n -> False.
Proof.
  intros U (i & Hi & Ni & Ki) [(i' & Hi' & Pi & Ki')|K].
  - destruct (Nat.lt_trichotomy i i') as [L|[->|L]].
    + specialize (Ki i' ltac:(lia)). rewrite (o_nonzero _ _ O) in Ki by (apply U; lia). rewrite Pi, andb_false_r in Ki. discriminate.
    + rewrite (lt_asym O _ _ Ni) in Pi. discriminate.
    + specialize (Ki' i ltac:(lia)). rewrite (o_nonzero _ _ O) in Ki' by (apply U; lia). rewrite Ni in Ki'. discriminate.
  - specialize (K i Hi). rewrite (o_nonzero _ _ O) in K by (apply U; lia). rewrite Ni in K. discriminate.
Qed.
Lemma side_upto n l : n < length l -> (forall i, i <= n -> usable (nth i l f0)) ->
  (side (upto n l) = false <-> was_negative (fun i => nth i l f0) (S n)) /\
  (side (upto n l) = true <-> was_positive (fun i => nth i l f0) (S n)).
Proof.
  intros Hn U. assert (FU : Forall usable (upto n l)).
  { apply Forall_forall. intros x Hx. apply (upto_in n l f0) in Hx as (i & Hi & <-); [|exact Hn]. now apply U. }
  destruct (side_spec _ FU) as [S1 S2]. rewrite upto_length in * by exact Hn.
  assert (A1 : side (upto n l) = false -> was_negative (fun i => nth i l f0) (S n)).
  { intros Sd. destruct (S1 Sd) as (i & Hi & Ni & K). exists (n - i). split; [lia|]. rewrite nth_upto in Ni by lia. split; [exact Ni|].
    intros k Hk. replace k with (n - (n - k)) by lia. rewrite <- (nth_upto n (n - k)) by lia. apply K. lia. }
  assert (A2 : side (upto n l) = true -> was_positive (fun i => nth i l f0) (S n)).
  { intros Sd. destruct (S2 Sd) as [(i & Hi & Ni & K)|K].
    - left. exists (n - i). split; [lia|]. rewrite nth_upto in Ni by lia. split; [exact Ni|].
      intros k Hk. replace k with (n - (n - k)) by lia. rewrite <- (nth_upto n (n - k)) by lia. apply K. lia.
    - right. intros k Hk. replace k with (n - (n - k)) by lia. rewrite <- (nth_upto n (n - k)) by lia. apply K. lia. }
  assert (U' : forall i, i < S n -> usable (nth i l f0)) by (intros; apply U; lia).
  split; (split; [assumption|]); intros W; destruct (side (upto n l)) eqn:Sd; try reflexivity; exfalso.
  - exact (was_exclusive _ _ U' W (A2 eq_refl)).
  - exact (was_exclusive _ _ U' (A1 eq_refl) W).
Qed.
Lemma upto_S {X} n (l : list X) d : S n < length l -> upto (S n) l = nth (S n) l d :: upto n l.
Proof.
  intros H. apply (nth_ext _ _ d d).
  - cbn [length]. rewrite !upto_length by lia. reflexivity.
  - intros i Hi. rewrite upto_length in Hi by lia. rewrite nth_upto by lia. destruct i as [|i]; [now rewrite Nat.sub_0_r|].
    cbn [nth]. rewrite nth_upto by lia. f_equal.
Qed.
Lemma upto_0 {X} (l : list X) d : 0 < length l -> upto 0 l = [nth 0 l d].
Proof. intros H. destruct l; [cbn in H; lia|]. reflexivity. Qed.
Lemma upto_split {X} m n (l : list X) : m <= n -> n < length l -> exists g, length g = n - m /\ upto n l = g ++ upto m l /\
  forall u v, g = u ++ v -> v ++ upto m l = upto (m + length v) l.
Proof.
  intros H1 H2. exists (firstn (n - m) (upto n l)).
  assert (L : length (firstn (n - m) (upto n l)) = n - m) by (rewrite firstn_length, upto_length by exact H2; lia).
  assert (E : upto m l = skipn (n - m) (upto n l)) by (rewrite skipn_upto by lia; f_equal; lia).
  split; [exact L|]. split.
  - rewrite E. now rewrite firstn_skipn.
  - intros u v Q. assert (Lu : length u + length v = n - m) by (rewrite <- L, Q, app_length; reflexivity).
    assert (X1 : upto n l = u ++ v ++ upto m l) by (rewrite app_assoc, <- Q, E; now rewrite firstn_skipn).
    replace (m + length v) with (n - length u) by lia. rewrite <- skipn_upto by lia. rewrite X1.
    rewrite skipn_app, skipn_all, Nat.sub_diag. reflexivity.
Qed.
Lemma crossing_positions l o : (forall n, n < length l -> usable (nth n l f0)) ->
  (forall n, n < length l -> o n = crossing (upto n l)) ->
  forall n, n < length l ->
    let x := fun i => nth i l f0 in
    (o n = 1 \/ o n = 0 \/ o n = -1)%Z /\
    o 0 = 0%Z /\
    (o n = 1%Z <-> n > 0 /\ flt f0 (x n) = true /\ was_negative x n) /\
    (o n = (-1)%Z <-> n > 0 /\ flt (x n) f0 = true /\ was_positive x n) /\
    (forall m, m < n -> o m <> 0%Z -> o n <> 0%Z -> (forall k, m < k < n -> o k = 0%Z) -> o n = (- o m)%Z).
Proof.
  intros U H n Hn x. split; [rewrite H by exact Hn; apply crossing_values|].
  assert (O0 : o 0 = 0%Z) by (rewrite H by lia; rewrite (upto_0 l f0) by lia; reflexivity).
  split; [exact O0|].
  assert (main : n > 0 -> exists h, h <> [] /\ upto n l = x n :: h /\ (side h = false <-> was_negative x n) /\ (side h = true <-> was_positive x n)).
  { intros Hp. destruct n as [|n]; [lia|]. exists (upto n l). split.
    - intros E. apply (f_equal (@length _)) in E. rewrite upto_length in E by lia. discriminate.
    - split; [now apply upto_S|]. apply side_upto; [lia|]. intros; apply U; lia. }
  split; [|split].
  - split.
    + intros E. destruct n as [|n']; [rewrite O0 in E; discriminate|]. set (n := S n') in *. destruct (main ltac:(lia)) as (h & NE & Eh & S1 & S2).
      split; [lia|]. rewrite H, Eh in E by exact Hn. assert (K : crossing (x n :: h) <> 0%Z) by (rewrite E; discriminate).
      destruct (crossing_sign _ _ K) as [[_ P]|[Q _]]; [|rewrite Q in E; discriminate]. split; [exact P|].
      apply S1. rewrite (crossing_nonzero _ _ NE K). rewrite (crossing_side _ K) in E. destruct (side (x n :: h)); [reflexivity|discriminate].
    + intros (Hp & P & W). destruct (main Hp) as (h & NE & Eh & S1 & S2). apply S1 in W. rewrite H, Eh by exact Hn.
      destruct h as [|y h]; [easy|]. cbn [crossing].
      change (side (x n :: y :: h)) with (if flt (x n) f0 then false else if flt f0 (x n) then true else side (y :: h)).
      rewrite W, P, (lt_asym O _ _ P). reflexivity.
  - split.
    + intros E. destruct n as [|n']; [rewrite O0 in E; discriminate|]. set (n := S n') in *. destruct (main ltac:(lia)) as (h & NE & Eh & S1 & S2).
      split; [lia|]. rewrite H, Eh in E by exact Hn. assert (K : crossing (x n :: h) <> 0%Z) by (rewrite E; discriminate).
      destruct (crossing_sign _ _ K) as [[Q _]|[_ P]]; [rewrite Q in E; discriminate|]. split; [exact P|].
      apply S2. rewrite (crossing_nonzero _ _ NE K). rewrite (crossing_side _ K) in E. destruct (side (x n :: h)); [discriminate|reflexivity].
    + intros (Hp & P & W). destruct (main Hp) as (h & NE & Eh & S1 & S2). apply S2 in W. rewrite H, Eh by exact Hn.
      destruct h as [|y h]; [easy|]. cbn [crossing].
      change (side (x n :: y :: h)) with (if flt (x n) f0 then false else if flt f0 (x n) then true else side (y :: h)).
      rewrite W, P. reflexivity.
  - intros m Hm Nm Nn Q. rewrite (H n Hn) in *. rewrite (H m) in * by lia.
    destruct (upto_split m (n - 1) l ltac:(lia) ltac:(lia)) as (g & Lg & Eg & Kg).
    assert (E : upto n l = x n :: g ++ upto m l).
    { destruct n as [|n']; [lia|]. rewrite (upto_S n' l f0) by lia. f_equal. replace n' with (S n' - 1) by lia. exact Eg. }
    rewrite E in *. apply crossing_alternates; [exact Nm|exact Nn|].
    intros u v Eu Hv. rewrite (Kg u v Eu). assert (length v > 0) by (destruct v; [easy|cbn; lia]).
    assert (length u + length v = n - 1 - m) by (rewrite <- Lg, Eu, app_length; lia).
    rewrite <- H by lia. apply Q. lia.
Qed.
Definition usable_rows (xs : list (list F)) : Prop := Forall (Forall usable) xs.
Lemma usable_number s xs j n : shaped s (rev xs) -> usable_rows xs -> n < length xs -> j < prod s -> usable (number xs j n).
Proof.
  intros Sh U Hn Hj. unfold number. assert (I : In (nth n xs []) xs) by (now apply nth_In).
  unfold usable_rows in U. rewrite Forall_forall in U. specialize (U _ I). rewrite Forall_forall in U. apply U. apply nth_In.
  unfold shaped in Sh. rewrite Forall_forall in Sh. rewrite (Sh (nth n xs [])); [exact Hj|]. now rewrite <- in_rev.
Qed.
Lemma numbers_usable s xs j n : shaped s (rev xs) -> usable_rows xs -> n < length xs -> j < prod s -> Forall usable (upto n (numbers xs j)).
Proof.
  intros Sh U Hn Hj. apply Forall_forall. intros x Hx.
  apply (upto_in n _ f0) in Hx as (i & Hi & <-); [|now rewrite numbers_length].
  rewrite nth_numbers by lia. apply (usable_number s); try assumption. lia.
Qed.
Lemma was_ext (x y : nat -> F) n : (forall i, i < n -> x i = y i) ->
  (was_negative x n <-> was_negative y n) /\ (was_positive x n <-> was_positive y n).
Proof.
  intros E. unfold was_negative, was_positive. 
  assert (A : forall P : F -> Prop, (exists i, i < n /\ P (x i) /\ forall k, i < k < n -> feq (x k) f0 = true) <->
                                    (exists i, i < n /\ P (y i) /\ forall k, i < k < n -> feq (y k) f0 = true)).
  { intros P. split; intros (i & Hi & Pi & K); exists i; (split; [exact Hi|]).
    - rewrite <- E by exact Hi. split; [exact Pi|]. intros k Hk. rewrite <- E by lia. now apply K.
    - rewrite E by exact Hi. split; [exact Pi|]. intros k Hk. rewrite E by lia. now apply K. }
  split; [apply (A (fun v => flt v f0 = true))|]. rewrite (A (fun v => flt f0 v = true)).
  split; intros [H|H]; try (now left); right; intros k Hk; [rewrite <- E by exact Hk|rewrite E by exact Hk]; auto.
Qed.
Lemma zc_positions s xs : xs <> [] -> ok_rows s (rev xs) -> usable_rows xs ->
  exists out sf s0, call ZeroCrossoverSignal (tensors s xs) None true = Ok (int_tensors s out, sf, s0) /\
    length out = length xs /\
    forall n j, n < length xs -> j < prod s ->
      let x := number xs j in let o := inumber out j in
      (o n = 1 \/ o n = 0 \/ o n = -1)%Z /\
      o 0 = 0%Z /\
      (o n = 1%Z <-> n > 0 /\ flt f0 (x n) = true /\ was_negative x n) /\
      (o n = (-1)%Z <-> n > 0 /\ flt (x n) f0 = true /\ was_positive x n) /\
      (forall m, m < n -> o m <> 0%Z -> o n <> 0%Z -> (forall k, m < k < n -> o k = 0%Z) -> o n = (- o m)%Z).
Proof.
  intros NE OK U. destruct (int_positions _ _ _ _ (zc_streams s) xs NE OK) as (out & sf & s0 & E & L & H).
  exists out, sf, s0. split; [exact E|]. split; [exact L|]. intros n j Hn Hj x o.
  assert (K := crossing_positions (numbers xs j) o). rewrite numbers_length in K.
  assert (EX : forall i, i < length xs -> nth i (numbers xs j) f0 = x i) by (intros; now apply nth_numbers).
  destruct (was_ext (fun i => nth i (numbers xs j) f0) x n) as [W1 W2]; [intros; apply EX; lia|].
  destruct K with (n := n) as (K1 & K2 & K3 & K4 & K5).
  - intros i Hi. rewrite EX by exact Hi. apply (usable_number s); try assumption. apply OK.
  - intros i Hi. unfold o. rewrite H by assumption. apply (zc_sig_crossing O). apply (numbers_usable s); try assumption. apply OK.
  - exact Hn.
  - rewrite EX in K3, K4 by exact Hn. rewrite W1 in K3. rewrite W2 in K4. auto.
Qed.
(** Also when the stream is resumed. *)
Lemma streams_weaken {X} op (ok ok' : list X -> Prop) inp out out' :
  (forall h, ok' h -> ok h) -> (forall x h, ok' (x :: h) -> ok' h) -> (forall hs, Forall ok' hs -> out hs = out' hs) ->
  streams op ok inp out -> streams op ok' inp out'.
Proof.
  intros W C E (st & H1 & H2).
  assert (A : forall xs h, ok' (rev xs ++ h) -> Forall ok' (hists h xs)).
  { induction xs as [|x xs IH]; intros h K; cbn [hists]; [constructor|]. cbn [rev] in K. rewrite <- app_assoc in K. cbn [app] in K.
    constructor; [|now apply IH]. clear -C K. induction (rev xs) as [|y r IH]; [exact K|]. apply IH. exact (C _ _ K). }
  exists st. split.
  - intros xs NE OK. rewrite <- E by (apply A; now rewrite app_nil_r). apply H1; auto.
  - intros h xs NE OK. rewrite <- E by (now apply A). apply H2; auto.
Qed.
Lemma zc_crossing s :
  streams ZeroCrossoverSignal (fun h => ok_rows s h /\ usable_rows h) (tensors s)
    (fun hs => int_tensors s (map (each s crossing) hs)).
Proof.
  eapply streams_weaken; [..|apply zc_streams].
  - now intros h [H _].
  - intros x h [H1 H2]. split; [now apply ok_rows_tl in H1|now inversion H2].
  - intros hs H. cbv beta. f_equal. apply map_ext_in. intros h Hh. rewrite Forall_forall in H. destruct (H h Hh) as [[Sh _] U].
    apply each_ext. intros j Hj. apply (zc_sig_crossing O). unfold column. apply Forall_map, Forall_forall. intros r Hr.
    unfold usable_rows in U. unfold shaped in Sh. rewrite Forall_forall in U, Sh. specialize (U r Hr). rewrite Forall_forall in U. apply U, nth_In.
    now rewrite Sh.
Qed.
(** ** Pipelines *)
Lemma macd_sig_positions s slow fast m xs : slow >= 1 -> fast >= 1 -> m >= 1 -> xs <> [] -> ok_rows s (rev xs) ->
  exists out a b c d hist zc sf s0 sf1 s01 sf2 s02,
    call (MovingAverageConvergenceDivergenceSignal (Z.of_nat slow) (Z.of_nat fast) (Z.of_nat m)) (tensors s xs) None true =
      Ok (int_tensors s out, sf, s0) /\
    call (MovingAverageConvergenceDivergence (Z.of_nat slow) (Z.of_nat fast) (Z.of_nat m)) (tensors s xs) None true =
      Ok (Tup [a; b; c; d; tensors s hist], sf1, s01) /\
    call ZeroCrossoverSignal (tensors s hist) None true = Ok (int_tensors s zc, sf2, s02) /\
    length out = length xs /\ length hist = length xs /\ length zc = length xs /\
    (forall n j, n < length xs -> j < prod s -> inumber out j n = if n + 2 <? slow + m then 0%Z else inumber zc j n) /\
    (usable f0 -> forall j, j < prod s -> slow + m - 2 < length xs -> slow + m > 2 -> usable (number hist j (slow + m - 2)) ->
      flt (number hist j (slow + m - 2)) f0 = true -> inumber out j (slow + m - 2) = (-1)%Z).
Proof.
  intros Hs Hf Hm NE OK.
  destruct (int_positions _ _ _ _ (macd_sig_streams s slow fast m Hs Hf Hm) xs NE OK) as (out & sf & s0 & E & L & H).
  destruct (macd_streams s slow fast m Hs Hf Hm) as (st & H1 & _). specialize (H1 xs NE OK).
  set (hist := map (each s (macd_histogram slow fast m)) (hists [] xs)) in H1.
  assert (Lh : length hist = length xs) by (unfold hist; now rewrite map_length, hists_length).
  assert (NEh : hist <> []) by (intros Q; rewrite Q in Lh; destruct xs; [easy|discriminate]).
  assert (OKh : ok_rows s (rev hist)) by (apply ok_rows_out; apply OK).
  destruct (int_positions _ _ _ _ (zc_streams s) hist NEh OKh) as (zc & sf2 & s02 & E2 & L2 & H2).
  eexists out, _, _, _, _, hist, zc, _, _, _, _, _, _. split; [exact E|]. split; [exact H1|]. split; [exact E2|].
  split; [exact L|]. split; [exact Lh|]. split; [now rewrite L2|].
  assert (NH : forall j, j < prod s -> numbers hist j = map (macd_histogram slow fast m) (hists [] (numbers xs j))) by (intros; now apply numbers_out).
  assert (TR : forall n j, n < length xs -> j < prod s -> upto n (numbers hist j) = trail (macd_histogram slow fast m) (upto n (numbers xs j))).
  { intros n j Hn Hj. rewrite NH by exact Hj. apply upto_map_hists. now rewrite numbers_length. }
  assert (EQ : forall n j, n < length xs -> j < prod s -> inumber out j n = if n + 2 <? slow + m then 0%Z else inumber zc j n).
  { intros n j Hn Hj. rewrite H by assumption. rewrite H2 by (rewrite ?Lh; assumption).
    rewrite upto_length by (now rewrite numbers_length). replace (S n + 1) with (n + 2) by lia.
    destruct (n + 2 <? slow + m); [reflexivity|]. now rewrite TR by assumption. }
  split; [exact EQ|]. intros U0 j Hj Hl G2 Ux Neg.
  rewrite EQ by assumption. destruct (Nat.ltb_spec (slow + m - 2 + 2) (slow + m)); [lia|].
  rewrite H2 by (rewrite ?Lh; assumption).
  set (n := slow + m - 2) in *. destruct n as [|n'] eqn:En; [lia|].
  rewrite (upto_S n' _ f0) by (rewrite numbers_length, Lh; lia). rewrite nth_numbers by lia.
  assert (Z : Forall (fun y => y = f0) (upto n' (numbers hist j))).
  { apply Forall_forall. intros y Hy. apply (upto_in _ _ f0) in Hy as (i & Hi & <-); [|rewrite numbers_length; lia].
    rewrite NH by exact Hj. rewrite nth_map_hists by (rewrite numbers_length; lia). unfold macd_histogram.
    rewrite upto_length by (rewrite numbers_length; lia). destruct (Nat.ltb_spec (S i + 1) (slow + m)); [reflexivity|lia]. }
  assert (Sd : side (upto n' (numbers hist j)) = true).
  { clear -Z O. induction Z as [|y h -> _ IH]; [reflexivity|]. cbn [side]. now rewrite (o_irrefl _ _ O). }
  assert (NEu : upto n' (numbers hist j) <> []).
  { intros Q. apply (f_equal (@length _)) in Q. rewrite upto_length in Q by (rewrite numbers_length; lia). discriminate. }
  rewrite (zc_sig_crossing O).
  - destruct (upto n' (numbers hist j)) as [|y h]; [easy|]. cbn [crossing].
    change (side (number hist j (S n') :: y :: h)) with (if flt (number hist j (S n')) f0 then false else if flt f0 (number hist j (S n')) then true else side (y :: h)).
    now rewrite Neg, Sd.
  - constructor; [exact Ux|]. apply Forall_impl with (2 := Z). now intros ? ->.
Qed.
Lemma crossover_sig_positions s slow fast xs : slow >= 1 -> fast >= 1 -> xs <> [] -> ok_rows s (rev xs) ->
  exists out cross zc sf s0 sf1 s01 sf2 s02,
    call (SimpleMovingAverageCrossoverSignal (Z.of_nat slow) (Z.of_nat fast)) (tensors s xs) None true =
      Ok (int_tensors s out, sf, s0) /\
    call (SimpleMovingAverageCrossover (Z.of_nat slow) (Z.of_nat fast)) (tensors s xs) None true = Ok (tensors s cross, sf1, s01) /\
    call ZeroCrossoverSignal (tensors s cross) None true = Ok (int_tensors s zc, sf2, s02) /\
    length out = length xs /\ length zc = length xs /\
    forall n j, n < length xs -> j < prod s -> inumber out j n = if n <? slow then 0%Z else inumber zc j n.
Proof.
  intros Hs Hf NE OK.
  destruct (int_positions _ _ _ _ (crossover_sig_streams s slow fast Hs Hf) xs NE OK) as (out & sf & s0 & E & L & H).
  destruct (crossover_streams s slow fast Hs Hf) as (st & H1 & _). specialize (H1 xs NE OK).
  set (hist := map (each s (crossover_code slow fast)) (hists [] xs)) in H1.
  assert (Lh : length hist = length xs) by (unfold hist; now rewrite map_length, hists_length).
  assert (NEh : hist <> []) by (intros Q; rewrite Q in Lh; destruct xs; [easy|discriminate]).
  assert (OKh : ok_rows s (rev hist)) by (apply ok_rows_out; apply OK).
  destruct (int_positions _ _ _ _ (zc_streams s) hist NEh OKh) as (zc & sf2 & s02 & E2 & L2 & H2).
  eexists out, hist, zc, _, _, _, _, _, _. split; [exact E|]. split; [exact H1|]. split; [exact E2|].
  split; [exact L|]. split; [now rewrite L2|]. intros n j Hn Hj. rewrite H by assumption. rewrite H2 by (rewrite ?Lh; assumption).
  rewrite upto_length by (now rewrite numbers_length). unfold Nat.ltb.
  destruct (S n <=? slow); [reflexivity|]. unfold hist. rewrite numbers_out by exact Hj.
  now rewrite upto_map_hists by (now rewrite numbers_length).
Qed.
End Signals.
