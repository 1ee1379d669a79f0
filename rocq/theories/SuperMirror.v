(** * SuperMirror: Supertrend on negated prices (C63), in exact arithmetic. *)
From Coq Require Import Reals Lra Lia List ZArith Bool.
From Verif Require Import Num Py Tensor Streamable Common Finance Series Formulas Positions
  ImplBasic ImplScalar ImplMarket ER RealFacts RealMarket MarketReal MarketFacts Linear RealScale RealLinear Mirror RealMirror Super SuperNum SuperFacts AccuracyMarket UnitsFacts RealScale2.
Import ListNotations.
Local Open Scope R_scope.

Definition reflected (s s' : @trend ER) : Prop :=
  exists d u t l, s = Trend (Fin d) (Fin u) t (Fin l) /\ s' = Trend (Fin (- u)) (Fin (- d)) (- t)%Z (Fin (- l)) /\
    ((t = 0%Z /\ d = 0 /\ u = 0) \/ t = 1%Z \/ t = (-1)%Z).
Lemma Rltb_opp x y : Rltb (- x) (- y) = Rltb y x.
Proof. unfold Rltb. destruct (Rlt_dec (- x) (- y)), (Rlt_dec y x); auto; exfalso; lra. Qed.
Lemma Rmax_opp x y : Rmax (- x) (- y) = - Rmin x y.
Proof. unfold Rmax, Rmin. destruct (Rle_dec (- x) (- y)), (Rle_dec x y); lra. Qed.
Lemma Rmin_opp x y : Rmin (- x) (- y) = - Rmax x y.
Proof. unfold Rmax, Rmin. destruct (Rle_dec (- x) (- y)), (Rle_dec x y); lra. Qed.
Lemma none_reflected : reflected no_trend no_trend.
Proof. exists 0, 0, 0%Z, 0. split; [reflexivity|]. split; [unfold no_trend; rewrite Ropp_0; reflexivity|]. left. auto. Qed.
Lemma next_reflected k v c prev s s' : r_close c <> 0 -> reflected s s' -> (flt (t_down s) (Fin (r_close c)) && flt (Fin (r_close c)) (t_up s) = false)%bool ->
  reflected (@next_trend ER (Fin k) (Fin v) (cfin c) (Fin prev) s) (@next_trend ER (Fin k) (Fin v) (cfin (mirror_candle c)) (Fin (- prev)) s').
Proof.
  intros Hc (d & u & t & l & -> & -> & T) NC. unfold next_trend. cbn [t_up t_down t_dir cfin mirror_candle c_high c_low c_close r_high r_low r_close] in *.
  assert (M1 : @fdiv ER (@fadd ER (Fin (r_high c)) (Fin (r_low c))) (@f_of_Z ER 2) = Fin ((r_high c + r_low c) / 2)) by (pose proof (middle_fin c) as M; exact M).
  assert (M2 : @fdiv ER (@fadd ER (Fin (- r_low c)) (Fin (- r_high c))) (@f_of_Z ER 2) = Fin (- ((r_high c + r_low c) / 2))).
  { pose proof (middle_fin (mirror_candle c)) as M. unfold middle in M. cbn [cfin mirror_candle c_high c_low r_high r_low] in M. rewrite M. f_equal. lra. }
  rewrite M1, M2. set (m := (r_high c + r_low c) / 2).
  change (@fmul ER (Fin k) (Fin v)) with (Fin (k * v)). change (@fsub ER (Fin m) (Fin (k * v))) with (Fin (m - k * v)). change (@fadd ER (Fin m) (Fin (k * v))) with (Fin (m + k * v)).
  change (@fsub ER (Fin (- m)) (Fin (k * v))) with (Fin (- m - k * v)). change (@fadd ER (Fin (- m)) (Fin (k * v))) with (Fin (- m + k * v)).
  replace (- m - k * v) with (- (m + k * v)) by ring. replace (- m + k * v) with (- (m - k * v)) by ring.
  rewrite !fmax_fin, !fmin_fin, !flt_fin in *. rewrite !Rltb_opp, Rmax_opp, Rmin_opp.
  set (up := if Rltb u prev then Rmax (m - k * v) u else m - k * v). set (down := if Rltb prev d then Rmin (m + k * v) d else m + k * v).
  assert (U1 : (if Rltb u prev then Fin (Rmax (m - k * v) u) else Fin (m - k * v)) = Fin up) by (unfold up; now destruct (Rltb u prev)).
  assert (U2 : (if Rltb u prev then Fin (- Rmax (m - k * v) u) else Fin (- (m - k * v))) = Fin (- up)) by (unfold up; now destruct (Rltb u prev)).
  assert (D1 : (if Rltb prev d then Fin (Rmin (m + k * v) d) else Fin (m + k * v)) = Fin down) by (unfold down; now destruct (Rltb prev d)).
  assert (D2 : (if Rltb prev d then Fin (- Rmin (m + k * v) d) else Fin (- (m + k * v))) = Fin (- down)) by (unfold down; now destruct (Rltb prev d)).
  change (@F ER) with ext. rewrite U1, U2, D1, D2. set (x := r_close c) in *.
  set (dir := if Rltb d x then 1%Z else if Rltb x u then (-1)%Z else if (t =? 0)%Z then 1%Z else t).
  assert (E : (if Rltb x u then 1%Z else if Rltb d x then (-1)%Z else if (- t =? 0)%Z then 1%Z else (- t)%Z) = (- dir)%Z /\ (dir = 1%Z \/ dir = (-1)%Z)).
  { unfold dir. destruct (Rltb d x) eqn:A, (Rltb x u) eqn:B; try discriminate NC; try (split; [reflexivity|auto]). destruct T as [(-> & -> & ->)|[-> | ->]]; [exfalso|split; [reflexivity|auto]..].
    unfold Rltb in A, B. destruct (Rlt_dec 0 x), (Rlt_dec x 0); try discriminate. lra. }
  destruct E as [E V]. rewrite E. exists down, up, dir, (if (dir =? 1)%Z then up else down). split; [|split; [|right; exact V]]; f_equal; destruct V as [-> | ->]; reflexivity.
Qed.
Lemma atr_reflected p h : @atr ER p (map cfin (map mirror_candle h)) = @atr ER p (map cfin h).
Proof. unfold atr. now rewrite !ranges_fin, rranges_mirror. Qed.
Lemma rlast_close_mirror h : rlast_close (map mirror_candle h) = - rlast_close h.
Proof. destruct h; cbn; [ring|reflexivity]. Qed.
Lemma conflict_reflected p k c h : (1 <= p)%nat -> reflected (@supertrend ER p (Fin k) (map cfin h)) (@supertrend ER p (Fin k) (map cfin (map mirror_candle h))) ->
  @conflict ER p (Fin k) (map cfin (map mirror_candle (c :: h))) = @conflict ER p (Fin k) (map cfin (c :: h)).
Proof.
  intros Hp (d & u & t & l & E1 & E2 & _).
  change (map cfin (map mirror_candle (c :: h))) with (cfin (mirror_candle c) :: map cfin (map mirror_candle h)). change (map cfin (c :: h)) with (cfin c :: map cfin h). cbn [conflict].
  change (cfin (mirror_candle c) :: map cfin (map mirror_candle h)) with (map cfin (map mirror_candle (c :: h))). change (cfin c :: map cfin h) with (map cfin (c :: h)).
  rewrite atr_reflected, E1, E2. cbn [t_up t_down cfin mirror_candle c_close r_close]. rewrite !flt_fin, !Rltb_opp.
  destruct (negb (feq (atr p (map cfin (c :: h))) f0)), (Rltb d (r_close c)), (Rltb (r_close c) u); reflexivity.
Qed.
Lemma supertrend_reflected p k h : (1 <= p)%nat -> Forall (fun c => r_close c <> 0) h -> @calm ER p (Fin k) (map cfin h) ->
  reflected (@supertrend ER p (Fin k) (map cfin h)) (@supertrend ER p (Fin k) (map cfin (map mirror_candle h))).
Proof.
  intros Hp. induction h as [|c h IH]; intros Z C; [apply none_reflected|]. inversion Z as [|? ? Zc Zh]; subst. destruct C as [C1 C2]. specialize (IH Zh C2).
  change (map cfin (map mirror_candle (c :: h))) with (cfin (mirror_candle c) :: map cfin (map mirror_candle h)). change (map cfin (c :: h)) with (cfin c :: map cfin h). cbn [supertrend].
  change (cfin (mirror_candle c) :: map cfin (map mirror_candle h)) with (map cfin (map mirror_candle (c :: h))). change (cfin c :: map cfin h) with (map cfin (c :: h)).
  rewrite atr_reflected, atr_fin by exact Hp. destruct (feq _ f0) eqn:Q; [apply none_reflected|]. rewrite !last_close_fin, rlast_close_mirror. apply next_reflected; [exact Zc|exact IH|].
  change (map cfin (c :: h)) with (cfin c :: map cfin h) in C1. cbn [conflict] in C1. change (cfin c :: map cfin h) with (map cfin (c :: h)) in C1. rewrite atr_fin, Q in C1 by exact Hp. exact C1.
Qed.
Lemma calm_reflected p k h : (1 <= p)%nat -> Forall (fun c => r_close c <> 0) h -> @calm ER p (Fin k) (map cfin h) <-> @calm ER p (Fin k) (map cfin (map mirror_candle h)).
Proof.
  intros Hp. induction h as [|c h IH]; intros Z; [easy|]. inversion Z as [|? ? Zc Zh]; subst. specialize (IH Zh).
  assert (K : @calm ER p (Fin k) (map cfin h) -> @conflict ER p (Fin k) (map cfin (map mirror_candle (c :: h))) = @conflict ER p (Fin k) (map cfin (c :: h))).
  { intros C. apply conflict_reflected; [exact Hp|]. now apply supertrend_reflected. }
  change (@conflict ER p (Fin k) (map cfin (c :: h)) = false /\ @calm ER p (Fin k) (map cfin h) <-> @conflict ER p (Fin k) (map cfin (map mirror_candle (c :: h))) = false /\ @calm ER p (Fin k) (map cfin (map mirror_candle h))).
  split; intros [A B].
  - split; [rewrite K; assumption|tauto].
  - assert (B' : @calm ER p (Fin k) (map cfin h)) by tauto. split; [rewrite <- K; assumption|exact B'].
Qed.
Theorem super_mirror p factor xs : (1 <= p)%nat -> xs <> [] -> short xs -> Forall (fun c => r_close c <> 0) xs ->
  ((exists r, call (@Supertrend ER (Z.of_nat p) factor) (bars (map cfin xs)) None true = Ok r) <->
   (exists r, call (@Supertrend ER (Z.of_nat p) factor) (bars (map cfin (map mirror_candle xs))) None true = Ok r)) /\
  forall r, call (@Supertrend ER (Z.of_nat p) factor) (bars (map cfin xs)) None true = Ok r ->
  exists o sx ix sy iy, r = (reals o, sx, ix) /\ length o = length xs /\
    call (@Supertrend ER (Z.of_nat p) factor) (bars (map cfin (map mirror_candle xs))) None true = Ok (reals (map Ropp o), sy, iy).
Proof.
  intros Hp NE Sh Zc. destruct (num_fin factor) as (k & Hk).
  assert (N1 : map cfin xs <> []) by (now destruct xs). assert (N2 : map cfin (map mirror_candle xs) <> []) by (now destruct xs).
  assert (S1 : short (rev (map cfin xs))) by (unfold short in *; now rewrite rev_length, map_length).
  assert (S2 : short (rev (map cfin (map mirror_candle xs)))) by (unfold short in *; now rewrite rev_length, !map_length).
  assert (ZR : Forall (fun c => r_close c <> 0) (rev xs)) by now apply Forall_rev.
  assert (CS : @calm ER p (num factor) (rev (map cfin xs)) <-> @calm ER p (num factor) (rev (map cfin (map mirror_candle xs)))).
  { rewrite Hk, <- !map_rev. now apply calm_reflected. }
  pose proof (super_total (N := ER) p factor _ Hp N1 S1) as T1. pose proof (super_total (N := ER) p factor _ Hp N2 S2) as T2.
  split; [rewrite T1, T2; exact CS|]. intros r E. assert (C1 := proj1 T1 (ex_intro _ r E)). assert (C2 := proj1 CS C1).
  destruct (super_streams (N := ER) p factor Hp) as (st & H & _). rewrite (H _ N1 (conj S1 C1)) in E. injection E as <-.
  set (g := fun h => match t_line (@supertrend ER p (Fin k) (map cfin h)) with Fin l => l | _ => 0 end).
  assert (G : forall h, In h (hists [] xs) -> t_line (@supertrend ER p (Fin k) (map cfin h)) = Fin (g h) /\ t_line (@supertrend ER p (Fin k) (map cfin (map mirror_candle h))) = Fin (- g h)).
  { intros h Ih. assert (Q : exists m, rev xs = m ++ h).
    { clear -Ih. assert (K : forall ys g, In h (hists g ys) -> exists m, rev ys ++ g = m ++ h).
      { induction ys as [|y ys IH]; intros g [].
        - exists (rev ys). cbn [rev]. now rewrite <- app_assoc, <- H.
        - destruct (IH _ H) as [m Hm]. exists m. cbn [rev]. rewrite <- app_assoc. exact Hm. }
      destruct (K xs [] Ih) as [m Hm]. exists m. now rewrite app_nil_r in Hm. }
    destruct Q as [m Q]. assert (Zh : Forall (fun c => r_close c <> 0) h) by (rewrite Q in ZR; now apply Forall_app in ZR).
    assert (Ch : @calm ER p (Fin k) (map cfin h)).
    { rewrite Hk, <- map_rev, Q, map_app in C1. clear -C1. induction m as [|x m IH]; [exact C1|]. apply IH. exact (proj2 C1). }
    destruct (supertrend_reflected p k h Hp Zh Ch) as (d & u & t & l & E1 & E2 & _). unfold g. rewrite E1, E2. split; reflexivity. }
  exists (map g (hists [] xs)), (st (rev (map cfin xs))), (st []), (st (rev (map cfin (map mirror_candle xs)))), (st []).
  split; [|split; [now rewrite map_length, hists_length|]].
  - rewrite Hk. unfold reals. do 3 f_equal. change (@nil (@candle ER)) with (map cfin []). rewrite hists_map, !map_map. apply map_ext_in. intros h Ih. now apply G.
  - rewrite (H _ N2 (conj S2 C2)), Hk. unfold reals. do 4 f_equal. change (@nil (@candle ER)) with (map cfin (map mirror_candle [])).
    rewrite (hists_map cfin), (hists_map mirror_candle), !map_map. apply map_ext_in. intros h Ih. now apply G.
Qed.
(** A candle that is its own mirror image and closes at 0: the line would have to be its own opposite, yet it is -6. *)
Lemma super_zero_close : let xs := [RC 0 1 (-1) 0] in map mirror_candle xs = xs /\
  exists sf s0, call (@Supertrend ER 1 (PyInt 3)) (bars (map cfin xs)) None true = Ok (reals [-6], sf, s0).
Proof.
  intros xs. split; [unfold xs, mirror_candle; cbn [map r_open r_high r_low r_close]; repeat f_equal; ring|].
  assert (A : @atr ER 1 (map cfin xs) = Fin 2).
  { rewrite atr_fin by lia. f_equal. unfold xs. cbn [rranges rlast_close rrange r_high r_low r_close]. unfold rrange. cbn [r_high r_low rlast_close]. destruct (Req_EM_T 0 0); [|lra].
    unfold rrma, rsma. cbn. replace (1 - -1) with 2 by ring. rewrite !(Rmax_left 2 0) by lra. unfold rmean. cbn. lra. }
  assert (C : @calm ER 1 (@num ER (PyInt 3)) (rev (map cfin xs))).
  { unfold xs. cbn [map rev app calm]. split; [|exact I]. cbn [conflict supertrend]. unfold no_trend. cbn [t_down t_up cfin c_close r_close]. change (@f0 ER) with (Fin 0). rewrite !flt_fin. rewrite (proj2 (Rltb_false 0 0)) by lra. now rewrite andb_false_r. }
  assert (S1 : short (rev (map cfin xs))) by (unfold short, xs; cbn; lia).
  destruct (super_streams (N := ER) 1 (PyInt 3) (le_n 1)) as (st & H & _).
  assert (NE : map cfin xs <> []) by discriminate. exists (st (rev (map cfin xs))), (st []). change 1%Z with (Z.of_nat 1) at 1. rewrite (H _ NE (conj S1 C)). do 3 f_equal.
  change (hists [] (map cfin xs)) with [map cfin xs]. unfold reals. do 2 f_equal. cbn [map]. f_equal.
  change (map cfin xs) with (cfin (RC 0 1 (-1) 0) :: map cfin []) at 1. cbn [supertrend]. change (cfin (RC 0 1 (-1) 0) :: map cfin []) with (map cfin xs). rewrite A.
  change (@f0 ER) with (Fin 0). change (@feq ER (Fin 2) (Fin 0)) with (Reqb 2 0). unfold Reqb. destruct (Req_EM_T 2 0); [lra|].
  unfold next_trend, no_trend. cbn [t_down t_up t_dir t_line map]. pose proof (middle_fin (RC 0 1 (-1) 0)) as M. unfold middle in M. rewrite M. clear M.
  cbn [cfin c_close r_close r_high r_low]. change (@f0 ER) with (Fin 0). change (last_close []) with (Fin 0). 
  change (supertrend 1 (@num ER (PyInt 3)) []) with (@Trend ER (Fin 0) (Fin 0) 0 (Fin 0)). cbn [t_down t_up t_dir]. rewrite !flt_fin, !(proj2 (Rltb_false 0 0)) by lra. cbn [Z.eqb Pos.eqb].
  change (@num ER (PyInt 3)) with (Fin (IZR 3)). change (Fin (IZR 3)) with (Fin 3). cbn [fsub fmul ER e_sub e_mul e_add e_neg]. cbn. f_equal. lra.
Qed.
