(** * UnitsFacts: Supertrend, drawdown, crossovers and their signals under a change of units (C53), in exact arithmetic. *)
From Coq Require Import Reals Lra Lia List ZArith Bool.
From Verif Require Import Num Py Tensor Streamable Meta Common Finance Series Formulas Positions
  ImplBasic ImplScalar ImplComp ImplWindow ImplCorr ImplMarket ImplSignal ER RealFacts RealStats RealMarket MovingFacts ReturnFacts StatReal MarketReal
  Linear MemoryFacts RealLinear RealScale RealScale2 MarketFacts Super SuperFacts SuperNum AccuracyMarket Steady.
Import ListNotations.
Local Open Scope R_scope.

(** ** Supertrend *)
Definition proportional (a : R) (s s' : @trend ER) : Prop :=
  exists d u t l, s = Trend (Fin d) (Fin u) t (Fin l) /\ s' = Trend (Fin (a * d)) (Fin (a * u)) t (Fin (a * l)).
Lemma Rltb_scale a x y : 0 < a -> Rltb (a * x) (a * y) = Rltb x y.
Proof. intros A. unfold Rltb. destruct (Rlt_dec (a * x) (a * y)), (Rlt_dec x y); auto; exfalso; nra. Qed.
Lemma RminRmult a x y : 0 <= a -> Rmin (a * x) (a * y) = a * Rmin x y.
Proof. intros A. unfold Rmin. destruct (Rle_dec (a * x) (a * y)), (Rle_dec x y); try reflexivity; nra. Qed.
Lemma none_proportional a : proportional a no_trend no_trend.
Proof. exists 0, 0, 0%Z, 0. split; [reflexivity|]. rewrite Rmult_0_r. reflexivity. Qed.
Lemma next_proportional a k v c prev s s' : 0 < a -> proportional a s s' ->
  proportional a (@next_trend ER (Fin k) (Fin v) (cfin c) (Fin prev) s) (@next_trend ER (Fin k) (Fin (a * v)) (cfin (rscale a c)) (Fin (a * prev)) s').
Proof.
  intros A (d & u & t & l & -> & ->). unfold next_trend. cbn [t_up t_down t_dir cfin rscale c_high c_low c_close r_high r_low r_close].
  assert (M : forall w, @fdiv ER (@fadd ER (Fin (a * r_high c)) (Fin (a * r_low c))) (@f_of_Z ER 2) = Fin (a * ((r_high c + r_low c) / 2)) /\
    @fdiv ER (@fadd ER (Fin (r_high c)) (Fin (r_low c))) (@f_of_Z ER 2) = Fin ((r_high c + r_low c) / 2) /\ (w : R) = w).
  { intros w. pose proof (middle_fin (rscale a c)) as M1. pose proof (middle_fin c) as M2. unfold middle in M1, M2. cbn [c_high c_low cfin rscale r_high r_low] in M1, M2.
    split; [rewrite M1; f_equal; lra|]. split; [exact M2|reflexivity]. }
  destruct (M 0) as (M1 & M2 & _). rewrite M1, M2. set (m := (r_high c + r_low c) / 2).
  change (@fmul ER (Fin k) (Fin v)) with (Fin (k * v)). change (@fmul ER (Fin k) (Fin (a * v))) with (Fin (k * (a * v))).
  change (@fsub ER (Fin m) (Fin (k * v))) with (Fin (m - k * v)). change (@fadd ER (Fin m) (Fin (k * v))) with (Fin (m + k * v)).
  change (@fsub ER (Fin (a * m)) (Fin (k * (a * v)))) with (Fin (a * m - k * (a * v))). change (@fadd ER (Fin (a * m)) (Fin (k * (a * v)))) with (Fin (a * m + k * (a * v))).
  rewrite !fmax_fin, !fmin_fin, !flt_fin, !Rltb_scale by exact A.
  replace (a * m - k * (a * v)) with (a * (m - k * v)) by ring. replace (a * m + k * (a * v)) with (a * (m + k * v)) by ring.
  rewrite (RmaxRmult (m - k * v) u a), (RminRmult a (m + k * v) d) by lra.
  set (up := if Rltb u prev then Rmax (m - k * v) u else m - k * v). set (down := if Rltb prev d then Rmin (m + k * v) d else m + k * v).
  assert (U1 : (if Rltb u prev then Fin (Rmax (m - k * v) u) else Fin (m - k * v)) = Fin up) by (unfold up; now destruct (Rltb u prev)).
  assert (U2 : (if Rltb u prev then Fin (a * Rmax (m - k * v) u) else Fin (a * (m - k * v))) = Fin (a * up)) by (unfold up; now destruct (Rltb u prev)).
  assert (D1 : (if Rltb prev d then Fin (Rmin (m + k * v) d) else Fin (m + k * v)) = Fin down) by (unfold down; now destruct (Rltb prev d)).
  assert (D2 : (if Rltb prev d then Fin (a * Rmin (m + k * v) d) else Fin (a * (m + k * v))) = Fin (a * down)) by (unfold down; now destruct (Rltb prev d)).
  change (@F ER) with ext. rewrite U1, U2, D1, D2. set (dir := if Rltb d (r_close c) then 1%Z else _).
  exists down, up, dir, (if (dir =? 1)%Z then up else down). split; f_equal; destruct (dir =? 1)%Z; reflexivity.
Qed.
Lemma ratr_scale p a h : (1 <= p)%nat -> 0 < a -> @atr ER p (map cfin (map (rscale a) h)) = Fin (a * rrma p (rranges h)).
Proof. intros Hp A. rewrite atr_fin by exact Hp. now rewrite rranges_scale, rrma_scale. Qed.
Lemma feq0_scale a x : 0 < a -> @feq ER (Fin (a * x)) f0 = @feq ER (Fin x) f0.
Proof.
  intros A. unfold f0. cbn [feq ER f_of_Z e_eq]. unfold Reqb. destruct (Req_EM_T (a * x) (IZR 0)) as [P|P], (Req_EM_T x (IZR 0)) as [Q|Q]; auto; exfalso.
  - apply Rmult_integral in P as [P|P]; lra.
  - apply P. rewrite Q. cbn. lra.
Qed.
Lemma rlast_close_scale a h : rlast_close (map (rscale a) h) = a * rlast_close h.
Proof. destruct h; cbn; [ring|reflexivity]. Qed.
Lemma supertrend_proportional p k a h : (1 <= p)%nat -> 0 < a ->
  proportional a (@supertrend ER p (Fin k) (map cfin h)) (@supertrend ER p (Fin k) (map cfin (map (rscale a) h))).
Proof.
  intros Hp A. induction h as [|c h IH]; [apply none_proportional|].
  change (map cfin (map (rscale a) (c :: h))) with (cfin (rscale a c) :: map cfin (map (rscale a) h)). change (map cfin (c :: h)) with (cfin c :: map cfin h). cbn [supertrend].
  change (cfin (rscale a c) :: map cfin (map (rscale a) h)) with (map cfin (map (rscale a) (c :: h))). change (cfin c :: map cfin h) with (map cfin (c :: h)).
  rewrite ratr_scale, atr_fin, feq0_scale by assumption. destruct (feq _ f0); [apply none_proportional|].
  rewrite !last_close_fin, rlast_close_scale. now apply next_proportional.
Qed.
Lemma conflict_scale p k a h : (1 <= p)%nat -> 0 < a -> @conflict ER p (Fin k) (map cfin (map (rscale a) h)) = @conflict ER p (Fin k) (map cfin h).
Proof.
  intros Hp A. destruct h as [|c h]; [reflexivity|].
  change (map cfin (map (rscale a) (c :: h))) with (cfin (rscale a c) :: map cfin (map (rscale a) h)). change (map cfin (c :: h)) with (cfin c :: map cfin h). cbn [conflict].
  change (cfin (rscale a c) :: map cfin (map (rscale a) h)) with (map cfin (map (rscale a) (c :: h))). change (cfin c :: map cfin h) with (map cfin (c :: h)).
  rewrite ratr_scale, atr_fin, feq0_scale by assumption.
  destruct (supertrend_proportional p k a h Hp A) as (d & u & t & l & -> & ->). cbn [t_up t_down cfin rscale c_close r_close]. now rewrite !flt_fin, !Rltb_scale.
Qed.
Lemma calm_scale p k a h : (1 <= p)%nat -> 0 < a -> @calm ER p (Fin k) (map cfin (map (rscale a) h)) <-> @calm ER p (Fin k) (map cfin h).
Proof.
  intros Hp A. induction h as [|c h IH]; [easy|]. pose proof (conflict_scale p k a (c :: h) Hp A) as C.
  change (map cfin (map (rscale a) (c :: h))) with (cfin (rscale a c) :: map cfin (map (rscale a) h)) in *. change (map cfin (c :: h)) with (cfin c :: map cfin h) in *. cbn [calm].
  rewrite C, IH. reflexivity.
Qed.
Theorem super_scale p factor a xs : (1 <= p)%nat -> 0 < a -> xs <> [] -> short xs ->
  ((exists r, call (@Supertrend ER (Z.of_nat p) factor) (bars (map cfin xs)) None true = Ok r) <->
   (exists r, call (@Supertrend ER (Z.of_nat p) factor) (bars (map cfin (map (rscale a) xs))) None true = Ok r)) /\
  forall r, call (@Supertrend ER (Z.of_nat p) factor) (bars (map cfin xs)) None true = Ok r ->
  exists o sx ix sy iy, r = (reals o, sx, ix) /\ length o = length xs /\
    call (@Supertrend ER (Z.of_nat p) factor) (bars (map cfin (map (rscale a) xs))) None true = Ok (reals (map (fun x => a * x) o), sy, iy).
Proof.
  intros Hp A NE Sh. destruct (num_fin factor) as (k & Hk).
  assert (N1 : map cfin xs <> []) by (now destruct xs). assert (N2 : map cfin (map (rscale a) xs) <> []) by (now destruct xs).
  assert (S1 : short (rev (map cfin xs))) by (unfold short in *; now rewrite rev_length, map_length).
  assert (S2 : short (rev (map cfin (map (rscale a) xs)))) by (unfold short in *; now rewrite rev_length, !map_length).
  assert (CS : @calm ER p (num factor) (rev (map cfin xs)) <-> @calm ER p (num factor) (rev (map cfin (map (rscale a) xs)))).
  { rewrite Hk, <- !map_rev. symmetry. now apply calm_scale. }
  pose proof (super_total (N := ER) p factor _ Hp N1 S1) as T1. pose proof (super_total (N := ER) p factor _ Hp N2 S2) as T2.
  split; [rewrite T1, T2; exact CS|]. intros r E. assert (C1 := proj1 T1 (ex_intro _ r E)). assert (C2 := proj1 CS C1).
  destruct (super_streams (N := ER) p factor Hp) as (st & H & _). rewrite (H _ N1 (conj S1 C1)) in E. injection E as <-.
  set (g := fun h => match t_line (@supertrend ER p (Fin k) (map cfin h)) with Fin l => l | _ => 0 end).
  assert (G : forall h, t_line (@supertrend ER p (Fin k) (map cfin h)) = Fin (g h)).
  { intros h. unfold g. destruct (supertrend_proportional p k a h Hp A) as (d & u & t & l & -> & _). reflexivity. }
  assert (G' : forall h, t_line (@supertrend ER p (Fin k) (map cfin (map (rscale a) h))) = Fin (a * g h)).
  { intros h. unfold g. destruct (supertrend_proportional p k a h Hp A) as (d & u & t & l & -> & ->). reflexivity. }
  exists (map g (hists [] xs)), (st (rev (map cfin xs))), (st []), (st (rev (map cfin (map (rscale a) xs)))), (st []).
  split; [|split; [now rewrite map_length, hists_length|]].
  - rewrite Hk. unfold reals. do 3 f_equal. change (@nil (@candle ER)) with (map cfin []). rewrite hists_map, !map_map. apply map_ext. exact G.
  - rewrite (H _ N2 (conj S2 C2)), Hk. unfold reals. do 4 f_equal. change (@nil (@candle ER)) with (map cfin (map (rscale a) [])).
    rewrite (hists_map cfin), (hists_map (rscale a)), !map_map. apply map_ext. exact G'.
Qed.

(** ** Drawdown *)
Lemma rpeak_scale a h : 0 < a -> rpeak (map (fun x => a * x) h) = a * rpeak h.
Proof. intros A. induction h as [|x h IH]; [cbn; ring|]. cbn [map rpeak]. rewrite IH, RmaxRmult by lra. reflexivity. Qed.
(** Different numbers of the series (and 0) are more than the tolerance of the drawdown apart. *)
Definition coarse (xs : list R) : Prop := forall x y, In x (0 :: xs) -> In y (0 :: xs) -> x <> y -> 1 / 10000 < Rabs (x - y).
Lemma rpeak_among h : In (rpeak h) (0 :: h).
Proof. destruct (rpeak_in h) as [E|I]; [left; now symmetry|now right]. Qed.
Definition runder (h : list R) : Z := @under_water ER (map Fin h).
Lemma runder_cons x h : runder (x :: h) = if Rltb (1 / 10000) (Rabs (rpeak (x :: h) - rpeak h)) then 0%Z else (runder h + 1)%Z.
Proof.
  unfold runder. change (map Fin (x :: h)) with (Fin x :: map Fin h). cbn [under_water]. change (Fin x :: map Fin h) with (map Fin (x :: h)).
  rewrite !peak_fin, tolerance_fin. reflexivity.
Qed.
Lemma rdrawdown_ratio a x h : 0 < a -> 1 / 10000 <= rpeak h -> 1 / 10000 <= a * rpeak h ->
  rdrawdown (map (fun x => a * x) (x :: h)) = rdrawdown (x :: h).
Proof.
  intros A P Q. cbn [map rdrawdown]. rewrite rpeak_scale by exact A. destruct (Rlt_dec (a * rpeak h) (1 / 10000)); [lra|]. destruct (Rlt_dec (rpeak h) (1 / 10000)); [lra|].
  f_equal. f_equal. field. lra.
Qed.
Lemma coarse_incl h l : (forall x, In x h -> In x l) -> coarse l -> coarse h.
Proof. intros I C x y [X|X] [Y|Y]; apply C; solve [now left|right; auto]. Qed.
Lemma coarse_gap h x y a : 0 < a -> coarse (map (fun x => a * x) h) -> In x (0 :: h) -> In y (0 :: h) -> x <> y -> 1 / 10000 < Rabs (a * x - a * y).
Proof.
  intros A C X Y D. apply C.
  - destruct X as [<-|X]; [left; ring|right; apply in_map_iff; eauto].
  - destruct Y as [<-|Y]; [left; ring|right; apply in_map_iff; eauto].
  - nra.
Qed.
Lemma coarse_same a h : 0 < a -> coarse h -> coarse (map (fun x => a * x) h) ->
  rdrawdown (map (fun x => a * x) h) = rdrawdown h /\ runder (map (fun x => a * x) h) = runder h.
Proof.
  intros A. induction h as [|x h IH]; intros C C'; [now split|].
  assert (C1 : coarse h) by (eapply coarse_incl; [|exact C]; intros; now right). assert (C1' : coarse (map (fun x => a * x) h)) by (eapply coarse_incl; [|exact C']; intros; now right).
  destruct (IH C1 C1') as [I1 I2]. assert (PN := rpeak_nonneg h). split.
  - destruct (Req_dec (rpeak h) 0) as [Z|Z].
    + cbn [map rdrawdown]. rewrite rpeak_scale, Z, Rmult_0_r by exact A. now destruct (Rlt_dec 0 (1 / 10000)); [|lra].
    + pose proof (C1 (rpeak h) 0 (rpeak_among h) (or_introl eq_refl) Z) as G1. pose proof (coarse_gap h (rpeak h) 0 a A C1' (rpeak_among h) (or_introl eq_refl) Z) as G2.
      rewrite Rmult_0_r, Rminus_0_r, Rabs_right in G2 by (apply Rle_ge, Rmult_le_pos; lra). rewrite Rminus_0_r, Rabs_right in G1 by lra.
      apply rdrawdown_ratio; lra.
  - change (map (fun x => a * x) (x :: h)) with (a * x :: map (fun x => a * x) h). rewrite !runder_cons.
    change (a * x :: map (fun x => a * x) h) with (map (fun x => a * x) (x :: h)). rewrite !rpeak_scale, I2 by exact A.
    destruct (Req_dec (rpeak (x :: h)) (rpeak h)) as [E|E].
    + rewrite E, !Rminus_eq_0, Rabs_R0. reflexivity.
    + assert (J : In (rpeak h) (0 :: x :: h)) by (destruct (rpeak_among h) as [Z|Z]; [left; exact Z|right; now right]).
      pose proof (C _ _ (rpeak_among (x :: h)) J E) as G1. pose proof (coarse_gap (x :: h) _ _ a A C' (rpeak_among (x :: h)) J E) as G2.
      unfold Rltb. destruct (Rlt_dec _ (Rabs (a * _ - _))); [|lra]. destruct (Rlt_dec _ (Rabs _)); [reflexivity|lra].
Qed.
Lemma drawdown_run xs : xs <> [] -> (Z.of_nat (length xs) < 2147483648)%Z ->
  exists sf s0, call Drawdown (reals xs) None true = Ok (drawdown_reals (map (fun h => (rdrawdown h, runder h)) (hists [] xs)), sf, s0).
Proof.
  intros NE L. destruct (@drawdown_streams ER) as (st & H & _). do 2 eexists. unfold reals.
  rewrite H; [|destruct xs; [contradiction|discriminate]|unfold below31; rewrite rev_length, map_length; exact L]. unfold drawdown_reals. do 4 f_equal.
  change (@nil (@F ER)) with (map Fin []). change (@F ER) with ext. rewrite hists_map, !map_map. apply map_ext. intros h. cbn [fst snd]. f_equal. apply rdrawdown_fin.
Qed.
Lemma scaled_run a xs : xs <> [] -> (Z.of_nat (length xs) < 2147483648)%Z ->
  exists sf s0, call Drawdown (reals (map (fun x => a * x) xs)) None true =
    Ok (drawdown_reals (map (fun h => (rdrawdown (map (fun x => a * x) h), runder (map (fun x => a * x) h))) (hists [] xs)), sf, s0).
Proof.
  intros NE L. destruct (drawdown_run (map (fun x => a * x) xs)) as (sf & s0 & E); [destruct xs; [contradiction|discriminate]|rewrite map_length; exact L|].
  exists sf, s0. rewrite E. do 4 f_equal. change (@nil R) with (map (fun x => a * x) []) at 1. rewrite hists_map, map_map. reflexivity.
Qed.
Lemma hists_last {X} (xs : list X) x0 : forall g l, In l (hists (g ++ [x0]) xs) -> exists y m, l = y :: m ++ [x0].
Proof.
  induction xs as [|x xs IH]; intros g l; cbn [hists]; [intros []|]. intros [<-|I]; [eauto|]. apply (IH (x :: g)). exact I.
Qed.
Theorem drawdown_depths_scale a x0 r : 0 < a -> 1 / 10000 <= x0 -> 1 / 10000 <= a * x0 -> (Z.of_nat (length (x0 :: r)) < 2147483648)%Z ->
  exists o o' sx ix sy iy,
    call Drawdown (reals (x0 :: r)) None true = Ok (drawdown_reals o, sx, ix) /\
    call Drawdown (reals (map (fun x => a * x) (x0 :: r))) None true = Ok (drawdown_reals o', sy, iy) /\
    map fst o = map fst o' /\ length o = length (x0 :: r).
Proof.
  intros A P Q L. destruct (drawdown_run (x0 :: r)) as (sx & ix & E1); [discriminate|exact L|]. destruct (scaled_run a (x0 :: r)) as (sy & iy & E2); [discriminate|exact L|].
  do 6 eexists. split; [exact E1|]. split; [exact E2|]. split; [|rewrite map_length, hists_length; reflexivity]. rewrite !map_map. cbn [fst]. apply map_ext_in. intros h I.
  cbn [hists] in I. destruct I as [<-|I].
  - cbn [map rdrawdown rpeak]. destruct (Rlt_dec 0 (1 / 10000)); [reflexivity|lra].
  - apply (hists_last r x0 []) in I as (y & m & ->). symmetry. assert (G : x0 <= rpeak (m ++ [x0])) by (apply rpeak_ge, in_or_app; right; now left). apply rdrawdown_ratio; nra.
Qed.
Theorem drawdown_coarse_scale a xs : 0 < a -> xs <> [] -> (Z.of_nat (length xs) < 2147483648)%Z -> coarse xs -> coarse (map (fun x => a * x) xs) ->
  exists o sx ix sy iy,
    call Drawdown (reals xs) None true = Ok (drawdown_reals o, sx, ix) /\
    call Drawdown (reals (map (fun x => a * x) xs)) None true = Ok (drawdown_reals o, sy, iy).
Proof.
  intros A NE L C C'. destruct (drawdown_run xs) as (sx & ix & E1); [exact NE|exact L|]. destruct (scaled_run a xs) as (sy & iy & E2); [exact NE|exact L|].
  do 5 eexists. split; [exact E1|]. rewrite E2. do 4 f_equal. apply map_ext_in. intros h I.
  assert (J : forall x, In x h -> In x xs) by (intros x X; destruct (hists_in xs [] h x I X) as [K|[]]; exact K).
  destruct (coarse_same a h A) as [-> ->]; [apply (coarse_incl h xs); assumption| |reflexivity].
  apply (coarse_incl _ (map (fun x => a * x) xs)); [|exact C']. intros x X. apply in_map_iff in X as (z & <- & Z). apply in_map_iff. eauto.
Qed.
Theorem drawdown_units_matter : exists xs a, 0 < a /\ Forall (fun x => 0 < x) xs /\
  (exists sx ix, call Drawdown (reals xs) None true = Ok (drawdown_reals [(0, 1%Z); (0, 2%Z)], sx, ix)) /\
  (exists sy iy, call Drawdown (reals (map (fun x => a * x) xs)) None true = Ok (drawdown_reals [(0, 0%Z); (- (1 / 2), 1%Z)], sy, iy)).
Proof.
  exists [1 / 20000; 1 / 40000], 10000. split; [lra|]. split; [repeat constructor; lra|].
  destruct (drawdown_run [1 / 20000; 1 / 40000]) as (sx & ix & E1); [discriminate|cbn; lia|]. destruct (drawdown_run (map (fun x => 10000 * x) [1 / 20000; 1 / 40000])) as (sy & iy & E2); [discriminate|cbn; lia|].
  split; [exists sx, ix; rewrite E1|exists sy, iy; rewrite E2]; do 4 f_equal; cbn [map hists rdrawdown]; rewrite !runder_cons; cbn [rpeak].
  - rewrite (Rmax_left (1 / 20000) 0), (Rmax_right (1 / 40000) (1 / 20000)) by lra. rewrite Rminus_0_r, Rminus_eq_0, Rabs_R0, Rabs_right by lra. unfold Rltb.
    destruct (Rlt_dec (1 / 10000) (1 / 20000)); [lra|]. destruct (Rlt_dec (1 / 10000) 0); [lra|]. destruct (Rlt_dec 0 (1 / 10000)); [|lra]. destruct (Rlt_dec (1 / 20000) (1 / 10000)); [|lra]. reflexivity.
  - rewrite (Rmax_left (10000 * (1 / 20000)) 0), (Rmax_right (10000 * (1 / 40000)) (10000 * (1 / 20000))) by lra. rewrite Rminus_0_r, Rminus_eq_0, Rabs_R0, Rabs_right by lra. unfold Rltb.
    destruct (Rlt_dec (1 / 10000) (10000 * (1 / 20000))); [|lra]. destruct (Rlt_dec (1 / 10000) 0); [lra|]. destruct (Rlt_dec 0 (1 / 10000)); [|lra]. destruct (Rlt_dec (10000 * (1 / 20000)) (1 / 10000)); [lra|].
    f_equal. f_equal. f_equal. replace (10000 * (1 / 40000) / (10000 * (1 / 20000)) - 1) with (- (1 / 2)) by field. apply Rmin_right. lra.
Qed.

(** ** Crossovers and their signals *)
Lemma sgn_scale a x : 0 < a -> @sgn ER (Fin (a * x)) = @sgn ER (Fin x).
Proof.
  intros A. unfold sgn. cbn [fsign ER e_sign]. destruct (Rlt_dec 0 (a * x)), (Rlt_dec 0 x); try reflexivity; try (exfalso; nra).
  destruct (Rlt_dec (a * x) 0), (Rlt_dec x 0); try reflexivity; exfalso; nra.
Qed.
Lemma sgn_fin x : exists r, @sgn ER (Fin x) = Fin r.
Proof. unfold sgn. destruct (fge _ _); cbn; eauto. Qed.
Lemma crossed_scale a x d : 0 < a -> @ImplSignal.crossed ER (Fin d) (Fin (a * x)) = @ImplSignal.crossed ER (Fin d) (Fin x).
Proof.
  intros A. unfold ImplSignal.crossed. rewrite feq0_scale by exact A. f_equal. cbn [fmul ER e_mul]. rewrite Rmult_assoc. now rewrite sgn_scale.
Qed.
Lemma zc_dir_fin l : exists d, @zc_dir ER (map Fin l) = Fin d.
Proof.
  induction l as [|x l IH]; [exists 0; reflexivity|]. destruct l as [|y l]; [apply sgn_fin|]. destruct IH as [d E].
  change (map Fin (x :: y :: l)) with (Fin x :: map Fin (y :: l)). change (exists d0, (if @ImplSignal.crossed ER (zc_dir (map Fin (y :: l))) (Fin x) then fneg (zc_dir (map Fin (y :: l))) else zc_dir (map Fin (y :: l))) = Fin d0).
  rewrite E. destruct (ImplSignal.crossed _ _); cbn; eauto.
Qed.
Lemma zc_dir_scale a l : 0 < a -> @zc_dir ER (map Fin (map (fun x => a * x) l)) = @zc_dir ER (map Fin l).
Proof.
  intros A. induction l as [|x l IH]; [reflexivity|]. destruct l as [|y l]; [now apply sgn_scale|]. destruct (zc_dir_fin (y :: l)) as [d E].
  set (m := map Fin (y :: l)) in *. set (m' := map Fin (map (fun x => a * x) (y :: l))) in *.
  change ((if @ImplSignal.crossed ER (zc_dir m') (Fin (a * x)) then fneg (zc_dir m') else zc_dir m') = (if @ImplSignal.crossed ER (zc_dir m) (Fin x) then fneg (zc_dir m) else zc_dir m)).
  rewrite IH, E. now rewrite crossed_scale.
Qed.
Lemma zc_sig_scale a l : 0 < a -> @zc_sig ER (map Fin (map (fun x => a * x) l)) = @zc_sig ER (map Fin l).
Proof.
  intros A. destruct l as [|x [|y l]]; [reflexivity..|]. destruct (zc_dir_fin (y :: l)) as [d E]. pose proof (zc_dir_scale a (y :: l) A) as S.
  set (m := map Fin (y :: l)) in *. set (m' := map Fin (map (fun x => a * x) (y :: l))) in *.
  change ((if @ImplSignal.crossed ER (zc_dir m') (Fin (a * x)) then fneg (zc_dir m') else f0) = (if @ImplSignal.crossed ER (zc_dir m) (Fin x) then fneg (zc_dir m) else f0)).
  rewrite S, E. now rewrite crossed_scale.
Qed.
Lemma linear_scale g a h : linear_fn g -> g (map (fun x => a * x) h) = a * g h.
Proof.
  intros G. pose proof (G a 0 h h eq_refl) as L. unfold blend in L. rewrite combine_same, map_map in L. cbn [fst snd] in L.
  rewrite (map_ext _ (fun x => a * x)) in L by (intros; ring). rewrite L. ring.
Qed.
Lemma moved p g a c h : linear_fn g -> shifting p g -> (p <= length h)%nat -> g (map (affine a c) h) = a * g h + c.
Proof.
  intros G S L. unfold affine. rewrite <- (map_map (fun x => a * x) (fun x => x + c)). rewrite S by (rewrite map_length; exact L). now rewrite linear_scale.
Qed.
Definition rcrossover (slow fast : nat) (h : list R) : R := (if (length h <? slow)%nat then 0 else rsma fast h) - rsma slow h.
Lemma crossover_eq slow fast l : (1 <= slow)%nat -> (1 <= fast)%nat -> @crossover_code ER slow fast (map Fin l) = Fin (rcrossover slow fast l).
Proof.
  intros Hs Hf. change (e_sub (if (length (map Fin l) <? slow)%nat then Fin 0 else sma fast (map Fin l)) (sma slow (map Fin l)) = Fin (rcrossover slow fast l)).
  unfold rcrossover. rewrite map_length, (sma_eq slow), (sma_eq fast) by assumption. destruct (length l <? slow)%nat; reflexivity.
Qed.
Lemma rcrossover_affine slow fast a c h : (1 <= fast)%nat -> (fast <= slow)%nat -> rcrossover slow fast (map (affine a c) h) = a * rcrossover slow fast h.
Proof.
  intros Hf Hs. unfold rcrossover. rewrite map_length. destruct (Nat.ltb_spec (length h) slow) as [L|L].
  - unfold rsma. rewrite map_length. destruct (Nat.ltb_spec (length h) slow); [ring|lia].
  - rewrite (moved fast (rsma fast)), (moved slow (rsma slow)); try apply rsma_linear; try (apply rsma_shift; lia); [ring|lia|lia].
Qed.
Lemma rmacd_affine slow fast a c h : (1 <= fast)%nat -> (fast <= slow)%nat -> rmacd slow fast (map (affine a c) h) = a * rmacd slow fast h.
Proof.
  intros Hf Hs. unfold rmacd. rewrite map_length. destruct (Nat.ltb_spec (length h) slow) as [L|L]; [ring|].
  rewrite (moved fast (rema fast)), (moved slow (rema slow)); try apply rema_linear; try (apply rema_shift; lia); [ring|lia|lia].
Qed.
Lemma trail_affine g a c : (forall h, g (map (affine a c) h) = a * g h) -> forall h, trail g (map (affine a c) h) = map (fun x => a * x) (trail g h).
Proof. intros G. induction h as [|x h IH]; [reflexivity|]. cbn [map trail]. rewrite IH. f_equal. apply (G (x :: h)). Qed.
Lemma rmacd_signal_affine slow fast m a c h : (1 <= fast)%nat -> (fast <= slow)%nat -> rmacd_signal slow fast m (map (affine a c) h) = a * rmacd_signal slow fast m h.
Proof.
  intros Hf Hs. unfold rmacd_signal. rewrite map_length. destruct (length h <? slow)%nat; [ring|].
  rewrite (trail_affine (rmacd slow fast)) by (intros; now apply rmacd_affine). rewrite firstn_map. apply linear_scale, rema_linear.
Qed.
Lemma rmacd_histogram_affine slow fast m a c h : (1 <= fast)%nat -> (fast <= slow)%nat -> rmacd_histogram slow fast m (map (affine a c) h) = a * rmacd_histogram slow fast m h.
Proof.
  intros Hf Hs. unfold rmacd_histogram. rewrite map_length. destruct (length h + 1 <? slow + m)%nat; [ring|].
  rewrite rmacd_affine, rmacd_signal_affine by assumption. ring.
Qed.
(** A signal computed column by column from the crossings of a series that only changes its scale. *)
Lemma signal_unaffected (op : @operator ER) s (f : list ext -> ext) (g : list R -> R) (k : nat -> bool) a c :
  @streams ER _ op (ok_rows s) (tensors s) (fun hs => int_tensors s (map (each s (fun c => if k (length c) then 0%Z else f_to_Z (zc_sig (trail f c)))) hs)) ->
  (forall l, f (map Fin l) = Fin (g l)) -> (forall h, g (map (affine a c) h) = a * g h) -> 0 < a ->
  unaffected op (rshaped s) (fun xs => @tensors ER s (fins xs)) (map (affine a c)).
Proof.
  intros (st & H & _) E G A xs NE OK. set (q := fun c : list ext => if k (length c) then 0%Z else f_to_Z (@zc_sig ER (trail f c))).
  eexists _, _, _, _, _. split; [apply H; [now apply fins_ne|now apply fins_ok]|].
  rewrite H; [|apply fins_ne; now destruct xs|now apply fins_ok, rshaped_map]. f_equal. f_equal. f_equal. f_equal.
  refine (eq_trans (f_equal (map (@each ER _ s q)) (hists_fins (map (map (affine a c)) xs) []))
           (eq_trans _ (eq_sym (f_equal (map (@each ER _ s q)) (hists_fins xs []))))).
  rewrite (hists_map (map (affine a c)) xs [] : hists [] (map (map (affine a c)) xs) = _). rewrite !map_map. apply map_ext_in. intros h I. unfold each. apply map_ext_in. intros j J. apply in_seq in J.
  assert (C : forall h, column (Fin 0) j (fins h) = map Fin (map (fun r => nth j r 0) h)).
  { intros h'. unfold column, fins. rewrite !map_map. apply map_ext. intros r. exact (map_nth Fin r 0 j). }
  change (@f0 ER) with (Fin 0). change (@F ER) with ext. rewrite !C.
  assert (D : map (fun r => nth j r 0) (map (map (affine a c)) h) = map (affine a c) (map (fun r => nth j r 0) h)).
  { rewrite !map_map. apply map_ext_in. intros r K. destruct (hists_in xs [] h r I K) as [M|[]]. destruct OK as [OK _]. rewrite Forall_forall in OK. specialize (OK r M).
    rewrite (nth_indep (map (affine a c) r) 0 (affine a c 0)) by (rewrite map_length; lia). apply (map_nth (affine a c)). }
  rewrite D. unfold q. rewrite !map_length. destruct (k (length h)); [reflexivity|]. rewrite !(trail_fin f g) by exact E. rewrite (trail_affine g a c G). f_equal. now apply zc_sig_scale.
Qed.
Theorem crossover_signal_affine s slow fast a c : (1 <= fast)%nat -> (fast <= slow)%nat -> 0 < a ->
  unaffected (SimpleMovingAverageCrossoverSignal (Z.of_nat slow) (Z.of_nat fast)) (rshaped s) (fun xs => @tensors ER s (fins xs)) (map (affine a c)).
Proof.
  intros Hf Hs A. assert (Hs1 : (1 <= slow)%nat) by lia.
  apply (signal_unaffected _ s (@crossover_code ER slow fast) (rcrossover slow fast) (fun n => (n <=? slow)%nat)).
  - exact (@crossover_sig_streams ER s slow fast Hs1 Hf).
  - intros l. now apply crossover_eq.
  - intros h. now apply rcrossover_affine.
  - exact A.
Qed.
Theorem macd_signal_unaffected s slow fast m a c : (1 <= fast)%nat -> (fast <= slow)%nat -> (1 <= m)%nat -> 0 < a ->
  unaffected (MovingAverageConvergenceDivergenceSignal (Z.of_nat slow) (Z.of_nat fast) (Z.of_nat m)) (rshaped s) (fun xs => @tensors ER s (fins xs)) (map (affine a c)).
Proof.
  intros Hf Hs Hm A. assert (Hs1 : (1 <= slow)%nat) by lia.
  apply (signal_unaffected _ s (@macd_histogram ER slow fast m) (rmacd_histogram slow fast m) (fun n => (n + 1 <? slow + m)%nat)).
  - exact (@macd_sig_streams ER s slow fast m Hs1 Hf Hm).
  - intros l. now apply macd_histogram_eq.
  - intros h. now apply rmacd_histogram_affine.
  - exact A.
Qed.
Lemma reach_upd s g (T U : R -> R) xs : rshaped s xs -> (forall l, g (map T l) = U (g l)) ->
  map (reach s g) (hists [] (map (map T) xs)) = map (map U) (map (reach s g) (hists [] xs)).
Proof.
  intros [OK _] E. rewrite (hists_map (map T) xs [] : hists [] (map (map T) xs) = _). rewrite !map_map. apply map_ext_in. intros h I. apply reach_map; [exact E|].
  apply Forall_forall. intros r K. destruct (hists_in xs [] h r I K) as [M|[]]. rewrite Forall_forall in OK. now apply OK.
Qed.
Theorem crossover_affine s slow fast a c xs : (1 <= fast)%nat -> (fast <= slow)%nat -> xs <> [] -> rshaped s xs ->
  exists o sx ix sy iy,
    call (SimpleMovingAverageCrossover (Z.of_nat slow) (Z.of_nat fast)) (tensors s (fins xs)) None true = Ok (tensors s (fins o), sx, ix) /\
    call (SimpleMovingAverageCrossover (Z.of_nat slow) (Z.of_nat fast)) (tensors s (fins (map (map (affine a c)) xs))) None true =
      Ok (tensors s (fins (map (map (fun x => a * x)) o)), sy, iy).
Proof.
  intros Hf Hs NE OK. assert (Hs1 : (1 <= slow)%nat) by lia.
  destruct (stream_fins _ s (@crossover_code ER slow fast) (rcrossover slow fast) xs (@crossover_streams ER s slow fast Hs1 Hf)) as (sx & ix & E1); [intros; now apply crossover_eq|exact NE|exact OK|].
  destruct (stream_fins _ s (@crossover_code ER slow fast) (rcrossover slow fast) (map (map (affine a c)) xs) (@crossover_streams ER s slow fast Hs1 Hf)) as (sy & iy & E2); [intros; now apply crossover_eq|now destruct xs|now apply rshaped_map|].
  do 5 eexists. split; [exact E1|]. rewrite E2. do 5 f_equal. apply reach_upd; [exact OK|]. intros l. now apply rcrossover_affine.
Qed.

Theorem macd_affine s slow fast m a c xs : (1 <= fast)%nat -> (fast <= slow)%nat -> (1 <= m)%nat -> xs <> [] -> rshaped s xs ->
  exists e1 e2 e1' e2' o1 o2 o3 sx ix sy iy,
    call (MovingAverageConvergenceDivergence (Z.of_nat slow) (Z.of_nat fast) (Z.of_nat m)) (tensors s (fins xs)) None true =
      Ok (series_list s [e1; e2; o1; o2; o3], sx, ix) /\
    call (MovingAverageConvergenceDivergence (Z.of_nat slow) (Z.of_nat fast) (Z.of_nat m)) (tensors s (fins (map (map (affine a c)) xs))) None true =
      Ok (series_list s [e1'; e2'; times a o1; times a o2; times a o3], sy, iy).
Proof.
  intros Hf Hs Hm NE OK. assert (Hs1 : (1 <= slow)%nat) by lia. destruct (@macd_streams ER s slow fast m Hs1 Hf Hm) as (st & H & _).
  pose (fs := [@ema ER slow; @ema ER fast; @macd ER slow fast; @macd_signal ER slow fast m; @macd_histogram ER slow fast m]).
  pose (gs := [rema slow; rema fast; rmacd slow fast; rmacd_signal slow fast m; rmacd_histogram slow fast m]).
  assert (K : Forall2 known fs gs).
  { constructor; [intros l; now apply ema_eq|]. constructor; [intros l; now apply ema_eq|]. constructor; [intros l; now apply macd_eq|].
    constructor; [intros l; now apply macd_signal_eq|]. constructor; [intros l; now apply macd_histogram_eq|]. constructor. }
  pose (run g xs := map (reach s g) (hists [] xs)).
  exists (run (rema slow) xs), (run (rema fast) xs), (run (rema slow) (map (map (affine a c)) xs)), (run (rema fast) (map (map (affine a c)) xs)),
    (run (rmacd slow fast) xs), (run (rmacd_signal slow fast m) xs), (run (rmacd_histogram slow fast m) xs). do 4 eexists. split.
  - rewrite (H (fins xs) (fins_ne xs NE) (fins_ok s xs OK)). exact (f_equal (fun z => Ok (Tup z, _, _)) (each_streams s fs gs xs K)).
  - assert (NB : map (map (affine a c)) xs <> []) by (now destruct xs).
    rewrite (H (fins (map (map (affine a c)) xs)) (fins_ne _ NB) (fins_ok s _ (rshaped_map s _ xs OK))).
    refine (eq_trans (f_equal (fun z => Ok (Tup z, _, _)) (each_streams s fs gs _ K)) _). unfold series_list, gs. cbn [map].
    unfold times, run. rewrite <- (reach_upd s (rmacd slow fast) (affine a c) (fun x => a * x) xs OK) by (intros; now apply rmacd_affine).
    rewrite <- (reach_upd s (rmacd_signal slow fast m) (affine a c) (fun x => a * x) xs OK) by (intros; now apply rmacd_signal_affine).
    rewrite <- (reach_upd s (rmacd_histogram slow fast m) (affine a c) (fun x => a * x) xs OK) by (intros; now apply rmacd_histogram_affine). reflexivity.
Qed.
