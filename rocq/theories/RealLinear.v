(** * RealLinear: linearity of the averages in exact arithmetic (C52) and how fast they forget (C51). *)
From Coq Require Import Reals Lra Lia List ZArith Bool.
From Verif Require Import Num Py Tensor Streamable Meta Common Finance Series Formulas Positions
  ImplBasic ImplComp ER RealFacts RealStats MovingFacts ReturnFacts Linear MemoryFacts.
Import ListNotations.
Local Open Scope R_scope.

(** ** The formulas on real numbers *)
Definition rsma (p : nat) (h : list R) : R := if (length h <? p)%nat then 0 else rmean (firstn p h).
Fixpoint rema (p : nat) (h : list R) : R :=
  match h with
  | [] => 0
  | x :: r => if (length h <=? p)%nat then rsma p h else x * (2 / (INR p + 1)) + rema p r * (1 - 2 / (INR p + 1))
  end.
Fixpoint rrma (p : nat) (h : list R) : R :=
  match h with
  | [] => 0
  | x :: r => if (length h <=? p)%nat then rsma p h else (rrma p r * (INR p - 1) + x) / INR p
  end.
Lemma sma_eq p h : (1 <= p)%nat -> sma p (map Fin h) = Fin (rsma p h).
Proof.
  intros Hp. unfold rsma. destruct (Nat.ltb_spec (length h) p) as [L|L]; [|now apply sma_fin].
  unfold sma. rewrite map_length. destruct (Nat.ltb_spec (length h) p); [reflexivity|lia].
Qed.
Lemma ema_eq p h : (1 <= p)%nat -> ema p (map Fin h) = Fin (rema p h).
Proof.
  intros Hp. induction h as [|x h IH]; [reflexivity|]. cbn [ema rema map]. cbn [length]. rewrite map_length.
  change (Fin x :: map Fin h) with (map Fin (x :: h)). destruct (Nat.leb_spec (S (length h)) p) as [L|L]; [now apply sma_eq|].
  rewrite IH. unfold ema_factor. cbn [f_of_D ER d_of_Z ddiv dadd dsub fmul fadd e_mul e_add]. now rewrite <- INR_IZR_INZ.
Qed.
Lemma rma_eq p h : (1 <= p)%nat -> rma p (map Fin h) = Fin (rrma p h).
Proof.
  intros Hp. induction h as [|x h IH]; [reflexivity|]. cbn [rma rrma map]. cbn [length]. rewrite map_length.
  change (Fin x :: map Fin h) with (map Fin (x :: h)). destruct (Nat.leb_spec (S (length h)) p) as [L|L]; [now apply sma_eq|].
  rewrite IH. cbn [f_of_Z ER fmul fadd e_mul e_add fdiv].
  assert (HP : 1 <= IZR (Z.of_nat p)) by (rewrite <- INR_IZR_INZ; apply (le_INR 1 p); lia).
  rewrite e_div_fin by lra. rewrite minus_IZR. now rewrite <- INR_IZR_INZ.
Qed.

(** ** Linearity *)
Lemma blend_length a b x y : length x = length y -> length (blend a b x y) = length x.
Proof. intros E. unfold blend. rewrite map_length, combine_length. lia. Qed.
Lemma blend_cons a b x y u v : blend a b (x :: u) (y :: v) = (a * x + b * y) :: blend a b u v.
Proof. reflexivity. Qed.
Lemma blend_firstn a b k : forall x y, firstn k (blend a b x y) = blend a b (firstn k x) (firstn k y).
Proof. induction k as [|k IH]; intros [|x u] [|y v]; try reflexivity. rewrite blend_cons. cbn [firstn]. rewrite IH. reflexivity. Qed.
Lemma rsum_blend a b : forall x y, length x = length y -> rsum (blend a b x y) = a * rsum x + b * rsum y.
Proof.
  induction x as [|x u IH]; intros [|y v] E; try discriminate; [cbn; lra|]. rewrite blend_cons. cbn [rsum fold_right].
  fold (rsum (blend a b u v)) (rsum u) (rsum v). rewrite IH by (cbn in E; lia). lra.
Qed.
Lemma rmean_blend a b x y : length x = length y -> rmean (blend a b x y) = a * rmean x + b * rmean y.
Proof. intros E. unfold rmean. rewrite rsum_blend, blend_length by exact E. rewrite <- E. unfold Rdiv. ring. Qed.
Definition linear_fn (g : list R -> R) : Prop :=
  forall a b x y, length x = length y -> g (blend a b x y) = a * g x + b * g y.
Lemma rsma_linear p : linear_fn (rsma p).
Proof.
  intros a b x y E. unfold rsma. rewrite blend_length by exact E. rewrite <- E. destruct (length x <? p)%nat; [lra|].
  rewrite blend_firstn. apply rmean_blend. rewrite !firstn_length. lia.
Qed.
Lemma rema_linear p : linear_fn (rema p).
Proof.
  intros a b. induction x as [|x u IH]; intros [|y v] E; try discriminate; [cbn; lra|]. rewrite blend_cons. cbn [rema].
  change ((a * x + b * y) :: blend a b u v) with (blend a b (x :: u) (y :: v)). rewrite blend_length by exact E. rewrite <- E.
  destruct (length (x :: u) <=? p)%nat; [now apply rsma_linear|]. rewrite IH by (cbn in E; lia). ring.
Qed.
Lemma rrma_linear p : linear_fn (rrma p).
Proof.
  intros a b. induction x as [|x u IH]; intros [|y v] E; try discriminate; [cbn; lra|]. rewrite blend_cons. cbn [rrma].
  change ((a * x + b * y) :: blend a b u v) with (blend a b (x :: u) (y :: v)). rewrite blend_length by exact E. rewrite <- E.
  destruct (length (x :: u) <=? p)%nat; [now apply rsma_linear|]. rewrite IH by (cbn in E; lia). unfold Rdiv. ring.
Qed.

(** ** From histories to series *)
Definition reach (s : list nat) (g : list R -> R) (h : list (list R)) : list R :=
  map (fun j => g (map (fun r => nth j r 0) h)) (seq 0 (prod s)).
Lemma each_fin s (f : list ext -> ext) g (h : list (list R)) : (forall l, f (map Fin l) = Fin (g l)) ->
  @each ER _ s f (fins h) = map Fin (reach s g h).
Proof.
  intros E. unfold each, reach. rewrite map_map. apply map_ext. intros j. rewrite <- E. f_equal. unfold column, fins. rewrite !map_map.
  apply map_ext. intros r. change (@f0 ER) with (Fin 0). apply (map_nth Fin).
Qed.
Lemma hists_fins xs : forall h, hists (fins h) (fins xs) = map fins (hists h xs).
Proof. induction xs as [|x xs IH]; intros h; [reflexivity|]. cbn [fins map hists]. f_equal. apply (IH (x :: h)). Qed.
(** What an operator with a closed form gives on finite series. *)
Lemma stream_fins (op : @operator ER) s f g xs : 
  @streams ER _ op (ok_rows s) (tensors s) (fun hs => tensors s (map (each s f) hs)) ->
  (forall l, f (map Fin l) = Fin (g l)) -> xs <> [] -> rshaped s xs ->
  exists sf s0, call op (tensors s (fins xs)) None true = Ok (tensors s (fins (map (reach s g) (hists [] xs))), sf, s0).
Proof.
  intros (st & H & _) E NE OK. exists (st (rev (fins xs))), (st []).
  rewrite (H (fins xs) (fins_ne xs NE) (fins_ok s xs OK)). 
  assert (Q : map (each s f) (hists [] (fins xs)) = fins (map (reach s g) (hists [] xs))).
  { rewrite (hists_fins xs [] : hists [] (fins xs) = _). unfold fins at 2. rewrite !map_map. apply map_ext. intros h. now apply each_fin. }
  exact (f_equal (fun z => Ok (tensors s z, _, _)) Q).
Qed.
Lemma blends_length a b xs ys : length xs = length ys -> length (blends a b xs ys) = length xs.
Proof. intros E. unfold blends. rewrite map_length, combine_length. lia. Qed.
Lemma blends_ok s a b xs ys : length xs = length ys -> rshaped s xs -> rshaped s ys -> rshaped s (blends a b xs ys).
Proof.
  intros E [H1 H2] [H3 _]. split; [|unfold short in *; now rewrite blends_length by exact E].
  unfold blends. apply Forall_map, Forall_forall. intros [x y] I. cbn [fst snd].
  pose proof (in_combine_l _ _ _ _ I) as I1. pose proof (in_combine_r _ _ _ _ I) as I2.
  rewrite Forall_forall in H1, H3. rewrite blend_length; [now apply H1|]. rewrite (H1 x I1), (H3 y I2). reflexivity.
Qed.
Lemma blends_cons a b x y u v : blends a b (x :: u) (y :: v) = blend a b x y :: blends a b u v.
Proof. reflexivity. Qed.
Lemma blends_app a b : forall u v u' v', length u = length v -> blends a b (u ++ u') (v ++ v') = blends a b u v ++ blends a b u' v'.
Proof. induction u as [|x u IH]; intros [|y v] u' v' E; try discriminate; [reflexivity|]. cbn [app]. rewrite !blends_cons, IH by (cbn in E; lia). reflexivity. Qed.
Lemma nth_blend a b j : forall x y, length x = length y -> nth j (blend a b x y) 0 = a * nth j x 0 + b * nth j y 0.
Proof.
  induction j as [|j IH]; intros [|x u] [|y v] E; try discriminate; try (cbn; lra). rewrite blend_cons. cbn [nth]. apply IH. cbn in E. lia.
Qed.
Lemma column_blends a b j s : forall u v, length u = length v -> Forall (fun r => length r = prod s) u -> Forall (fun r => length r = prod s) v ->
  map (fun r => nth j r 0) (blends a b u v) = blend a b (map (fun r => nth j r 0) u) (map (fun r => nth j r 0) v).
Proof.
  induction u as [|x u IH]; intros [|y v] E U V; try discriminate; [reflexivity|]. inversion U; inversion V; subst.
  rewrite blends_cons. cbn [map]. rewrite blend_cons, nth_blend by congruence. rewrite IH by (cbn in E; auto; lia). reflexivity.
Qed.
Lemma reach_blends s g a b u v : linear_fn g -> length u = length v ->
  Forall (fun r => length r = prod s) u -> Forall (fun r => length r = prod s) v ->
  reach s g (blends a b u v) = blend a b (reach s g u) (reach s g v).
Proof.
  intros G E U V. unfold reach, blend. rewrite (combine_map_both (fun j => g (map (fun r => nth j r 0) u)) (fun j => g (map (fun r => nth j r 0) v))).
  rewrite combine_same, !map_map. apply map_ext. intros j. cbn [fst snd]. rewrite (column_blends a b j s) by assumption. apply G. now rewrite !map_length.
Qed.
Lemma hists_blends s g a b : linear_fn g -> forall xs ys h k, length xs = length ys -> length h = length k ->
  Forall (fun r => length r = prod s) xs -> Forall (fun r => length r = prod s) ys ->
  Forall (fun r => length r = prod s) h -> Forall (fun r => length r = prod s) k ->
  map (reach s g) (hists (blends a b h k) (blends a b xs ys)) = blends a b (map (reach s g) (hists h xs)) (map (reach s g) (hists k ys)).
Proof.
  intros G. induction xs as [|x xs IH]; intros [|y ys] h k E E' X Y Hh Hk; try discriminate; [reflexivity|].
  inversion X; inversion Y; subst. rewrite blends_cons. cbn [hists map]. rewrite blends_cons. rewrite <- blends_cons. f_equal.
  - apply reach_blends; auto; cbn; lia.
  - apply IH; auto; cbn in *; lia.
Qed.
Theorem linear_from (op : @operator ER) s f g :
  @streams ER _ op (ok_rows s) (tensors s) (fun hs => tensors s (map (each s f) hs)) ->
  (forall l, f (map Fin l) = Fin (g l)) -> linear_fn g -> linear op s.
Proof.
  intros ST E G a b xs ys NE L X Y. assert (NEy : ys <> []) by (destruct ys, xs; cbn in L; congruence).
  destruct (stream_fins op s f g xs ST E NE X) as (sx & ix & Ex). destruct (stream_fins op s f g ys ST E NEy Y) as (sy & iy & Ey).
  destruct (stream_fins op s f g (blends a b xs ys) ST E) as (sz & iz & Ez).
  { destruct xs, ys; try easy. }
  { now apply blends_ok. }
  exists (map (reach s g) (hists [] xs)), (map (reach s g) (hists [] ys)), sx, ix, sy, iy, sz, iz.
  split; [exact Ex|]. split; [exact Ey|]. rewrite Ez. do 5 f_equal.
  destruct X, Y. apply (hists_blends s g a b G xs ys [] []); auto; constructor.
Qed.
Theorem sma_linear s p : (1 <= p)%nat -> linear (SimpleMovingAverage (Z.of_nat p)) s.
Proof. intros Hp. apply (linear_from _ s (sma p) (rsma p)); [now apply sma_streams|intros; now apply sma_eq|apply rsma_linear]. Qed.
Theorem ema_linear s p : (1 <= p)%nat -> linear (ExponentialMovingAverage (Z.of_nat p)) s.
Proof. intros Hp. apply (linear_from _ s (ema p) (rema p)); [now apply ema_streams|intros; now apply ema_eq|apply rema_linear]. Qed.
Theorem rma_linear s p : (1 <= p)%nat -> linear (RollingMovingAverage (Z.of_nat p)) s.
Proof. intros Hp. apply (linear_from _ s (rma p) (rrma p)); [now apply rma_streams|intros; now apply rma_eq|apply rrma_linear]. Qed.
Definition rmomentum (p : nat) (h : list R) : R := if (length h <=? p)%nat then 0 else nth 0 h 0 - nth p h 0.
Theorem momentum_linear s p : (1 <= p)%nat -> linear (Momentum (Z.of_nat p)) s.
Proof.
  intros Hp. apply (linear_from _ s (momentum p) (rmomentum p)); [now apply momentum_streams|..].
  - intros l. unfold momentum, rmomentum. rewrite map_length. destruct (length l <=? p)%nat; [reflexivity|].
    unfold now, ago. change (@f0 ER) with (Fin 0). rewrite !(map_nth Fin). reflexivity.
  - intros a b x y E. unfold rmomentum. rewrite blend_length by exact E. rewrite <- E. destruct (length x <=? p)%nat; [lra|].
    rewrite !nth_blend by exact E. lra.
Qed.
Theorem crossover_linear s slow fast : (1 <= slow)%nat -> (1 <= fast)%nat -> linear (SimpleMovingAverageCrossover (Z.of_nat slow) (Z.of_nat fast)) s.
Proof.
  intros Hs Hf. eapply (linear_from _ s _ (fun h => (if (length h <? slow)%nat then 0 else rsma fast h) - rsma slow h)); [now apply crossover_streams|..].
  - intros l. change (e_sub (if (length (map Fin l) <? slow)%nat then Fin 0 else sma fast (map Fin l)) (sma slow (map Fin l)) =
      Fin ((if (length l <? slow)%nat then 0 else rsma fast l) - rsma slow l)).
    rewrite map_length, (sma_eq slow), (sma_eq fast) by assumption. destruct (length l <? slow)%nat; reflexivity.
  - intros a b x y E. rewrite blend_length by exact E. rewrite <- E, !rsma_linear by exact E. destruct (length x <? slow)%nat; lra.
Qed.
Theorem lag_linear s p : (1 <= p)%nat -> linear (Lag (Z.of_nat p)) s.
Proof.
  intros Hp. apply (linear_from _ s (fun h => nth p h (Fin 0)) (fun h => nth p h 0)).
  - destruct (@lag_streams ER F32 s p Hp) as (st & H1 & H2). exists st.
    assert (Q : forall h xs, @shaped ext s h -> @shaped ext s (rev xs) -> map (@each ER _ s (fun h => nth p h (Fin 0))) (hists h xs) =
       map (fun h => nth p h (repeat (Fin 0) (prod s))) (hists h xs)).
    { intros h xs. revert h. induction xs as [|x xs IH]; intros h Sh Sx; [reflexivity|]. cbn [hists map]. cbn [rev] in Sx.
      apply Forall_app in Sx as [Sx Sx']. inversion Sx'; subst. assert (Sh' : shaped s (x :: h)) by (constructor; assumption). f_equal.
      - apply (nth_ext _ _ (Fin 0) (Fin 0)).
        + rewrite each_length. destruct (nth_in_or_default p (x :: h) (repeat (Fin 0) (prod s))) as [I| ->]; [|now rewrite repeat_length].
          unfold shaped in Sh'. rewrite Forall_forall in Sh'. symmetry. now apply Sh'.
        + intros j Hj. rewrite each_length in Hj. rewrite each_nth by exact Hj. unfold column.
          change (@f0 ER) with (Fin 0). destruct (Nat.lt_ge_cases p (length (x :: h))) as [L|L].
          * rewrite (nth_indep _ _ ((fun r => nth j r (Fin 0)) [])) by (rewrite map_length; exact L).
            rewrite (map_nth (fun r => nth j r (Fin 0))). f_equal. now apply nth_indep.
          * rewrite (nth_overflow (map (fun r => nth j r (Fin 0)) (x :: h))) by (rewrite map_length; exact L).
            rewrite (nth_overflow (x :: h)) by exact L. symmetry. apply nth_repeat.
      - now apply IH. }
    split.
    + intros xs NE [OK _]. rewrite (H1 xs NE OK : call _ (tensors s xs) None true = _). f_equal. f_equal. f_equal.
      unfold tensors, series_of. cbn [mkD]. f_equal. f_equal; [now rewrite !map_length|]. f_equal. f_equal. symmetry. apply Q; [constructor|exact OK].
    + intros h xs NE [OK _]. rewrite (H2 h xs NE OK : call _ (tensors s xs) _ true = _). f_equal. f_equal. f_equal.
      apply Forall_app in OK as [O1 O2].
      unfold tensors, series_of. cbn [mkD]. f_equal. f_equal; [now rewrite !map_length|]. f_equal. f_equal. symmetry. now apply Q.
  - intros l. apply (map_nth Fin).
  - intros a b x y E. now apply nth_blend.
Qed.

(** ** Shifting *)
Definition shifting (p : nat) (g : list R -> R) : Prop :=
  forall c h, (p <= length h)%nat -> g (map (fun x => x + c) h) = g h + c.
Lemma firstn_map_comm {A B} (f : A -> B) k l : firstn k (map f l) = map f (firstn k l).
Proof. apply firstn_map. Qed.
Lemma rsma_shift p : (1 <= p)%nat -> shifting p (rsma p).
Proof.
  intros Hp c h L. unfold rsma. rewrite map_length. destruct (Nat.ltb_spec (length h) p); [lia|].
  rewrite firstn_map. apply rmean_shift. apply firstn_ne; lia.
Qed.
Lemma rema_shift p : (1 <= p)%nat -> shifting p (rema p).
Proof.
  intros Hp c h. induction h as [|x h IH]; intros L; [cbn in L; lia|]. cbn [map rema].
  change (x + c :: map (fun x => x + c) h) with (map (fun x => x + c) (x :: h)). rewrite map_length.
  destruct (Nat.leb_spec (length (x :: h)) p) as [K|K]; [apply rsma_shift; [exact Hp|exact L]|].
  rewrite IH by (cbn in K; lia). ring.
Qed.
Lemma rrma_shift p : (1 <= p)%nat -> shifting p (rrma p).
Proof.
  intros Hp c h. induction h as [|x h IH]; intros L; [cbn in L; lia|]. cbn [map rrma].
  change (x + c :: map (fun x => x + c) h) with (map (fun x => x + c) (x :: h)). rewrite map_length.
  destruct (Nat.leb_spec (length (x :: h)) p) as [K|K]; [apply rsma_shift; [exact Hp|exact L]|].
  rewrite IH by (cbn in K; lia). assert (1 <= INR p) by (apply (le_INR 1 p); lia). field. lra.
Qed.
Lemma reach_nth s g h j : (j < prod s)%nat -> nth j (reach s g h) 0 = g (map (fun r => nth j r 0) h).
Proof.
  intros H. unfold reach. rewrite (nth_indep _ 0 ((fun j => g (map (fun r => nth j r 0) h)) O)) by (rewrite map_length, seq_length; exact H).
  rewrite (map_nth (fun j => g (map (fun r => nth j r 0) h))), seq_nth by exact H. reflexivity.
Qed.
Lemma reach_number s g xs j n : (n < length xs)%nat -> (j < prod s)%nat ->
  rnumber (map (reach s g) (hists [] xs)) j n = g (upto n (rnumbers xs j)).
Proof.
  intros Hn Hj. unfold rnumber. rewrite nth_map_hists by exact Hn. rewrite reach_nth by exact Hj. f_equal.
  unfold upto, rnumbers. now rewrite map_rev, firstn_map.
Qed.
Lemma rnumbers_plus s c xs j : (j < prod s)%nat -> Forall (fun r => length r = prod s) xs ->
  rnumbers (plus c xs) j = map (fun x => x + c) (rnumbers xs j).
Proof.
  intros Hj H. unfold rnumbers, plus. rewrite !map_map. apply map_ext_in. intros r Hr. rewrite Forall_forall in H.
  rewrite (nth_indep _ 0 ((fun x => x + c) 0)) by (rewrite map_length, (H r Hr); exact Hj). apply (map_nth (fun x => x + c)).
Qed.
Lemma plus_ok s c xs : rshaped s xs -> rshaped s (plus c xs).
Proof.
  intros [H1 H2]. split; [|unfold short in *; unfold plus; now rewrite map_length].
  unfold plus. apply Forall_map. eapply Forall_impl; [|exact H1]. intros r Hr. now rewrite map_length.
Qed.
Lemma upto_map {A B} (f : A -> B) n l : upto n (map f l) = map f (upto n l).
Proof. unfold upto. now rewrite firstn_map, map_rev. Qed.
Theorem shift_from (op : @operator ER) s f g p :
  @streams ER _ op (ok_rows s) (tensors s) (fun hs => tensors s (map (each s f) hs)) ->
  (forall l, f (map Fin l) = Fin (g l)) -> shifting p g -> shifts_along op s p.
Proof.
  intros ST E G c xs NE X. destruct (stream_fins op s f g xs ST E NE X) as (sx & ix & Ex).
  destruct (stream_fins op s f g (plus c xs) ST E) as (sy & iy & Ey); [now destruct xs|now apply plus_ok|].
  assert (L : length (plus c xs) = length xs) by apply map_length.
  eexists _, _, sx, ix, sy, iy. split; [exact Ex|]. split; [exact Ey|]. rewrite !map_length, !hists_length. split; [reflexivity|]. split; [exact L|].
  intros n j Hn Hp Hj. rewrite !reach_number; auto; [|now rewrite L]. destruct X as [X _]. rewrite (rnumbers_plus s c xs j Hj X), upto_map. apply G.
  rewrite upto_length by (now rewrite rnumbers_length). lia.
Qed.
Theorem averages_shift s p : (1 <= p)%nat ->
  shifts_along (SimpleMovingAverage (Z.of_nat p)) s p /\ shifts_along (ExponentialMovingAverage (Z.of_nat p)) s p /\
  shifts_along (RollingMovingAverage (Z.of_nat p)) s p.
Proof.
  intros Hp. split; [|split].
  - apply (shift_from _ s (sma p) (rsma p)); [now apply sma_streams|intros; now apply sma_eq|now apply rsma_shift].
  - apply (shift_from _ s (ema p) (rema p)); [now apply ema_streams|intros; now apply ema_eq|now apply rema_shift].
  - apply (shift_from _ s (rma p) (rrma p)); [now apply rma_streams|intros; now apply rma_eq|now apply rrma_shift].
Qed.

(** ** Fading memory *)
Lemma rema_fade p c h h' : (1 <= p)%nat -> (p <= length h)%nat -> (p <= length h')%nat ->
  rema p (c ++ h) - rema p (c ++ h') = ((INR p - 1) / (INR p + 1)) ^ length c * (rema p h - rema p h').
Proof.
  intros Hp L L'. assert (1 <= INR p) by (apply (le_INR 1 p); lia). induction c as [|x c IH]; [cbn; lra|].
  cbn [app rema]. cbn [length]. rewrite !app_length.
  destruct (Nat.leb_spec (S (length c + length h)) p); [lia|]. destruct (Nat.leb_spec (S (length c + length h')) p); [lia|].
  cbn [pow]. rewrite Rmult_assoc, <- IH. field. lra.
Qed.
Lemma rrma_fade p c h h' : (1 <= p)%nat -> (p <= length h)%nat -> (p <= length h')%nat ->
  rrma p (c ++ h) - rrma p (c ++ h') = ((INR p - 1) / INR p) ^ length c * (rrma p h - rrma p h').
Proof.
  intros Hp L L'. assert (1 <= INR p) by (apply (le_INR 1 p); lia). induction c as [|x c IH]; [cbn; lra|].
  cbn [app rrma]. cbn [length]. rewrite !app_length.
  destruct (Nat.leb_spec (S (length c + length h)) p); [lia|]. destruct (Nat.leb_spec (S (length c + length h')) p); [lia|].
  cbn [pow]. rewrite Rmult_assoc, <- IH. field. lra.
Qed.
Lemma rnumbers_app xs ys j : rnumbers (xs ++ ys) j = rnumbers xs j ++ rnumbers ys j.
Proof. apply map_app. Qed.
Lemma fade_from (op : @operator ER) s f g p q :
  @streams ER _ op (ok_rows s) (tensors s) (fun hs => tensors s (map (each s f) hs)) ->
  (forall l, f (map Fin l) = Fin (g l)) ->
  (forall c h h', (p <= length h)%nat -> (p <= length h')%nat -> g (c ++ h) - g (c ++ h') = q ^ length c * (g h - g h')) ->
  (1 <= p)%nat -> forall xs ys zs, (p <= length xs)%nat -> (p <= length ys)%nat -> rshaped s (xs ++ zs) -> rshaped s (ys ++ zs) ->
  exists o o' sx ix sy iy,
    call op (tensors s (fins (xs ++ zs))) None true = Ok (tensors s (fins o), sx, ix) /\
    call op (tensors s (fins (ys ++ zs))) None true = Ok (tensors s (fins o'), sy, iy) /\
    length o = length (xs ++ zs) /\ length o' = length (ys ++ zs) /\
    forall n j, (n < length zs)%nat -> (j < prod s)%nat ->
      rnumber o j (length xs + n) - rnumber o' j (length ys + n) =
        q ^ (n + 1) * (rnumber o j (length xs - 1) - rnumber o' j (length ys - 1)).
Proof.
  intros ST E G Hp xs ys zs Lx Ly X Y.
  assert (NX : xs ++ zs <> []) by (destruct xs; [cbn in Lx; lia|discriminate]).
  assert (NY : ys ++ zs <> []) by (destruct ys; [cbn in Ly; lia|discriminate]).
  destruct (stream_fins op s f g _ ST E NX X) as (sx & ix & Ex). destruct (stream_fins op s f g _ ST E NY Y) as (sy & iy & Ey).
  eexists _, _, sx, ix, sy, iy. split; [exact Ex|]. split; [exact Ey|]. rewrite !map_length, !hists_length. split; [reflexivity|]. split; [reflexivity|].
  intros n j Hn Hj. rewrite !reach_number; auto; try (rewrite app_length; lia). rewrite !rnumbers_app.
  rewrite <- (rnumbers_length xs j), <- (rnumbers_length ys j). rewrite !upto_app by (now rewrite rnumbers_length).
  rewrite G by (rewrite rev_length, rnumbers_length; assumption). rewrite upto_length by (now rewrite rnumbers_length).
  rewrite Nat.add_1_r. f_equal.
  assert (U : forall u, (1 <= length u)%nat -> upto (length (rnumbers u j) - 1) (rnumbers u j ++ rnumbers zs j) = rev (rnumbers u j)).
  { intros u Hu. unfold upto. rewrite firstn_app. rewrite firstn_all2 by (rewrite rnumbers_length in *; lia).
    replace (S (length (rnumbers u j) - 1) - length (rnumbers u j))%nat with O by (rewrite rnumbers_length; lia).
    rewrite firstn_O. now rewrite app_nil_r. }
  rewrite !U by lia. reflexivity.
Qed.
Theorem ema_fades s p xs ys zs : (1 <= p)%nat -> (p <= length xs)%nat -> (p <= length ys)%nat -> rshaped s (xs ++ zs) -> rshaped s (ys ++ zs) ->
  exists o o' sx ix sy iy,
    call (@ExponentialMovingAverage ER (Z.of_nat p)) (tensors s (fins (xs ++ zs))) None true = Ok (tensors s (fins o), sx, ix) /\
    call (@ExponentialMovingAverage ER (Z.of_nat p)) (tensors s (fins (ys ++ zs))) None true = Ok (tensors s (fins o'), sy, iy) /\
    length o = length (xs ++ zs) /\ length o' = length (ys ++ zs) /\
    forall n j, (n < length zs)%nat -> (j < prod s)%nat ->
      rnumber o j (length xs + n) - rnumber o' j (length ys + n) =
        ((INR p - 1) / (INR p + 1)) ^ (n + 1) * (rnumber o j (length xs - 1) - rnumber o' j (length ys - 1)).
Proof.
  intros Hp Lx Ly X Y. apply (fade_from _ s (ema p) (rema p) p); auto; [now apply ema_streams|intros; now apply ema_eq|intros; now apply rema_fade].
Qed.
Theorem rma_fades s p xs ys zs : (1 <= p)%nat -> (p <= length xs)%nat -> (p <= length ys)%nat -> rshaped s (xs ++ zs) -> rshaped s (ys ++ zs) ->
  exists o o' sx ix sy iy,
    call (@RollingMovingAverage ER (Z.of_nat p)) (tensors s (fins (xs ++ zs))) None true = Ok (tensors s (fins o), sx, ix) /\
    call (@RollingMovingAverage ER (Z.of_nat p)) (tensors s (fins (ys ++ zs))) None true = Ok (tensors s (fins o'), sy, iy) /\
    length o = length (xs ++ zs) /\ length o' = length (ys ++ zs) /\
    forall n j, (n < length zs)%nat -> (j < prod s)%nat ->
      rnumber o j (length xs + n) - rnumber o' j (length ys + n) =
        ((INR p - 1) / INR p) ^ (n + 1) * (rnumber o j (length xs - 1) - rnumber o' j (length ys - 1)).
Proof.
  intros Hp Lx Ly X Y. apply (fade_from _ s (rma p) (rrma p) p); auto; [now apply rma_streams|intros; now apply rma_eq|intros; now apply rrma_fade].
Qed.
