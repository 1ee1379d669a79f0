(** * RealScale2: linearity of MACD; deviation, bands, correlations and candles under scaling (C53), in exact arithmetic. *)
From Coq Require Import Reals Lra Lia List ZArith Bool.
From Verif Require Import Num Py Tensor Streamable Meta Common Finance Series Formulas Positions
  ImplBasic ImplScalar ImplComp ImplWindow ImplCorr ImplMarket ER RealFacts RealStats RealMarket MovingFacts ReturnFacts StatReal MarketReal
  Linear MemoryFacts RealLinear RealScale.
Import ListNotations.
Local Open Scope R_scope.

(** ** MACD *)
Definition rmacd (slow fast : nat) (h : list R) : R := if (length h <? slow)%nat then 0 else rema fast h - rema slow h.
Definition rmacd_signal (slow fast m : nat) (h : list R) : R :=
  if (length h <? slow)%nat then 0 else rema m (firstn (length h + 1 - slow) (trail (rmacd slow fast) h)).
Definition rmacd_histogram (slow fast m : nat) (h : list R) : R :=
  if (length h + 1 <? slow + m)%nat then 0 else rmacd slow fast h - rmacd_signal slow fast m h.
Lemma trail_fin (f : list ext -> ext) g h : (forall l, f (map Fin l) = Fin (g l)) -> trail f (map Fin h) = map Fin (trail g h).
Proof. intros E. induction h as [|x h IH]; [reflexivity|]. cbn [map trail]. rewrite IH. f_equal. apply (E (x :: h)). Qed.
Lemma macd_eq slow fast h : (1 <= slow)%nat -> (1 <= fast)%nat -> macd slow fast (map Fin h) = Fin (rmacd slow fast h).
Proof.
  intros Hs Hf. unfold macd, rmacd. change (@F ER) with ext. rewrite map_length. destruct (length h <? slow)%nat; [reflexivity|].
  now rewrite !ema_eq.
Qed.
Lemma macd_signal_eq slow fast m h : (1 <= slow)%nat -> (1 <= fast)%nat -> (1 <= m)%nat ->
  macd_signal slow fast m (map Fin h) = Fin (rmacd_signal slow fast m h).
Proof.
  intros Hs Hf Hm. unfold macd_signal, rmacd_signal. change (@F ER) with ext. rewrite map_length. destruct (length h <? slow)%nat; [reflexivity|].
  rewrite (trail_fin (@macd ER slow fast) (rmacd slow fast)) by (intros; now apply macd_eq). rewrite (firstn_map Fin). now apply ema_eq.
Qed.
Lemma macd_histogram_eq slow fast m h : (1 <= slow)%nat -> (1 <= fast)%nat -> (1 <= m)%nat ->
  macd_histogram slow fast m (map Fin h) = Fin (rmacd_histogram slow fast m h).
Proof.
  intros Hs Hf Hm. unfold macd_histogram, rmacd_histogram. change (@F ER) with ext. rewrite map_length.
  destruct (length h + 1 <? slow + m)%nat; [reflexivity|]. now rewrite macd_eq, macd_signal_eq.
Qed.
Lemma trail_blend g a b : linear_fn g -> forall x y, length x = length y -> trail g (blend a b x y) = blend a b (trail g x) (trail g y).
Proof.
  intros L. induction x as [|u x IH]; intros [|v y] E; try discriminate; [reflexivity|].
  change (trail g (blend a b (u :: x) (v :: y))) with (g (blend a b (u :: x) (v :: y)) :: trail g (blend a b x y)).
  rewrite L by exact E. rewrite IH by (cbn in E; lia). reflexivity.
Qed.
Lemma trail_length {X Y} (g : list X -> Y) h : length (trail g h) = length h.
Proof. induction h as [|x h IH]; [reflexivity|]. cbn. now rewrite IH. Qed.
Lemma rmacd_linear slow fast : linear_fn (rmacd slow fast).
Proof.
  intros a b x y E. unfold rmacd. rewrite blend_length by exact E. rewrite <- E. destruct (length x <? slow)%nat; [lra|].
  rewrite (rema_linear fast), (rema_linear slow) by exact E. ring.
Qed.
Lemma rmacd_signal_linear slow fast m : linear_fn (rmacd_signal slow fast m).
Proof.
  intros a b x y E. unfold rmacd_signal. rewrite blend_length by exact E. rewrite <- E. destruct (length x <? slow)%nat; [lra|].
  rewrite trail_blend by (exact E || apply rmacd_linear). rewrite blend_firstn. apply rema_linear. rewrite !firstn_length, !trail_length. lia.
Qed.
Lemma rmacd_histogram_linear slow fast m : linear_fn (rmacd_histogram slow fast m).
Proof.
  intros a b x y E. unfold rmacd_histogram. rewrite blend_length by exact E. rewrite <- E. destruct (length x + 1 <? slow + m)%nat; [lra|].
  rewrite (rmacd_linear slow fast), (rmacd_signal_linear slow fast m) by exact E. ring.
Qed.
Definition known (f : list ext -> ext) (g : list R -> R) : Prop := forall l, f (map Fin l) = Fin (g l).
Lemma each_stream s f g xs : known f g -> map (@each ER _ s f) (hists [] (fins xs)) = fins (map (reach s g) (hists [] xs)).
Proof.
  intros E. rewrite (hists_fins xs [] : hists [] (fins xs) = _). unfold fins at 2. rewrite !map_map. apply map_ext. intros h. now apply each_fin.
Qed.
Lemma each_streams s fs gs xs : Forall2 known fs gs ->
  map (fun f => @tensors ER s (map (@each ER _ s f) (hists [] (fins xs)))) fs =
  map (fun o => tensors s (fins o)) (map (fun g => map (reach s g) (hists [] xs)) gs).
Proof. induction 1 as [|f g fs gs K _ IH]; [reflexivity|]. cbn [map]. rewrite IH. f_equal. f_equal. now apply each_stream. Qed.
Theorem linear_all_from (op : @operator ER) s fs gs :
  @streams ER _ op (ok_rows s) (tensors s) (fun hs => Tup (map (fun f => tensors s (map (each s f) hs)) fs)) ->
  Forall2 known fs gs -> Forall linear_fn gs -> linear_all op s.
Proof.
  intros (st & H & _) K L a b xs ys NE E OX OY.
  exists (map (fun g => map (reach s g) (hists [] xs)) gs), (map (fun g => map (reach s g) (hists [] ys)) gs).
  do 6 eexists. split; [now rewrite !map_length|].
  assert (NY : ys <> []) by (destruct xs, ys; easy).
  assert (NB : blends a b xs ys <> []) by (destruct xs, ys; easy).
  split; [|split].
  - rewrite (H (fins xs) (fins_ne xs NE) (fins_ok s xs OX)). exact (f_equal (fun z => Ok (Tup z, _, _)) (each_streams s fs gs xs K)).
  - rewrite (H (fins ys) (fins_ne ys NY) (fins_ok s ys OY)). exact (f_equal (fun z => Ok (Tup z, _, _)) (each_streams s fs gs ys K)).
  - rewrite (H (fins (blends a b xs ys)) (fins_ne _ NB) (fins_ok s _ (blends_ok s a b xs ys E OX OY))). 
    refine (eq_trans (f_equal (fun z => Ok (Tup z, _, _)) (each_streams s fs gs _ K)) _). unfold series_list. f_equal. f_equal. f_equal. f_equal. f_equal.
    destruct OX as [OX _], OY as [OY _]. clear - L E OX OY. induction L as [|g gs Lg _ IH]; [reflexivity|]. cbn [map combine fst snd].
    rewrite IH. f_equal. apply (hists_blends s g a b Lg xs ys [] []); auto.
Qed.
Theorem macd_linear s slow fast m : (1 <= slow)%nat -> (1 <= fast)%nat -> (1 <= m)%nat ->
  linear_all (MovingAverageConvergenceDivergence (Z.of_nat slow) (Z.of_nat fast) (Z.of_nat m)) s.
Proof.
  intros Hs Hf Hm.
  apply (linear_all_from _ s [ema slow; ema fast; macd slow fast; macd_signal slow fast m; macd_histogram slow fast m]
           [rema slow; rema fast; rmacd slow fast; rmacd_signal slow fast m; rmacd_histogram slow fast m]).
  - exact (@macd_streams ER s slow fast m Hs Hf Hm).
  - constructor; [intros l; now apply ema_eq|]. constructor; [intros l; now apply ema_eq|]. constructor; [intros l; now apply macd_eq|].
    constructor; [intros l; now apply macd_signal_eq|]. constructor; [intros l; now apply macd_histogram_eq|]. constructor.
  - constructor; [apply rema_linear|]. constructor; [apply rema_linear|]. constructor; [apply rmacd_linear|].
    constructor; [apply rmacd_signal_linear|]. constructor; [apply rmacd_histogram_linear|]. constructor.
Qed.

(** ** Deviation and bands *)
Definition rmsd (p : nat) (h : list R) : R := if (length h <? p)%nat then 0 else sqrt (rvar (firstn p h)).
Lemma firstn_ne' {X} p (h : list X) : (1 <= p)%nat -> (p <= length h)%nat -> firstn p h <> [].
Proof. destruct p, h; cbn; easy || lia. Qed.
Lemma msd_eq p h : (1 <= p)%nat -> msd p (map Fin h) = Fin (rmsd p h).
Proof.
  intros Hp. unfold msd, rmsd. change (@F ER) with ext. rewrite map_length. destruct (Nat.ltb_spec (length h) p); [reflexivity|].
  rewrite (firstn_map Fin). apply sqrt_fvar. now apply firstn_ne'.
Qed.
Lemma rmsd_affine p a c h : (1 <= p)%nat -> rmsd p (map (affine a c) h) = Rabs a * rmsd p h.
Proof.
  intros Hp. unfold rmsd. rewrite map_length. destruct (Nat.ltb_spec (length h) p); [ring|].
  rewrite firstn_map. apply sqrt_var_affine. now apply firstn_ne'.
Qed.
Lemma rshaped_map s T xs : rshaped s xs -> rshaped s (map (map T) xs).
Proof.
  intros [H1 H2]. split; [|unfold short in *; now rewrite map_length].
  apply Forall_map. revert H1. apply Forall_impl. intros r H. now rewrite map_length.
Qed.
Lemma reach_map s g g' (T : R -> R) U h : (forall l, g (map T l) = U (g' l)) -> Forall (fun r => length r = prod s) h ->
  reach s g (map (map T) h) = map U (reach s g' h).
Proof.
  intros E H. unfold reach. rewrite map_map. apply map_ext_in. intros j Hj. apply in_seq in Hj. rewrite <- E. f_equal.
  rewrite !map_map. apply map_ext_in. intros r Hr. rewrite Forall_forall in H. specialize (H r Hr).
  rewrite (nth_indep _ 0 (T 0)) by (rewrite map_length; lia). apply map_nth.
Qed.
Lemma hists_in {X} (xs : list X) : forall h l x, In l (hists h xs) -> In x l -> In x xs \/ In x h.
Proof.
  induction xs as [|y xs IH]; intros h l x I J; [easy|]. cbn [hists] in I. destruct I as [<-|I].
  - destruct J as [<-|J]; [left; now left|now right].
  - destruct (IH _ _ _ I J) as [K|[<-|K]]; [left; now right|left; now left|now right].
Qed.
Lemma reach_hists s g g' T U xs : (forall l, g (map T l) = U (g' l)) -> rshaped s xs ->
  map (reach s g) (hists [] (map (map T) xs)) = map (map U) (map (reach s g') (hists [] xs)).
Proof.
  intros E [H _]. change (@nil (list R)) with (map (map T) []) at 1. rewrite hists_map, !map_map. apply map_ext_in. intros h I.
  apply reach_map; [exact E|]. apply Forall_forall. intros r J. destruct (hists_in xs [] h r I J) as [K|[]]. rewrite Forall_forall in H. auto.
Qed.
Theorem msd_affine s p a c xs : (1 <= p)%nat -> xs <> [] -> rshaped s xs ->
  exists o sx ix sy iy,
    call (MovingStandardDeviation (Z.of_nat p)) (tensors s (fins xs)) None true = Ok (tensors s (fins o), sx, ix) /\
    call (MovingStandardDeviation (Z.of_nat p)) (tensors s (fins (map (map (affine a c)) xs))) None true =
      Ok (tensors s (fins (map (map (fun x => Rabs a * x)) o)), sy, iy).
Proof.
  intros Hp NE OK. pose proof (fun xs => stream_fins _ s (msd p) (rmsd p) xs (@msd_streams ER s p Hp) (fun l => msd_eq p l Hp)) as ST.
  destruct (ST xs NE OK) as (sx & ix & E). destruct (ST (map (map (affine a c)) xs)) as (sy & iy & E'); [now destruct xs|now apply rshaped_map|].
  exists (map (reach s (rmsd p)) (hists [] xs)), sx, ix, sy, iy. split; [exact E|]. rewrite E'. f_equal. f_equal. f_equal. f_equal. f_equal.
  apply reach_hists; [|exact OK]. intros l. now apply rmsd_affine.
Qed.
Lemma num_fin k : exists r, @num ER k = Fin r.
Proof. destruct k as [z|d]; cbn; eauto. Qed.
Theorem bollinger_scale s p k a xs : (1 <= p)%nat -> 0 <= a -> xs <> [] -> rshaped s xs ->
  exists os sx ix sy iy,
    call (BollingerBands (Z.of_nat p) k) (tensors s (fins xs)) None true = Ok (series_list s os, sx, ix) /\
    call (BollingerBands (Z.of_nat p) k) (tensors s (fins (times a xs))) None true = Ok (series_list s (map (times a) os), sy, iy).
Proof.
  intros Hp A NE OK. destruct (num_fin k) as (w & W). destruct (@bollinger_streams ER s p k Hp) as (st & H & _).
  pose (gs := [fun c => rsma p c - rmsd p c * w; rsma p; fun c => rsma p c + rmsd p c * w]).
  pose (fs := [fun c => @fsub ER (sma p c) (fmul (msd p c) (num k)); sma p; fun c => @fadd ER (sma p c) (fmul (msd p c) (num k))]).
  assert (K : Forall2 known fs gs).
  { constructor; [|constructor; [|constructor; [|constructor]]]; intros l; cbv beta; rewrite ?W, ?msd_eq, ?sma_eq by exact Hp; reflexivity. }
  exists (map (fun g => map (reach s g) (hists [] xs)) gs). do 4 eexists. split.
  - rewrite (H (fins xs) (fins_ne xs NE) (fins_ok s xs OK)). exact (f_equal (fun z => Ok (Tup z, _, _)) (each_streams s fs gs xs K)).
  - assert (NB : times a xs <> []) by (destruct xs; easy).
    rewrite (H (fins (times a xs)) (fins_ne _ NB) (fins_ok s _ (rshaped_map s _ xs OK))). 
    assert (G : forall l, map (fun x => a * x) l = map (affine a 0) l) by (intros l; apply map_ext; intros; unfold affine; ring).
    assert (L : Forall (fun g => forall l, g (map (fun x => a * x) l) = a * g l) gs).
    { assert (S1 : forall l, rsma p (map (fun x => a * x) l) = a * rsma p l).
      { intros l. pose proof (rsma_linear p a 0 l l eq_refl) as Q. unfold blend in Q. rewrite combine_same, map_map in Q. cbn [fst snd] in Q.
        rewrite (map_ext _ (fun x => a * x)) in Q by (intros; ring). rewrite Q. ring. }
      assert (S2 : forall l, rmsd p (map (fun x => a * x) l) = a * rmsd p l).
      { intros l. rewrite G, rmsd_affine by exact Hp. now rewrite Rabs_pos_eq by exact A. }
      constructor; [|constructor; [|constructor; [|constructor]]]; intros l; cbv beta; rewrite ?S1, ?S2; ring. }
    transitivity (Ok (@Tup (@tensor ER) (map (fun o => @tensors ER s (fins o)) (map (fun g => map (reach s g) (hists [] (times a xs))) gs)), st (rev (fins (times a xs))), st [])).
    { exact (f_equal (fun z => Ok (Tup z, _, _)) (each_streams s fs gs _ K)). }
    unfold series_list.
    f_equal. f_equal. f_equal. f_equal. f_equal. clear - L OK. rewrite !map_map. induction L as [|g gs Lg _ IH]; [reflexivity|]. cbn [map].
    rewrite IH. f_equal. apply (reach_hists s g g (fun x => a * x) (fun x => a * x)); [exact Lg|exact OK].
Qed.

(** ** Correlations *)
Lemma rcov_affine a b c d u v : u <> [] -> length u = length v ->
  rcov (map (affine a c) u) (map (affine b d) v) = a * b * rcov u v.
Proof.
  intros H L. assert (V : v <> []) by (intros ->; destruct u; [easy|discriminate]).
  unfold rcov. rewrite !rmean_affine by assumption. rewrite combine_map_both, map_map. rewrite <- rmean_scale. f_equal. rewrite ?map_map. apply map_ext.
  intros [x y]. cbn. unfold affine. ring.
Qed.
Lemma corr_affine a b c d u v : 0 < a * b -> u <> [] -> length u = length v ->
  corr_of (map Fin (map (affine a c) u)) (map Fin (map (affine b d) v)) = corr_of (map Fin u) (map Fin v).
Proof.
  intros P H L. assert (V : v <> []) by (intros ->; destruct u; [easy|discriminate]).
  assert (H' : map (affine a c) u <> []) by (destruct u; easy). assert (V' : map (affine b d) v <> []) by (destruct v; easy).
  unfold corr_of. rewrite !covariance_fin by (rewrite ?map_length; assumption). rewrite !sqrt_fvar by assumption.
  rewrite rcov_affine, !sqrt_var_affine by assumption. cbn [fdiv fmul ER e_mul].
  replace (Rabs a * sqrt (rvar u) * (Rabs b * sqrt (rvar v))) with (a * b * (sqrt (rvar u) * sqrt (rvar v))).
  - now apply e_div_scale.
  - rewrite <- (Rabs_pos_eq (a * b)) by lra. rewrite Rabs_mult. ring.
Qed.
Definition pair_affine (a c b d : R) (x : R * R) : R * R := (affine a c (fst x), affine b d (snd x)).
Lemma correlation_affine p a c b d (h : list (R * R)) : (1 <= p)%nat -> 0 < a * b ->
  correlation p (map fin_pair (map (pair_affine a c b d) h)) = correlation p (map fin_pair h).
Proof.
  intros Hp P. unfold correlation. change (@F ER) with ext. rewrite !map_length. destruct (Nat.leb_spec (length h) p) as [|L]; [reflexivity|].
  rewrite !map_map. cbn [fin_pair pair_affine fst snd].
  rewrite <- (map_map (fun x : R * R => affine a c (fst x)) Fin), <- (map_map (fun x : R * R => affine b d (snd x)) Fin).
  rewrite <- (map_map fst Fin), <- (map_map snd Fin), <- (map_map fst (affine a c)), <- (map_map snd (affine b d)).
  rewrite !(firstn_map Fin), !(firstn_map (affine _ _)). apply corr_affine; [exact P|..].
  - apply firstn_ne'; [exact Hp|rewrite map_length; lia].
  - now rewrite !firstn_length, !map_length.
Qed.
Lemma delayed_map {X Y} (f g : X -> Y) l (h : list (X * X)) :
  combine (map fst (map (fun x => (f (fst x), g (snd x))) h)) (skipn l (map snd (map (fun x => (f (fst x), g (snd x))) h))) =
  map (fun x => (f (fst x), g (snd x))) (combine (map fst h) (skipn l (map snd h))).
Proof.
  rewrite !map_map. cbn [fst snd]. rewrite <- (map_map fst f), <- (map_map snd g).
  rewrite skipn_map. apply combine_map_both.
Qed.
Lemma delayed_fin l h : @delayed ER l (map fin_pair h) = map fin_pair (combine (map fst h) (skipn l (map snd h))).
Proof. exact (delayed_map Fin Fin l h). Qed.
Lemma delayed_pair l a c b d (h : list (R * R)) : combine (map fst (map (pair_affine a c b d) h)) (skipn l (map snd (map (pair_affine a c b d) h))) =
  map (pair_affine a c b d) (combine (map fst h) (skipn l (map snd h))).
Proof. exact (delayed_map (affine a c) (affine b d) l h). Qed.
Lemma cross_affine p l a c b d (h : list (R * R)) : (1 <= p)%nat -> 0 < a * b ->
  cross_correlation p l (map fin_pair (map (pair_affine a c b d) h)) = cross_correlation p l (map fin_pair h).
Proof.
  intros Hp P. unfold cross_correlation. change (@F ER) with ext. rewrite !map_length. destruct (length h <=? l + p)%nat; [reflexivity|].
  rewrite !delayed_fin, delayed_pair. apply (correlation_affine p a c b d _ Hp P).
Qed.
Definition row_affine (a c b d : R) (x : list R * list R) : list R * list R := (map (affine a c) (fst x), map (affine b d) (snd x)).
Lemma column2_row j a c b d s (h : list (list R * list R)) : (j < prod s)%nat ->
  Forall (fun r => length (fst r) = prod s /\ length (snd r) = prod s) h ->
  column2 (Fin 0) j (map fin_rows (map (row_affine a c b d) h)) =
  map fin_pair (map (pair_affine a c b d) (map (fun r => (nth j (fst r) 0, nth j (snd r) 0)) h)).
Proof.
  intros Hj H. unfold column2. rewrite !map_map. apply map_ext_in. intros r I. rewrite Forall_forall in H. destruct (H r I) as [L1 L2].
  unfold fin_pair, pair_affine, fin_rows, row_affine. cbn [fst snd]. rewrite !(map_nth Fin).
  rewrite (nth_indep (map (affine a c) (fst r)) 0 (affine a c 0)) by (rewrite map_length; lia).
  rewrite (nth_indep (map (affine b d) (snd r)) 0 (affine b d 0)) by (rewrite map_length; lia). now rewrite !map_nth.
Qed.
Lemma column2_fin j (h : list (list R * list R)) :
  column2 (Fin 0) j (map fin_rows h) = map fin_pair (map (fun r => (nth j (fst r) 0, nth j (snd r) 0)) h).
Proof. unfold column2. rewrite !map_map. apply map_ext. intros r. unfold fin_pair, fin_rows. cbn [fst snd]. now rewrite !(map_nth Fin). Qed.
Lemma pairs_unaffected (op : @operator ER) s (f : list (ext * ext) -> ext) a c b d :
  @streams ER _ op (two_rows s) (tensor_pairs s) (fun hs => tensors s (map (each2 s f) hs)) ->
  (forall h, f (map fin_pair (map (pair_affine a c b d) h)) = f (map fin_pair h)) ->
  unaffected op (rpairs_ok s) (fun xs => @tensor_pairs ER s (map fin_rows xs)) (row_affine a c b d).
Proof.
  intros (st & H & _) E xs NE [O1 O2].
  assert (OK : forall ys, Forall (fun r => length (fst r) = prod s /\ length (snd r) = prod s) ys -> short ys -> @two_rows ER s (rev (map fin_rows ys))).
  { intros ys Q1 Q2. unfold two_rows, shaped. rewrite Forall_forall in Q1. split; [|split; [|unfold short in *; now rewrite rev_length, map_length]].
    - rewrite map_rev. apply Forall_rev, Forall_map, Forall_map, Forall_forall. intros r I. cbn. rewrite map_length. now apply Q1.
    - rewrite map_rev. apply Forall_rev, Forall_map, Forall_map, Forall_forall. intros r I. cbn. rewrite map_length. now apply Q1. }
  eexists _, _, _, _, _. split; [apply H; [now destruct xs|now apply OK]|].
  rewrite H; [|now destruct xs|apply OK; [|unfold short in *; now rewrite map_length]].
  - f_equal. f_equal. f_equal. f_equal.
    refine (eq_trans (f_equal (map (@each2 ER _ s f)) (hists_map fin_rows (map (row_affine a c b d) xs) []))
             (eq_trans _ (eq_sym (f_equal (map (@each2 ER _ s f)) (hists_map fin_rows xs []))))).
    rewrite (hists_map (row_affine a c b d) xs [] : hists [] (map (row_affine a c b d) xs) = _).
    rewrite !map_map. apply map_ext_in. intros h I. unfold each2. apply map_ext_in. intros j J. apply in_seq in J.
    assert (Q : Forall (fun r => length (fst r) = prod s /\ length (snd r) = prod s) h).
    { apply Forall_forall. intros r K. destruct (hists_in xs [] h r I K) as [M|[]]. rewrite Forall_forall in O1. auto. }
    change (@F ER) with ext. change (@f0 ER) with (Fin 0). rewrite (column2_row j a c b d s h) by (lia || exact Q). rewrite column2_fin. apply E.
  - apply Forall_map. revert O1. apply Forall_impl. intros r [L1 L2]. unfold row_affine. cbn. now rewrite !map_length.
Qed.
Theorem correlations_affine s p l a c b d : (1 <= p)%nat -> (1 <= l)%nat -> 0 < a * b ->
  unaffected (Correlation (Z.of_nat p)) (rpairs_ok s) (fun xs => @tensor_pairs ER s (map fin_rows xs)) (row_affine a c b d) /\
  unaffected (CrossCorrelation (Z.of_nat p) (Z.of_nat l)) (rpairs_ok s) (fun xs => @tensor_pairs ER s (map fin_rows xs)) (row_affine a c b d).
Proof.
  intros Hp Hl P. split.
  - apply (pairs_unaffected _ s (@correlation ER p) a c b d (@corr_streams ER s p Hp)). intros h. now apply correlation_affine.
  - apply (pairs_unaffected _ s (@cross_correlation ER p l) a c b d (@cross_streams ER s p l Hp Hl)). intros h. now apply cross_affine.
Qed.
Theorem auto_affine s p l a c : (1 <= p)%nat -> (1 <= l)%nat -> a <> 0 ->
  unaffected (AutoCorrelation (Z.of_nat p) (Z.of_nat l)) (rshaped s) (fun xs => @tensors ER s (fins xs)) (map (affine a c)).
Proof.
  intros Hp Hl A xs NE OK. destruct (@auto_streams ER s p l Hp Hl) as (st & H & _).
  eexists _, _, _, _, _. split; [apply H; [now apply fins_ne|now apply fins_ok]|].
  rewrite H; [|apply fins_ne; now destruct xs|now apply fins_ok, rshaped_map]. f_equal. f_equal. f_equal. f_equal.
  set (g := fun c0 => @cross_correlation ER p l (map twice c0)).
  refine (eq_trans (f_equal (map (@each ER _ s g)) (hists_fins (map (map (affine a c)) xs) []))
           (eq_trans _ (eq_sym (f_equal (map (@each ER _ s g)) (hists_fins xs []))))). subst g.
  rewrite (hists_map (map (affine a c)) xs [] : hists [] (map (map (affine a c)) xs) = _). rewrite !map_map. apply map_ext_in. intros h I. unfold each. apply map_ext_in. intros j J. apply in_seq in J.
  assert (C : forall h, map twice (column (Fin 0) j (fins h)) = map fin_pair (map (fun r => (nth j r 0, nth j r 0)) h)).
  { intros h'. unfold column, fins. rewrite !map_map. apply map_ext. intros r. unfold twice, fin_pair. cbn [fst snd]. f_equal; exact (map_nth Fin r 0 j). }
  change (@f0 ER) with (Fin 0). change (@F ER) with ext. rewrite !C.
  assert (AA : 0 < a * a) by nra. refine (eq_trans _ (cross_affine p l a c a c _ Hp AA)). f_equal. f_equal. rewrite !map_map. apply map_ext_in. intros r K.
  destruct (hists_in xs [] h r I K) as [M|[]]. destruct OK as [OK _]. rewrite Forall_forall in OK. specialize (OK r M).
  unfold pair_affine. cbn [fst snd]. rewrite (nth_indep (map (affine a c) r) 0 (affine a c 0)) by (rewrite map_length; lia). rewrite (map_nth (affine a c)). reflexivity.
Qed.

(** ** Heikin-Ashi candles *)
Theorem ha_scale a xs : 0 < a -> xs <> [] ->
  exists o sx ix sy iy,
    call HeikinAshi (candles (map cfin xs)) None true = Ok (candles (map cfin o), sx, ix) /\
    call HeikinAshi (candles (map cfin (map (rscale a) xs))) None true = Ok (candles (map cfin (map (rscale a) o)), sy, iy).
Proof.
  intros A NE. destruct (@ha_streams ER) as (st & H & _).
  assert (G : forall h, h <> [] -> exists o, heikin_ashi (map cfin h) = cfin o /\ heikin_ashi (map cfin (map (rscale a) h)) = cfin (rscale a o)).
  { intros [|c h] Q; [easy|].
    assert (Lo : forall h, @last_open ER (map cfin h) = Fin (rlast_open h)) by (intros [|x y]; reflexivity).
    assert (So : rlast_open (map (rscale a) h) = a * rlast_open h) by (destruct h; cbn; [ring|reflexivity]).
    assert (Sc : rlast_close (map (rscale a) h) = a * rlast_close h) by (destruct h; cbn; [ring|reflexivity]).
    destruct (Req_EM_T (rlast_open h) 0) as [Z|Z].
    - exists c. split; cbn [map heikin_ashi]; rewrite Lo; change (@feq ER) with e_eq; change (@f0 ER) with (Fin 0); cbn [e_eq]; unfold Reqb.
      + destruct (Req_EM_T (rlast_open h) 0); [reflexivity|easy].
      + rewrite So, Z, Rmult_0_r. destruct (Req_EM_T 0 0); [reflexivity|lra].
    - destruct (ha_fin h c Z) as (o & hi & lo & cl & -> & E1 & E2 & E3 & E4 & _). exists (RC o hi lo cl). split; [reflexivity|].
      assert (Z' : rlast_open (map (rscale a) h) <> 0) by (rewrite So; intros Q'; apply Rmult_integral in Q'; lra).
      destruct (ha_fin (map (rscale a) h) (rscale a c) Z') as (o' & hi' & lo' & cl' & E & F1 & F2 & F3 & F4 & _).
      cbn [map] in E |- *. rewrite E. unfold rscale in F2, F3, F4. unfold cfin, rscale. cbn [r_open r_high r_low r_close] in *.
      assert (O : o' = a * o) by (rewrite F1, E1, So, Sc; field).
      assert (C : cl' = a * cl) by (rewrite F2, E2; field).
      assert (M1 : forall x y, Rmax (a * x) (a * y) = a * Rmax x y) by (intros; apply RmaxRmult; lra).
      assert (M2 : forall x y, Rmin (a * x) (a * y) = a * Rmin x y).
      { intros x y. unfold Rmin. destruct (Rle_dec (a * x) (a * y)), (Rle_dec x y); try reflexivity; nra. }
      rewrite O, C in F3, F4. rewrite !M1 in F3. rewrite !M2 in F4. rewrite <- E3 in F3. rewrite <- E4 in F4. now rewrite O, C, F3, F4. }
  assert (GG : forall hs, Forall (fun h => h <> []) hs -> exists o, map (@heikin_ashi ER) (map (map cfin) hs) = map cfin o /\
     map (@heikin_ashi ER) (map (map cfin) (map (map (rscale a)) hs)) = map cfin (map (rscale a) o)).
  { induction 1 as [|h hs Q _ (o & E & E')]; [now exists []|]. destruct (G h Q) as (k & K & K'). exists (k :: o). cbn [map]. now rewrite E, E', K, K'. }
  destruct (GG (hists [] xs)) as (o & E & E').
  { clear. assert (Q : forall h : list rcandle, Forall (fun h => h <> []) (hists h xs)); [|apply Q].
    induction xs as [|x xs IH]; intros h; constructor; [discriminate|apply IH]. }
  exists o. do 4 eexists. split; (rewrite H; [|now destruct xs|exact I]).
  - f_equal. f_equal. f_equal. f_equal. rewrite <- E. exact (f_equal (map (@heikin_ashi ER)) (hists_map cfin xs [])).
  - f_equal. f_equal. f_equal. f_equal. rewrite <- E'.
    refine (eq_trans (f_equal (map (@heikin_ashi ER)) (hists_map cfin (map (rscale a) xs) [])) _).
    now rewrite (hists_map (rscale a) xs [] : hists [] (map (rscale a) xs) = _).
Qed.
