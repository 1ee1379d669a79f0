(** * VectorFacts: Lag of Lag, and Map as streaming over all columns at once (C54). *)
From Coq Require Import List ZArith Bool Lia.
From Verif Require Import Num Py PyFacts Tensor TensorFacts EvalFacts Streamable Spec SpecMeta Series Formulas Positions
  Meta Common Finance Library ImplComp ImplBasic ImplCorr ImplSignal StreamFacts StreamProofs ReturnFacts
  Shapes ShapeFacts ShapeProofs ShapeStream ShapeInit ShapeMap ShapeLib ShapeMain Algebra AlgebraFacts.
Import ListNotations.

Section VectorFacts.
Context {N : FOps}.

(** ** The elements of a series *)
Definition cut {A} (w j : nat) (r : list A) : list A := lslice (j * w) w r.
Lemma cut_length {A} w j n (r : list A) : length r = n * w -> j < n -> length (cut w j r) = w.
Proof. intros L H. unfold cut, lslice. rewrite firstn_length, skipn_length. nia. Qed.
Lemma cut_nth {A} (d : A) w j k r : k < w -> nth k (cut w j r) d = nth (j * w + k) r d.
Proof.
  intros H. unfold cut, lslice. rewrite <- nth_skipn'. generalize (skipn (j * w) r). intros l. clear r. revert k l H.
  induction w as [|w IH]; intros k l H; [lia|]. destruct l as [|a l]; [now destruct k|]. destruct k as [|k]; [reflexivity|]. cbn. apply IH. lia.
Qed.
Lemma cut_concat {A} w (rows : list (list A)) : Forall (fun r => length r = w) rows -> map (fun i => cut w i (concat rows)) (seq 0 (length rows)) = rows.
Proof.
  intros H. apply (nth_ext _ _ [] []); [now rewrite map_length, seq_length|]. intros i Hi. rewrite map_length, seq_length in Hi.
  rewrite (nth_indep _ [] (cut w 0 (concat rows))) by now rewrite map_length, seq_length. rewrite (map_nth (fun i => cut w i (concat rows))), seq_nth by exact Hi.
  now apply lslice_concat.
Qed.
Lemma concat_cut {A} w n : forall (l : list A), length l = n * w -> concat (map (fun i => cut w i l) (seq 0 n)) = l.
Proof.
  induction n as [|n IH]; intros l L; [now destruct l|]. cbn [seq map concat]. rewrite <- seq_shift, map_map.
  rewrite (map_ext _ (fun i => cut w i (skipn w l))).
  - rewrite IH by (rewrite skipn_length; cbn in L; lia). unfold cut, lslice. cbn [Nat.mul skipn]. apply firstn_skipn.
  - intros i. unfold cut, lslice. f_equal. rewrite skipn_skipn'. reflexivity.
Qed.
Lemma series_form d s n v : vhas v (wide n (Leaf (s, d))) -> exists xs, v = series_of d s xs /\ length xs = n /\ shaped s xs.
Proof.
  intros V. destruct (vhas_leaf_inv v (n :: s) d V) as (t & -> & W & S' & D). destruct t as [sh' dt]. cbn in S'. subst sh'.
  assert (exists l : list (elt d), dt = mkD d l /\ length l = n * prod s) as (l & -> & L).
  { unfold wf in W. unfold dtype_of in D. cbn in W, D. destruct dt as [l|l|l]; subst d; cbn [elt mkD]; exists l; split; auto. }
  exists (map (fun i => cut (prod s) i l) (seq 0 n)). split; [|split].
  - unfold series_of. rewrite map_length, seq_length. now rewrite concat_cut.
  - now rewrite map_length, seq_length.
  - apply Forall_forall. intros r Hr. apply in_map_iff in Hr as (i & <- & Hi). apply in_seq in Hi. apply (cut_length _ _ n); auto; lia.
Qed.
Lemma series_row d s xs i : shaped s xs -> i < length xs -> row i (series_of d s xs) = Leaf (mkT s (mkD d (nth i xs []))).
Proof.
  intros H Hi. unfold row, series_of. cbn [vmap]. unfold trow. cbn [sh dat tl]. do 2 f_equal. destruct d; cbn [elt mkD dslice] in *; f_equal; now apply lslice_concat.
Qed.
Lemma series_row_row d n s xs i j : shaped (n :: s) xs -> i < length xs -> row j (row i (series_of d (n :: s) xs)) = Leaf (mkT s (mkD d (cut (prod s) j (nth i xs [])))).
Proof. intros H Hi. rewrite (series_row d (n :: s)) by assumption. unfold row. cbn [vmap]. unfold trow. cbn [sh dat tl]. now destruct d. Qed.
(** ** Lag of Lag *)
Lemma shaped_rev {A} s (xs : list (list A)) : shaped s xs -> shaped s (rev xs).
Proof. apply Forall_rev. Qed.
Lemma lag_row d s p (xs : list (list (elt d))) i : i < length xs ->
  nth i (map (fun h => nth p h (repeat (zero_of d) (prod s))) (hists [] xs)) [] = if i <? p then repeat (zero_of d) (prod s) else nth (i - p) xs [].
Proof.
  intros Hi. rewrite nth_map_hists by exact Hi. unfold upto. destruct (Nat.ltb_spec i p) as [H|H].
  - apply nth_overflow. rewrite rev_length, firstn_length. lia.
  - rewrite rev_nth by (rewrite firstn_length; lia). rewrite firstn_length. rewrite (nth_indep _ _ []) by (rewrite firstn_length; lia).
    replace (Nat.min (S i) (length xs) - S p) with (i - p) by lia.
    clear - H Hi. rewrite <- (firstn_skipn (S i) xs) at 2. rewrite app_nth1; [reflexivity|]. rewrite firstn_length. lia.
Qed.
Lemma fits_lag d s p : p >= 1 -> fits (Lag (Z.of_nat p)) (Leaf (s, d)) (Leaf (s, d)).
Proof. intros Hp. split; [discriminate|]. eexists. eapply ws_step; [apply tk_lag; lia|reflexivity]. Qed.
Lemma lag_gives d s p xs : p >= 1 -> xs <> [] -> shaped s xs ->
  gives (Lag (Z.of_nat p)) (series_of d s xs) (series_of d s (map (fun h => nth p h (repeat (zero_of d) (prod s))) (hists [] xs))).
Proof. intros Hp NE H. destruct (lag_streams d s p Hp) as (st & K & _). eexists _, _. apply K; [exact NE|now apply shaped_rev]. Qed.
Lemma lag_shaped d s p (xs : list (list (elt d))) : shaped s xs -> shaped s (map (fun h => nth p h (repeat (zero_of d) (prod s))) (hists [] xs)).
Proof.
  intros H. apply Forall_forall. intros r Hr. apply (In_nth _ _ []) in Hr as (i & Hi & <-). rewrite map_length, Positions.hists_length in Hi. rewrite lag_row by exact Hi.
  destruct (Nat.ltb_spec i p); [apply repeat_length|]. unfold shaped in H. rewrite Forall_forall in H. apply H, nth_In. lia.
Qed.
Theorem lag_lag d s p q : p >= 1 -> q >= 1 -> agree (Compose [Lag (Z.of_nat p); Lag (Z.of_nat q)]) (Lag (Z.of_nat (p + q))) (Leaf (s, d)).
Proof.
  intros Hp Hq n v Hn G E. assert (V : vhas v (wide n (Leaf (s, d)))) by now split. destruct (series_form d s n v V) as (xs & Ev & L & H).
  assert (NE : xs <> []) by (intros ->; cbn in L; lia).
  exists (series_of d s (map (fun h => nth (p + q) h (repeat (zero_of d) (prod s))) (hists [] xs))). split; [|subst v; apply lag_gives; auto; lia].
  apply (compose_turn [Lag (Z.of_nat q); Lag (Z.of_nat p)] (Leaf (s, d)) (Leaf (s, d)) n v); auto.
  - apply (fit_next _ [_] _ (Leaf (s, d))); [now apply fits_lag|constructor; now apply fits_lag].
  - subst v. pose proof (lag_shaped d s q xs H) as H1. pose proof (lag_gives d s q xs Hq NE H) as G1.
    set (ys := map (fun h => nth q h (repeat (zero_of d) (prod s))) (hists [] xs)) in *.
    assert (Ly : length ys = length xs) by (unfold ys; now rewrite map_length, Positions.hists_length).
    assert (NY : ys <> []) by (intros K; rewrite K in Ly; cbn in Ly; destruct xs; [easy|discriminate]).
    econstructor; [exact G1|]. constructor. pose proof (lag_gives d s p ys Hp NY H1) as G2.
    match type of G2 with gives _ _ (series_of _ _ ?a) => match goal with |- gives _ _ (series_of _ _ ?b) => replace b with a; [exact G2|] end end.
    apply (nth_ext _ _ [] []); [now rewrite !map_length, !Positions.hists_length|]. intros i Hi. rewrite map_length, Positions.hists_length in Hi.
    rewrite !lag_row by lia. destruct (Nat.ltb_spec i p), (Nat.ltb_spec i (p + q)); try lia; try reflexivity; unfold ys; rewrite lag_row by lia.
    + destruct (Nat.ltb_spec (i - p) q); [reflexivity|lia].
    + destruct (Nat.ltb_spec (i - p) q); [lia|]. f_equal. lia.
Qed.
(** ** Map as streaming over all columns *)
(** Outputs computed element by element from the history of one element. *)
Definition fn_of (Y : Type) : Type := {d : dtype & list Y -> elt d}.
Definition fn_at {Y} (q : fn_of Y) : list Y -> elt (projT1 q) := projT2 q.
Definition outputs {X Y} (pick : nat -> X -> Y) (Z : pyval (fn_of Y)) (s : list nat) (hs : list (list X)) : val :=
  vmap (fun q : fn_of Y => mkT (length hs :: s) (mkD (projT1 q) (concat (map (fun h => map (fun j => fn_at q (map (pick j) h)) (seq 0 (prod s))) hs)))) Z.
Section Generic.
Context {X Y : Type} (pick : nat -> X -> Y) (slice : nat -> nat -> X -> X) (zin : list nat -> ztype) (inp : list nat -> list X -> val)
  (ok : list nat -> list X -> Prop) (op : operator) (Z0 : pyval (fn_of Y)) (zo : list nat -> ztype).
Context (pick_slice : forall w j k x, k < w -> pick k (slice w j x) = pick (j * w + k) x)
  (form : forall s n v, n > 0 -> (Z.of_nat n <= 2147483648)%Z -> vhas v (wide n (zin s)) -> exists xs, v = inp s xs /\ length xs = n /\ ok s (rev xs))
  (columns : forall n s xs j, xs <> [] -> ok (n :: s) (rev xs) -> j < n ->
     ok s (rev (map (slice (prod s) j) xs)) /\ is_column (length xs) j (inp (n :: s) xs) (inp s (map (slice (prod s) j) xs)))
  (op_fits : forall s, fits op (zin s) (zo s)) (zin_wide : forall n s, zin (n :: s) = wide n (zin s)) (zo_wide : forall n s, zo (n :: s) = wide n (zo s))
  (op_streams : forall s, streams op (ok s) (inp s) (outputs pick Z0 s)).
Lemma outputs_row s hs i : i < length hs ->
  row i (outputs pick Z0 s hs) = vmap (fun q : fn_of Y => mkT s (mkD (projT1 q) (map (fun j => fn_at q (map (pick j) (nth i hs []))) (seq 0 (prod s))))) Z0.
Proof.
  intros Hi. unfold row, outputs. rewrite vmap_vmap. apply vmap_ext. intros [d f] _. unfold trow. cbn [sh dat tl projT1 fn_at projT2]. f_equal.
  assert (K : forall A (g : list X -> nat -> A), lslice (i * prod s) (prod s) (concat (map (fun h => map (g h) (seq 0 (prod s))) hs)) = map (g (nth i hs [])) (seq 0 (prod s))).
  { intros A g. rewrite lslice_concat.
    - rewrite (nth_indep _ [] (map (g []) (seq 0 (prod s)))) by now rewrite map_length. now rewrite (map_nth (fun h => map (g h) (seq 0 (prod s)))).
    - apply Forall_map, Forall_forall. intros h _. now rewrite map_length, seq_length.
    - now rewrite map_length. }
  destruct d; cbn [mkD dslice]; f_equal; apply K.
Qed.
Lemma outputs_row_row n s hs i j : i < length hs -> j < n ->
  row j (row i (outputs pick Z0 (n :: s) hs)) = vmap (fun q : fn_of Y => mkT s (mkD (projT1 q) (map (fun k => fn_at q (map (pick (j * prod s + k)) (nth i hs []))) (seq 0 (prod s))))) Z0.
Proof.
  intros Hi Hj. rewrite outputs_row by exact Hi. unfold row. rewrite vmap_vmap. apply vmap_ext. intros [d f] _. unfold trow. cbn [sh dat tl projT1 fn_at projT2]. f_equal.
  assert (K : forall A (g : nat -> A), lslice (j * prod s) (prod s) (map g (seq 0 (prod (n :: s)))) = map (fun k => g (j * prod s + k)) (seq 0 (prod s))).
  { intros A g. destruct (prod s) as [|w] eqn:Ew; [unfold lslice; now rewrite firstn_O|]. rewrite <- Ew. change (prod (n :: s)) with (n * prod s).
    apply (nth_ext _ _ (g 0) (g (j * prod s + 0))).
    - change (lslice (j * prod s) (prod s)) with (@cut A (prod s) j). rewrite (cut_length _ _ n); [now rewrite map_length, seq_length|now rewrite map_length, seq_length|exact Hj].
    - intros k Hk. change (lslice (j * prod s) (prod s)) with (@cut A (prod s) j) in *. rewrite (cut_length _ _ n) in Hk; [|now rewrite map_length, seq_length|exact Hj].
      rewrite cut_nth by exact Hk. rewrite map_nth, seq_nth by nia. rewrite (map_nth (fun k => g (j * prod s + k))), seq_nth by exact Hk. reflexivity. }
  destruct d; cbn [mkD dslice]; f_equal; apply K.
Qed.
Theorem map_vectorised n s : n >= 1 -> vectorised op n (zin s).
Proof.
  intros Hn T v HT Hs G E. assert (V : vhas v (wide T (wide n (zin s)))) by now split.
  destruct (map_gives op (zin s) (zo s) n T v (op_fits s) Hn HT V) as (outs & GM & VM & K).
  assert (V' : vhas v (wide T (zin (n :: s)))) by now rewrite zin_wide.
  destruct (form (n :: s) T v HT Hs V') as (xs & -> & L & O). assert (NE : xs <> []) by (intros ->; cbn in L; lia).
  destruct (op_streams (n :: s)) as (st & C & _). specialize (C xs NE O).
  assert (GO : gives op (inp (n :: s) xs) (outputs pick Z0 (n :: s) (hists [] xs))) by (eexists _, _; exact C).
  pose proof (gives_vhas op _ _ T _ _ (op_fits (n :: s)) HT V' GO) as VO. rewrite zo_wide in VO.
  exists outs. split; [exact GM|]. replace outs with (outputs pick Z0 (n :: s) (hists [] xs)); [exact GO|].
  apply (cols_eq T n (zo s)); auto. intros j Hj. destruct (columns n s xs j NE O Hj) as [O' Cj]. rewrite L in Cj.
  destruct (K j _ Hj Cj) as (out & GC & R). exists out. split; [|exact R]. intros i Hi.
  destruct (op_streams s) as (st' & C' & _). assert (NE' : map (slice (prod s) j) xs <> []) by (destruct xs; [easy|discriminate]).
  specialize (C' _ NE' O'). assert (out = outputs pick Z0 s (hists [] (map (slice (prod s) j) xs))) as ->.
  { destruct GC as (a & b & GC). pose proof (eq_trans (eq_sym GC) C') as E'. now injection E'. }
  rewrite outputs_row by now rewrite Positions.hists_length, map_length, L. rewrite outputs_row_row by (auto; now rewrite Positions.hists_length, L).
  apply vmap_ext. intros [d f] _. cbn [projT1 fn_at projT2]. do 2 f_equal. apply map_ext_in. intros k Hk. apply in_seq in Hk. f_equal.
  rewrite !(nth_hists0 _ i) by (rewrite ?map_length; lia). unfold upto. rewrite firstn_map, <- map_rev, map_map. apply map_ext. intros x. apply pick_slice. lia.
Qed.
End Generic.
(** ** One input *)
Definition pick1 (j : nat) (r : list F) : F := nth j r f0.
Lemma pick1_cut w j k (r : list F) : k < w -> pick1 k (cut w j r) = pick1 (j * w + k) r.
Proof. apply cut_nth. Qed.
Lemma short_rev {X} (xs : list X) n : length xs = n -> (Z.of_nat n <= 2147483648)%Z -> short (rev xs).
Proof. intros <- H. unfold short. now rewrite rev_length. Qed.
Lemma form1 s n v : n > 0 -> (Z.of_nat n <= 2147483648)%Z -> vhas v (wide n (tf s)) -> exists xs, v = tensors s xs /\ length xs = n /\ ok_rows s (rev xs).
Proof.
  intros Hn Hs V. destruct (series_form F32 s n v V) as (xs & E & L & H). exists xs. split; [exact E|]. split; [exact L|]. split; [now apply shaped_rev|now apply (short_rev xs n)].
Qed.
Lemma cuts_shaped n s (xs : list (list F)) j : shaped (n :: s) xs -> j < n -> shaped s (map (cut (prod s) j) xs).
Proof. intros H Hj. apply Forall_map. eapply Forall_impl; [|exact H]. intros r Hr. now apply (cut_length _ _ n). Qed.
Lemma tensors_vhas s xs : shaped s xs -> vhas (tensors s xs) (wide (length xs) (tf s)).
Proof.
  intros H. apply vhas_leaf. split; [|split; reflexivity]. unfold wf. cbn. change (prod (length xs :: s)) with (length xs * prod s).
  induction H as [|r l Hr _ IH]; [reflexivity|]. cbn [concat length]. now rewrite app_length, Hr, IH.
Qed.
Lemma column1 n s xs j : shaped (n :: s) xs -> j < n -> col (length xs) j (tensors (n :: s) xs) (tensors s (map (cut (prod s) j) xs)).
Proof.
  intros H Hj i Hi. refine (eq_trans (series_row F32 s _ i (cuts_shaped n s xs j H Hj) _) (eq_trans _ (eq_sym (series_row_row F32 n s xs i j H Hi)))); [now rewrite map_length|]. do 3 f_equal.
  rewrite (nth_indep _ [] (cut (prod s) j [])) by now rewrite map_length. apply map_nth.
Qed.
Lemma columns1 n s xs j : xs <> [] -> ok_rows (n :: s) (rev xs) -> j < n ->
  ok_rows s (rev (map (cut (prod s) j) xs)) /\ is_column (length xs) j (tensors (n :: s) xs) (tensors s (map (cut (prod s) j) xs)).
Proof.
  intros NE [H1 H2] Hj. apply shaped_rev in H1. rewrite rev_involutive in H1. pose proof (cuts_shaped n s xs j H1 Hj) as H3. split; [split|].
  - now apply shaped_rev.
  - unfold short in *. now rewrite rev_length, map_length in *.
  - pose proof (tensors_vhas s _ H3) as V. rewrite map_length in V. split; [apply V|]. split; [|now apply column1].
    apply (wide_series (length xs) _ (tf s)); [discriminate|exact V].
Qed.
Lemma streams_same {X} op (ok : list X -> Prop) inp (out out' : list (list X) -> val) : streams op ok inp out -> (forall xs h, ok (rev xs ++ h) -> out (hists h xs) = out' (hists h xs)) -> streams op ok inp out'.
Proof.
  intros (st & H1 & H2) E. exists st. split.
  - intros xs NE O. rewrite <- E by now rewrite app_nil_r. now apply H1.
  - intros h xs NE O. rewrite <- E by exact O. now apply H2.
Qed.
Definition f_out (f : list F -> F) : pyval (fn_of F) := Leaf (existT _ F32 f).
Definition i_out (f : list F -> Z) : pyval (fn_of F) := Leaf (existT _ I32 f).
Lemma map_one op f n s : (forall s, fits op (tf s) (tf s)) ->
  (forall s, streams op (ok_rows s) (tensors s) (fun hs => tensors s (map (each s f) hs))) -> n >= 1 -> vectorised op n (tf s).
Proof.
  intros F1 S1. apply (map_vectorised pick1 cut tf tensors ok_rows op (f_out f) tf pick1_cut form1 columns1 F1); [reflexivity|reflexivity|].
  intros s'. eapply streams_same; [apply S1|]. intros xs h _. unfold outputs, f_out, tensors. cbn [vmap projT1 fn_at projT2 mkD]. now rewrite map_length.
Qed.
Lemma map_int op f n s : (forall s, fits op (tf s) (ti s)) ->
  (forall s, streams op (ok_rows s) (tensors s) (fun hs => int_tensors s (map (each s f) hs))) -> n >= 1 -> vectorised op n (tf s).
Proof.
  intros F1 S1. apply (map_vectorised pick1 cut tf tensors ok_rows op (i_out f) ti pick1_cut form1 columns1 F1); [reflexivity|reflexivity|].
  intros s'. eapply streams_same; [apply S1|]. intros xs h _. unfold outputs, i_out, int_tensors. cbn [vmap projT1 fn_at projT2 mkD]. now rewrite map_length.
Qed.
Lemma map_many op fs n s : (forall s, fits op (tf s) (Tup (map (fun _ => tf s) fs))) ->
  (forall s, streams op (ok_rows s) (tensors s) (fun hs => Tup (map (fun f => tensors s (map (each s f) hs)) fs))) -> n >= 1 -> vectorised op n (tf s).
Proof.
  intros F1 S1. apply (map_vectorised pick1 cut tf tensors ok_rows op (Tup (map f_out fs)) (fun s => Tup (map (fun _ => tf s) fs)) pick1_cut form1 columns1 F1); [reflexivity| |].
  - intros n' s'. rewrite wide_tup, map_map. reflexivity.
  - intros s'. eapply streams_same; [apply S1|]. intros xs h _. unfold outputs. cbn [vmap]. f_equal. rewrite map_map. apply map_ext. intros f.
    unfold f_out, tensors. cbn [vmap projT1 fn_at projT2 mkD]. now rewrite map_length.
Qed.
(** ** Two inputs *)
Definition pick2 (j : nat) (x : list F * list F) : F * F := (nth j (fst x) f0, nth j (snd x) f0).
Definition cut2 (w j : nat) (x : list F * list F) : list F * list F := (cut w j (fst x), cut w j (snd x)).
Lemma pick2_cut w j k x : k < w -> pick2 k (cut2 w j x) = pick2 (j * w + k) x.
Proof. intros H. unfold pick2, cut2. cbn [fst snd]. now rewrite !cut_nth. Qed.
Lemma form2 s n v : n > 0 -> (Z.of_nat n <= 2147483648)%Z -> vhas v (wide n (Tup [tf s; tf s])) -> exists xs, v = tensor_pairs s xs /\ length xs = n /\ two_rows s (rev xs).
Proof.
  intros Hn Hs V. destruct (vhas_wide_tup n v _ V) as (vs & -> & W). inversion W as [|a ? ? ? Va W']; subst. inversion W' as [|b ? ? ? Vb W'']; subst. inversion W''; subst.
  destruct (series_form F32 s n a Va) as (x & -> & Lx & Hx). destruct (series_form F32 s n b Vb) as (y & -> & Ly & Hy).
  change (list (list F)) in x. change (list (list F)) in y. assert (Lxy : length x = length y) by exact (eq_trans Lx (eq_sym Ly)).
  exists (combine x y). split; [|split].
  - unfold tensor_pairs. rewrite combine_map_fst, combine_map_snd by exact Lxy. reflexivity.
  - rewrite combine_length. change (length x = n) in Lx. lia.
  - unfold two_rows. rewrite !map_rev, combine_map_fst, combine_map_snd by exact Lxy.
    split; [now apply shaped_rev|]. split; [now apply shaped_rev|]. apply (short_rev _ n); [rewrite combine_length; change (length x = n) in Lx; lia|exact Hs].
Qed.
Lemma columns2 n s xs j : xs <> [] -> two_rows (n :: s) (rev xs) -> j < n ->
  two_rows s (rev (map (cut2 (prod s) j) xs)) /\ is_column (length xs) j (tensor_pairs (n :: s) xs) (tensor_pairs s (map (cut2 (prod s) j) xs)).
Proof.
  intros NE (H1 & H2 & H3) Hj. rewrite !map_rev in H1, H2. apply shaped_rev in H1, H2. rewrite rev_involutive in H1, H2.
  pose proof (cuts_shaped n s _ j H1 Hj) as C1. pose proof (cuts_shaped n s _ j H2 Hj) as C2.
  assert (E1 : map fst (map (cut2 (prod s) j) xs) = map (cut (prod s) j) (map fst xs)) by now rewrite !map_map.
  assert (E2 : map snd (map (cut2 (prod s) j) xs) = map (cut (prod s) j) (map snd xs)) by now rewrite !map_map.
  split; [|].
  - unfold two_rows. rewrite !map_rev, E1, E2. split; [now apply shaped_rev|]. split; [now apply shaped_rev|]. unfold short in *. now rewrite rev_length, map_length in *.
  - pose proof (tensors_vhas s _ C1) as V1. pose proof (tensors_vhas s _ C2) as V2. rewrite !map_length in V1, V2.
    assert (V : vhas (tensor_pairs s (map (cut2 (prod s) j) xs)) (wide (length xs) (Tup [tf s; tf s]))).
    { unfold tensor_pairs. rewrite E1, E2. apply vhas_tup_wide. apply Forall2_cons; [exact V1|]. apply Forall2_cons; [exact V2|constructor]. }
    split; [apply V|]. split; [apply (wide_series (length xs) _ (Tup [tf s; tf s])); [discriminate|exact V]|].
    unfold tensor_pairs. rewrite E1, E2. apply col_tup; [destruct xs; [easy|cbn; lia]|].
    pose proof (column1 n s _ j H1 Hj) as K1. pose proof (column1 n s _ j H2 Hj) as K2. rewrite map_length in K1, K2.
    apply Forall2_cons; [exact K1|]. apply Forall2_cons; [exact K2|constructor].
Qed.
Lemma map_two op (f : list (F * F) -> F) n s : (forall s, fits op (Tup [tf s; tf s]) (tf s)) ->
  (forall s, streams op (two_rows s) (tensor_pairs s) (fun hs => tensors s (map (each2 s f) hs))) -> n >= 1 -> vectorised op n (Tup [tf s; tf s]).
Proof.
  intros F1 S1. apply (map_vectorised pick2 cut2 (fun s => Tup [tf s; tf s]) tensor_pairs two_rows op (Leaf (existT _ F32 f)) tf pick2_cut form2 columns2 F1); [reflexivity|reflexivity|].
  intros s'. eapply streams_same; [apply S1|]. intros xs h _. unfold outputs, tensors. cbn [vmap projT1 fn_at projT2 mkD]. now rewrite map_length.
Qed.
(** ** The operators of the library *)
Lemma fits_takes op z zo zs : takes op [z] zo zs -> leaves z <> [] -> parts z = [z] -> fits op z zo.
Proof. intros T L E. split; [exact L|]. exists zs. now apply (ws_step op [z]). Qed.
Lemma lag_each s p (h : list (list F)) : shaped s h -> nth p h (repeat f0 (prod s)) = each s (fun c => nth p c f0) h.
Proof.
  intros H. unfold each. assert (L : length (nth p h (repeat f0 (prod s))) = prod s).
  { destruct (Nat.lt_ge_cases p (length h)) as [Hp|Hp]; [|rewrite nth_overflow by exact Hp; apply repeat_length].
    unfold shaped in H. rewrite Forall_forall in H. apply H. now apply nth_In. }
  apply (nth_ext _ _ f0 f0); [now rewrite map_length, seq_length|]. intros j Hj. rewrite L in Hj.
  rewrite (nth_indep (map (fun j => nth p (column f0 j h) f0) (seq 0 (prod s))) f0 (nth p (column f0 0 h) f0)) by now rewrite map_length, seq_length. rewrite (map_nth (fun j => nth p (column f0 j h) f0)), seq_nth by exact Hj. cbn [Nat.add].
  unfold column. destruct (Nat.lt_ge_cases p (length h)) as [Hp|Hp].
  - rewrite (nth_indep (map (fun r => nth j r f0) h) f0 (nth j [] f0)) by now rewrite map_length. rewrite (map_nth (fun r => nth j r f0)). f_equal. now apply nth_indep.
  - rewrite (nth_overflow h) by exact Hp. rewrite (nth_overflow (map _ h)) by (rewrite map_length; exact Hp). apply nth_repeat.
Qed.
Lemma hists_shaped {A} s xs : forall h : list (list A), shaped s (rev xs ++ h) -> Forall (shaped s) (hists h xs).
Proof.
  induction xs as [|x xs IH]; intros h H; [constructor|]. cbn [rev hists] in *. rewrite <- app_assoc in H. cbn [app] in H. constructor; [|now apply IH].
  unfold shaped in *. apply Forall_app in H. apply H.
Qed.
Theorem vectorised_averages n s p : n >= 1 -> p >= 1 ->
  vectorised (Lag (Z.of_nat p)) n (tf s) /\ vectorised (SimpleMovingAverage (Z.of_nat p)) n (tf s) /\
  vectorised (ExponentialMovingAverage (Z.of_nat p)) n (tf s) /\ vectorised (RollingMovingAverage (Z.of_nat p)) n (tf s) /\
  vectorised (MovingStandardDeviation (Z.of_nat p)) n (tf s) /\ vectorised (Momentum (Z.of_nat p)) n (tf s) /\
  (forall k, vectorised (BollingerBands (Z.of_nat p) k) n (tf s)).
Proof.
  intros Hn Hp. assert (Hp' : (1 <= Z.of_nat p)%Z) by lia. split; [|split; [|split; [|split; [|split; [|split]]]]].
  - apply (map_one _ (fun c => nth p c f0)); auto; [intros; apply fits_lag; lia|]. intros s'. destruct (lag_streams F32 s' p Hp) as (st & K1 & K2).
    apply (streams_same _ _ _ (fun hs => tensors s' (map (fun h => nth p h (repeat f0 (prod s'))) hs))).
    + exists st. split; [intros xs NE [O _]; now apply K1|intros h xs NE [O _]; now apply K2].
    + intros xs h [O _]. f_equal. apply map_ext_in. intros k Hk. apply lag_each. pose proof (hists_shaped s' xs h O) as HS. rewrite Forall_forall in HS. now apply HS.
  - apply (map_one _ (sma p)); auto; [|intros; now apply sma_streams]. intros s'. eapply fits_takes; [now apply tk_sma|discriminate|reflexivity].
  - apply (map_one _ (ema p)); auto; [|intros; now apply ema_streams]. intros s'. eapply fits_takes; [now apply tk_ema|discriminate|reflexivity].
  - apply (map_one _ (rma p)); auto; [|intros; now apply rma_streams]. intros s'. eapply fits_takes; [now apply tk_rma|discriminate|reflexivity].
  - apply (map_one _ (msd p)); auto; [|intros; now apply msd_streams]. intros s'. eapply fits_takes; [now apply tk_msd|discriminate|reflexivity].
  - apply (map_one _ (momentum p)); auto; [|intros; now apply momentum_streams]. intros s'. split; [discriminate|]. eexists.
    refine (proj1 (shaped_compositions (Z.of_nat p) 1 1 s' _ _ _)); lia.
  - intros k. eapply (map_many _ [_; _; _]); auto; [|intros; now apply bollinger_streams]. intros s'. eapply fits_takes; [now apply tk_bollinger|discriminate|reflexivity].
Qed.
Theorem vectorised_pipelines n s p q m : n >= 1 -> p >= 1 -> q >= 1 -> m >= 1 ->
  vectorised (SimpleMovingAverageCrossover (Z.of_nat p) (Z.of_nat q)) n (tf s) /\
  vectorised (SimpleMovingAverageCrossoverSignal (Z.of_nat p) (Z.of_nat q)) n (tf s) /\
  vectorised (MovingAverageConvergenceDivergence (Z.of_nat p) (Z.of_nat q) (Z.of_nat m)) n (tf s) /\
  vectorised (MovingAverageConvergenceDivergenceSignal (Z.of_nat p) (Z.of_nat q) (Z.of_nat m)) n (tf s) /\
  vectorised ZeroCrossoverSignal n (tf s) /\
  vectorised (Correlation (Z.of_nat p)) n (Tup [tf s; tf s]) /\ vectorised (CrossCorrelation (Z.of_nat p) (Z.of_nat q)) n (Tup [tf s; tf s]) /\
  vectorised (AutoCorrelation (Z.of_nat p) (Z.of_nat q)) n (tf s).
Proof.
  intros Hn Hp Hq Hm. assert (Hp' : (1 <= Z.of_nat p)%Z) by lia. assert (Hq' : (1 <= Z.of_nat q)%Z) by lia. assert (Hm' : (1 <= Z.of_nat m)%Z) by lia.
  pose proof (fun s' => shaped_compositions (Z.of_nat p) (Z.of_nat q) (Z.of_nat m) s' Hp' Hq' Hm') as SC.
  split; [|split; [|split; [|split; [|split; [|split; [|split]]]]]].
  - eapply map_one; auto; [|intros; now apply crossover_streams]. intros s'. split; [discriminate|]. eexists. exact (proj1 (proj2 (SC s'))).
  - eapply map_int; auto; [|intros; now apply crossover_sig_streams]. intros s'. split; [discriminate|]. eexists. exact (proj1 (proj2 (proj2 (SC s')))).
  - eapply (map_many _ [_; _; _; _; _]); auto; [|intros; now apply macd_streams]. intros s'. eapply fits_takes; [now apply tk_macd|discriminate|reflexivity].
  - eapply map_int; auto; [|intros; now apply macd_sig_streams]. intros s'. split; [discriminate|]. eexists. exact (proj1 (proj2 (proj2 (proj2 (SC s'))))).
  - eapply map_int; auto; [|intros; apply zc_streams]. intros s'. eapply fits_takes; [now apply tk_zero|discriminate|reflexivity].
  - eapply map_two; auto; [|intros; now apply corr_streams]. intros s'. split; [discriminate|]. eexists. eapply ws_step; [now apply tk_correlation|reflexivity].
  - eapply map_two; auto; [|intros; now apply cross_streams]. intros s'. split; [discriminate|]. eexists. eapply ws_step; [now apply tk_cross|reflexivity].
  - eapply map_one; auto; [|intros; now apply auto_streams]. intros s'. eapply fits_takes; [now apply tk_auto|discriminate|reflexivity].
Qed.
(** ** Pipelines of such operators *)
Lemma vec_fits n ops zx zo : vectorised_in_turn n ops zx zo -> fit_in_turn ops zx zo /\ fit_in_turn ops (wide n zx) (wide n zo).
Proof. induction 1 as [op zx zo F F' _|op ops zx zm zo F F' _ _ [IH IH']]; split; econstructor; eauto. Qed.
Lemma vec_turn n T : n >= 1 -> T > 0 -> (Z.of_nat T <= 2147483648)%Z -> forall ops zx zo, vectorised_in_turn n ops zx zo ->
  forall v o, vhas v (wide T (wide n zx)) -> give_in_turn (map (fun op => Map op n) ops) v o -> give_in_turn ops v o.
Proof.
  intros Hn HT Hs. assert (K : forall op zx v o, vectorised op n zx -> vhas v (wide T (wide n zx)) -> gives (Map op n) v o -> gives op v o).
  { intros op zx v o U V G. destruct (U T v HT Hs (proj1 V) (proj2 V)) as (q & A & B). now rewrite (gives_one _ _ _ _ G A). }
  induction 1 as [op zx zo F F' U|op ops zx zm zo F F' U H IH]; intros v o V G; cbn [map] in G.
  - inversion G as [? ? ? G1|? ? ? ? ? ? Q]; subst; [|inversion Q]. constructor. eapply K; eauto.
  - inversion G as [? ? ? G1|? ? ? mid ? G1 G2]; subst; [destruct H; discriminate|]. pose proof (K _ _ _ _ U V G1) as G3. econstructor; [exact G3|]. apply IH; [|exact G2].
    now apply (gives_vhas op (wide n zx) (wide n zm) T v).
Qed.
Theorem vectorised_compose n ops zx zo : n >= 1 -> vectorised_in_turn n ops zx zo -> vectorised (Compose (rev ops)) n zx.
Proof.
  intros Hn H T v HT Hs G E. assert (V : vhas v (wide T (wide n zx))) by now split. destruct (vec_fits n ops zx zo H) as [F F'].
  destruct (map_compose ops n zx zo F Hn T v HT G E) as (o & A & B). exists o. split; [exact A|].
  rewrite map_rev in B. apply (compose_turn _ _ _ T v o (fit_maps ops n zx zo F Hn) HT V) in B. apply (compose_turn ops _ _ T v o F' HT V).
  now apply (vec_turn n T Hn HT Hs ops zx zo H).
Qed.
End VectorFacts.
