(** * StatelessFacts: make_streamable and the operators built with it. *)
From Coq Require Import String List ZArith Bool Lia.
From Verif Require Import Num Py PyFacts Tensor Streamable Spec StreamFacts TensorFacts StreamProofs WfFacts EvalFacts
  Meta Common Library GenuineBase Genuine GenuineLib Order RunFacts SpecHelpers HelperFacts.
Import ListNotations.

Section StatelessFacts.
Context {N : FOps}.
Hint Resolve genuine_pyok genuine_opt_pyok : core.
(** ** A series is determined by its rows *)
Lemma series_eq n (a b : val) : n > 0 -> genuine a -> genuine b ->
  Forall (fun t => exists s, sh t = n :: s) (leaves a) -> Forall (fun t => exists s, sh t = n :: s) (leaves b) ->
  (forall i, i < n -> row i a = row i b) -> a = b.
Proof.
  intros Hp [Pa Wa] [Pb Wb] Sa Sb H.
  assert (E : sk a = sk b).
  { assert (E := f_equal sk (H 0 Hp)). unfold row in E. now rewrite !sk_vmap in E. }
  destruct (zip_vals a b E) as (z & <- & <-). apply vmap_ext. intros [t u] Hin. cbn [fst snd].
  rewrite leaves_vmap, Forall_map, Forall_forall in Wa, Wb, Sa, Sb.
  destruct (Sa _ Hin) as (s & Es). destruct (Sb _ Hin) as (s' & Es'). cbn [fst snd] in *.
  apply (rows_inj n s s'); auto; try now apply (Wa (t, u)). 1: now apply (Wb (t, u)).
  intros i Hi. specialize (H i Hi). unfold row in H. rewrite !vmap_vmap in H.
  apply (f_equal (@leaves tensor)) in H. rewrite !leaves_vmap in H.
  assert (K : forall l : list (tensor * tensor), map (fun x => trow i (fst x)) l = map (fun x => trow i (snd x)) l -> forall x, In x l -> trow i (fst x) = trow i (snd x)).
  { induction l as [|y l IH]; intros M x Hx; [easy|]. cbn [map] in M. assert (M1 := f_equal (hd (trow i t)) M). assert (M2 := f_equal (@tl tensor) M). cbn [hd tl] in M1, M2. destruct Hx as [E0|Hx]; [rewrite <- E0; exact M1|auto]. }
  exact (K _ H _ Hin).
Qed.
Lemma sig_row i j (w : val) : sig (row i w) = sig (row j w).
Proof.
  unfold sig, row. rewrite !vmap_vmap. apply vmap_ext. intros t _. unfold tsig, trow, dtype_of. cbn [sh dat].
  now destruct (dat t).
Qed.
(** ** make_streamable *)
Lemma genuine_arguments x : genuine x -> Forall genuine (arguments x).
Proof.
  intros G. destruct x; cbn [arguments].
  - constructor; [exact G|constructor].
  - now apply genuine_tup.
  - now apply genuine_lst.
  - constructor; [exact G|constructor].
  - destruct G as [[] _].
Qed.
Lemma make_step fn x st : genuine x -> no_state st ->
  call (make_streamable fn) x st false = let* o := fn (arguments x) in Ok (o, Tup [], Tup []).
Proof.
  intros G Hst. assert (Gst : genuine_opt st).
  { destruct Hst as [-> | ->]; [exact I|]. split; [now apply pyok_tup|constructor]. }
  rewrite call_false_g by auto. cbn [forward_step make_streamable].
  destruct Hst as [-> | ->]; destruct x; cbn [arguments app]; rewrite ?app_nil_r; try reflexivity.
Qed.
Lemma make_steps fn xs : Forall genuine xs -> steps (make_streamable fn) (Tup []) xs =
  let* os := mapM (fun x => fn (arguments x)) xs in Ok (os, Tup []).
Proof.
  induction 1 as [|x xs Hx _ IH]; [reflexivity|]. cbn [steps mapM].
  rewrite make_step by (auto; now right). destruct (fn (arguments x)) as [o|e]; cbn [bind]; [|reflexivity].
  rewrite IH. now destruct (mapM _ xs).
Qed.
Theorem stateless_sound fn v st n outs sf s0 :
  user_fn fn -> genuine v -> is_series n v -> no_state st ->
  call (make_streamable fn) v st true = Ok (outs, sf, s0) ->
  sf = Tup [] /\ s0 = Tup [] /\
  (uniform sk (make_streamable fn) st v n -> forall i, i < n -> fn (arguments (row i v)) = Ok (row i outs)).
Proof.
  intros U G Hn Hst H. assert (Gst : genuine_opt st).
  { destruct Hst as [-> | ->]; [exact I|]. split; [now apply pyok_tup|constructor]. }
  destruct (streaming_sound _ v st outs sf s0 G Gst (genuine_make fn U) H) as (m & os & Hp & Hm & Hs & HS & L & HR).
  assert (m = n) as -> by (eapply series_unique; eauto).
  assert (G0 : genuine (row 0 v)) by (apply (genuine_row n); auto).
  assert (s0 = Tup []) as ->.
  { destruct Hst as [-> | ->]; [|exact Hs]. destruct Hs as (o & s' & Hc). rewrite make_step in Hc by (auto; now left).
    apply bind_ok in Hc as (o' & _ & Hc). now injection Hc. }
  rewrite make_steps in HS by now apply genuine_rows. apply bind_ok in HS as (os' & M & E). injection E as -> <-.
  split; [reflexivity|]. split; [reflexivity|]. intros Un i Hi. destruct (HR Un) as [_ R]. rewrite (R i Hi).
  apply mapM_ok_iff in M. clear -M Hi.
  assert (K : forall l, Forall2 (fun x y => fn (arguments x) = Ok y) l os -> forall i, i < length l ->
    fn (arguments (nth i l (Tup []))) = Ok (nth i os (Tup []))).
  { clear. intros l. revert os. induction l as [|x l IH]; intros os M i Hi; [cbn in Hi; lia|].
    inversion M; subst. destruct i; cbn [nth]; [assumption|]. apply IH; auto. cbn in Hi. lia. }
  specialize (K _ M i). rewrite rows_length in K. specialize (K Hi). unfold rows in K.
  rewrite (nth_indep _ _ (row 0 v)) in K by (rewrite map_length, seq_length; exact Hi).
  rewrite (map_nth (fun i => row i v) (seq 0 n) 0 i) in K. now rewrite seq_nth in K by exact Hi.
Qed.
Theorem stateless_series fn v st n w :
  user_fn fn -> genuine v -> is_series n v -> n > 0 -> no_state st ->
  genuine w -> Forall (fun t => exists s, sh t = n :: s) (leaves w) ->
  (forall i, i < n -> fn (arguments (row i v)) = Ok (row i w)) ->
  call (make_streamable fn) v st true = Ok (w, Tup [], Tup []).
Proof.
  intros U G Hn Hp Hst Gw Sw H. assert (Gst : genuine_opt st).
  { destruct Hst as [-> | ->]; [exact I|]. split; [now apply pyok_tup|constructor]. }
  assert (G0 : genuine (row 0 v)) by (apply (genuine_row n); auto).
  assert (C0 : call (make_streamable fn) (row 0 v) st false = Ok (row 0 w, Tup [], Tup [])).
  { rewrite make_step by auto. now rewrite H. }
  assert (St : starts_from (make_streamable fn) st (row 0 v) (Tup [])).
  { destruct Hst as [-> | ->]; [|reflexivity]. cbn. eauto. }
  assert (M : mapM (fun x => fn (arguments x)) (rows n v) = Ok (rows n w)).
  { unfold rows. rewrite mapM_map. rewrite <- (mapM_Ok (fun i => row i w) (seq 0 n)).
    apply mapM_ext. intros i Hi. apply in_seq in Hi. apply H. lia. }
  assert (S1 : steps (make_streamable fn) (Tup []) (rows n v) = Ok (rows n w, Tup [])).
  { rewrite make_steps by now apply genuine_rows. now rewrite M. }
  destruct (streaming_complete (make_streamable fn) v st n (Tup []) (rows n w) (Tup [])) as (outs & HC & Go & R); auto.
  - now apply genuine_make.
  - exists (sig (row 0 w)). split.
    + intros o s' i Hc. rewrite C0 in Hc. now injection Hc as <- _ _.
    + intros s0 os sf Hs HS. rewrite (starts_from_unique _ _ _ _ _ Hs St), S1 in HS. injection HS as <- _.
      apply Forall_forall. intros o Ho. apply in_map_iff in Ho as (i & <- & _). apply sig_row.
  - intros k os s Hk HS. rewrite make_steps in HS.
    + apply bind_ok in HS as (os' & _ & HS). now injection HS as _ <-.
    + apply Forall_forall. intros x Hx. assert (K := genuine_rows n v G Hn). rewrite Forall_forall in K. apply K.
      rewrite <- (firstn_skipn k (rows n v)). apply in_or_app. now left.
  - rewrite HC. f_equal. f_equal. f_equal. apply (series_eq n); auto.
    + apply (output_lengths (make_streamable fn) v st outs (Tup []) (Tup [])); auto.
    + intros i Hi. rewrite (R i Hi). unfold rows.
      rewrite (nth_indep _ _ (row 0 w)) by (rewrite map_length, seq_length; exact Hi).
      rewrite (map_nth (fun i => row i w) (seq 0 n) 0 i). now rewrite seq_nth.
Qed.
(** ** The operators *)
Lemma leaf_series n s (t : tensor) : wf t -> sh t = n :: s -> genuine (Leaf t) /\ is_series n (Leaf t).
Proof.
  intros W E. split.
  - split; [exact I|]. now constructor.
  - split; [discriminate|]. constructor; eauto.
Qed.
Lemma pair_series n s s' (t u : tensor) : wf t -> wf u -> sh t = n :: s -> sh u = n :: s' ->
  genuine (Tup [Leaf t; Leaf u]) /\ is_series n (Tup [Leaf t; Leaf u]).
Proof.
  intros W W' E E'. split.
  - apply genuine_tup. repeat constructor; assumption.
  - split; [discriminate|]. repeat constructor; eauto.
Qed.
Lemma user_identity : user_fn (fun args => match args with [x] => Ok x | _ => Err EArity end).
Proof. intros args r G H. destruct args as [|x [|? ?]]; try discriminate. injection H as <-. now inversion G. Qed.
Theorem identity_series n s t st : n > 0 -> wf t -> sh t = n :: s -> no_state st ->
  call Identity (Leaf t) st true = Ok (Leaf t, Tup [], Tup []).
Proof.
  intros Hp W E Hst. destruct (leaf_series n s t W E) as [G Hn].
  apply (stateless_series _ _ _ n); auto; [apply user_identity|apply Hn].
Qed.
Lemma user_fork k : user_fn (fun args => match args with [x] => Ok (Tup (repeat x k)) | _ => Err EArity end).
Proof.
  intros args r G H. destruct args as [|x [|? ?]]; try discriminate. injection H as <-. apply genuine_tup.
  apply Forall_forall. intros y Hy. apply repeat_spec in Hy as ->. now inversion G.
Qed.
Lemma map_repeat' {A B} (f : A -> B) x k : map f (repeat x k) = repeat (f x) k.
Proof. induction k; cbn; congruence. Qed.
Theorem fork_series k n s t st : n > 0 -> wf t -> sh t = n :: s -> no_state st ->
  call (Fork k) (Leaf t) st true = Ok (Tup (repeat (Leaf t) k), Tup [], Tup []).
Proof.
  intros Hp W E Hst. destruct (leaf_series n s t W E) as [G Hn].
  apply (stateless_series _ _ _ n); auto; [apply user_fork|..].
  - apply genuine_tup. apply Forall_forall. intros y Hy. now apply repeat_spec in Hy as ->.
  - apply Forall_forall. intros y Hy. cbn [leaves] in Hy. apply in_flat_map in Hy as (z & Hz & Hy).
    apply repeat_spec in Hz as ->. destruct Hy as [<-|[]]. eauto.
  - intros i Hi. cbn [arguments row vmap]. f_equal. f_equal. now rewrite map_repeat'.
Qed.
(** slices of elementwise results *)
Lemma lslice_map {A B} (f : A -> B) o k l : lslice o k (map f l) = map f (lslice o k l).
Proof. unfold lslice. now rewrite skipn_map, firstn_map. Qed.
Lemma lslice_map2 {A B C} (f : A -> B -> C) o k l m : lslice o k (map2 f l m) = map2 f (lslice o k l) (lslice o k m).
Proof.
  assert (F : forall k l m, firstn k (map2 f l m) = map2 f (firstn k l) (firstn k m)).
  { clear. induction k as [|k IH]; intros l m; [reflexivity|].
    destruct l as [|x l]; [reflexivity|]. destruct m as [|y m]; [reflexivity|]. cbn [map2 firstn]. now rewrite IH. }
  assert (S1 : forall o l m, skipn o (map2 f l m) = map2 f (skipn o l) (skipn o m)).
  { clear. induction o as [|o IH]; intros l m; [reflexivity|].
    destruct l as [|x l]; [reflexivity|]. destruct m as [|y m]; cbn [map2 skipn]; [now destruct (skipn o l)|]. apply IH. }
  unfold lslice. now rewrite S1, F.
Qed.
Lemma map2_length' {A B C} (f : A -> B -> C) l m : length l = length m -> length (map2 f l m) = length l.
Proof. revert m; induction l as [|x l IH]; intros [|y m] E; try discriminate; cbn in *; auto. Qed.
Lemma user_bin ff fi : user_fn (bin_fn (tbin ff fi)).
Proof.
  intros args r G H. unfold bin_fn in H. binv H. destruct args as [|x [|y [|? ?]]]; try discriminate.
  inversion G as [|? ? G1 G2]; subst. inversion G2 as [|? ? G3 G4]; subst.
  destruct x as [x|?|?|?|?], y as [y|?|?|?|?]; try discriminate.
  cbn [targ nth_error as_t] in *. repeat match goal with H : Ok _ = Ok _ |- _ => injection H as <- end.
  split; [exact I|]. constructor; [|constructor]. eapply wf_tbin; [| |eassumption].
  - destruct G1 as [_ G1]; now inversion G1.
  - destruct G3 as [_ G3]; now inversion G3.
Qed.
Theorem bin_series_f ff fi n s (a b : list F) st : n > 0 ->
  length a = prod (n :: s) -> length b = prod (n :: s) -> no_state st ->
  call (make_streamable (bin_fn (tbin ff fi))) (Tup [Leaf (mkT (n :: s) (DF a)); Leaf (mkT (n :: s) (DF b))]) st true =
  Ok (Leaf (mkT (n :: s) (DF (map2 ff a b))), Tup [], Tup []).
Proof.
  intros Hp La Lb Hst.
  destruct (pair_series n s s (mkT (n :: s) (DF a)) (mkT (n :: s) (DF b))) as [G Hn]; auto.
  destruct (leaf_series n s (mkT (n :: s) (DF (map2 ff a b)))) as [G' Hn']; auto.
  { unfold wf. cbn [dlen dat sh]. now rewrite map2_length' by congruence. }
  apply (stateless_series _ _ _ n); auto; [apply user_bin|apply Hn'|].
  intros i Hi. cbn [arguments row vmap map]. unfold bin_fn, trow. cbn [arity length Nat.leb andb bind targ nth_error as_t sh dat tl dslice].
  unfold tbin at 1. cbn [dat sh]. rewrite bop_same. cbn [bind]. now rewrite lslice_map2.
Qed.
Theorem bin_series_i ff fi n s (a b : list Z) st : n > 0 ->
  length a = prod (n :: s) -> length b = prod (n :: s) -> no_state st ->
  call (make_streamable (bin_fn (tbin ff (Some fi)))) (Tup [Leaf (mkT (n :: s) (DI a)); Leaf (mkT (n :: s) (DI b))]) st true =
  Ok (Leaf (mkT (n :: s) (DI (map2 fi a b))), Tup [], Tup []).
Proof.
  intros Hp La Lb Hst.
  destruct (pair_series n s s (mkT (n :: s) (DI a)) (mkT (n :: s) (DI b))) as [G Hn]; auto.
  destruct (leaf_series n s (mkT (n :: s) (DI (map2 fi a b)))) as [G' Hn']; auto.
  { unfold wf. cbn [dlen dat sh]. now rewrite map2_length' by congruence. }
  apply (stateless_series _ _ _ n); auto; [apply user_bin|apply Hn'|].
  intros i Hi. cbn [arguments row vmap map]. unfold bin_fn, trow. cbn [arity length Nat.leb andb bind targ nth_error as_t sh dat tl dslice].
  unfold tbin at 1. cbn [dat sh]. rewrite bop_same. cbn [bind]. now rewrite lslice_map2.
Qed.
Lemma map2_combine {A B C} (f : A -> B -> C) l m : map2 f l m = map (fun p => f (fst p) (snd p)) (combine l m).
Proof. revert m; induction l as [|x l IH]; intros [|y m]; cbn; try reflexivity. now rewrite IH. Qed.
Theorem arithmetic_f n s (a b : list F) st : n > 0 ->
  length a = prod (n :: s) -> length b = prod (n :: s) -> no_state st ->
  let v := Tup [Leaf (mkT (n :: s) (DF a)); Leaf (mkT (n :: s) (DF b))] in
  let each f := Leaf (mkT (n :: s) (DF (map (fun p => f (fst p) (snd p)) (combine a b)))) in
  call Add v st true = Ok (each fadd, Tup [], Tup []) /\
  call Sub v st true = Ok (each fsub, Tup [], Tup []) /\
  call Mul v st true = Ok (each fmul, Tup [], Tup []).
Proof.
  intros Hp La Lb Hst v each.
  assert (K : forall ff fi, call (make_streamable (bin_fn (tbin ff fi))) v st true = Ok (each ff, Tup [], Tup [])).
  { intros ff fi. etransitivity; [now apply bin_series_f|]. unfold each. now rewrite (map2_combine ff). }
  split; [|split]; apply K.
Qed.
Theorem arithmetic_i n s (a b : list Z) st : n > 0 ->
  length a = prod (n :: s) -> length b = prod (n :: s) -> no_state st ->
  let v := Tup [Leaf (mkT (n :: s) (DI a)); Leaf (mkT (n :: s) (DI b))] in
  let each f := Leaf (mkT (n :: s) (DI (map (fun p => wrap32 (f (fst p) (snd p))) (combine a b)))) in
  call Add v st true = Ok (each Z.add, Tup [], Tup []) /\
  call Sub v st true = Ok (each Z.sub, Tup [], Tup []) /\
  call Mul v st true = Ok (each Z.mul, Tup [], Tup []).
Proof.
  intros Hp La Lb Hst v each.
  assert (K : forall ff fi, call (make_streamable (bin_fn (tbin ff (Some (fun x y => wrap32 (fi x y)))))) v st true = Ok (each fi, Tup [], Tup [])).
  { intros ff fi. etransitivity; [now apply bin_series_i|]. unfold each. now rewrite (map2_combine (fun x y => wrap32 (fi x y))). }
  split; [|split]; apply K.
Qed.
(** ** Positive and Negative *)
Lemma user_of_genuine fn : genuine_op (make_streamable fn) -> user_fn fn.
Proof.
  intros H args r G E. apply (H (Tup args) None r (Tup []) (Tup [])).
  - now apply genuine_tup.
  - exact I.
  - cbn [forward_step make_streamable]. rewrite app_nil_r. now rewrite E.
Qed.
Lemma sel3_map {A B} (h : A -> bool) (x y : B) l k : length l = k ->
  sel3 (map h l) (repeat x k) (repeat y k) = map (fun a => if h a then x else y) l.
Proof. intros <-. unfold sel3. induction l as [|a l IH]; cbn; [reflexivity|]. f_equal. exact IH. Qed.
Lemma slice_length {A} n s i (a : list A) : length a = prod (n :: s) -> i < n -> length (lslice (i * prod s) (prod s) a) = prod s.
Proof.
  intros L Hi. unfold lslice. rewrite firstn_length, skipn_length, L. change (prod (n :: s)) with (n * prod s).
  assert (i * prod s + prod s <= n * prod s); [|lia]. replace (i * prod s + prod s) with (S i * prod s) by lia.
  apply Nat.mul_le_mono_r. lia.
Qed.
Definition sign_fn (cmp : tensor -> tensor -> res tensor) (args : list val) : res val :=
  let* _ := arity 1 1 args in
  let* x := targ args 0 in
  let* c := cmp x (zeros (sh x) (dtype_of x)) in
  let* r := twhere c (ones (sh x) (dtype_of x)) (zeros (sh x) (dtype_of x)) in
  Ok (Leaf r).
Lemma sign_series_f ff fi n s (a : list F) st : n > 0 -> length a = prod (n :: s) -> no_state st ->
  user_fn (sign_fn (tcmp ff fi)) ->
  call (make_streamable (sign_fn (tcmp ff fi))) (Leaf (mkT (n :: s) (DF a))) st true =
  Ok (Leaf (mkT (n :: s) (DF (map (fun x => if ff x f0 then f1 else f0) a))), Tup [], Tup []).
Proof.
  intros Hp La Hst U.
  destruct (leaf_series n s (mkT (n :: s) (DF a))) as [G Hn]; auto.
  destruct (leaf_series n s (mkT (n :: s) (DF (map (fun x => if ff x f0 then f1 else f0) a)))) as [G' Hn']; auto.
  { unfold wf. cbn [dlen dat sh]. now rewrite map_length. }
  apply (stateless_series _ _ _ n); auto; [apply Hn'|].
  intros i Hi. cbn [arguments row vmap map]. unfold sign_fn, trow. cbn [arity length Nat.leb andb bind targ nth_error as_t sh dat tl dslice].
  unfold dtype_of, zeros, ones. cbn [dat sh]. assert (L := slice_length n s i a La Hi).
  unfold tcmp. cbn [dat sh]. rewrite bop_same. cbn [bind]. rewrite map2_repeat_r by exact L.
  unfold twhere. cbn [sh dat]. rewrite shape_eqb_refl. cbn [andb bind]. rewrite sel3_map by exact L.
  now rewrite lslice_map.
Qed.
Lemma sign_series_i ff fi n s (a : list Z) st : n > 0 -> length a = prod (n :: s) -> no_state st ->
  user_fn (sign_fn (tcmp ff fi)) ->
  call (make_streamable (sign_fn (tcmp ff fi))) (Leaf (mkT (n :: s) (DI a))) st true =
  Ok (Leaf (mkT (n :: s) (DI (map (fun x => if fi x 0%Z then 1%Z else 0%Z) a))), Tup [], Tup []).
Proof.
  intros Hp La Hst U.
  destruct (leaf_series n s (mkT (n :: s) (DI a))) as [G Hn]; auto.
  destruct (leaf_series n s (mkT (n :: s) (DI (map (fun x => if fi x 0%Z then 1%Z else 0%Z) a)))) as [G' Hn']; auto.
  { unfold wf. cbn [dlen dat sh]. now rewrite map_length. }
  apply (stateless_series _ _ _ n); auto; [apply Hn'|].
  intros i Hi. cbn [arguments row vmap map]. unfold sign_fn, trow. cbn [arity length Nat.leb andb bind targ nth_error as_t sh dat tl dslice].
  unfold dtype_of, zeros, ones. cbn [dat sh]. assert (L := slice_length n s i a La Hi).
  unfold tcmp. cbn [dat sh]. rewrite bop_same. cbn [bind]. rewrite map2_repeat_r by exact L.
  unfold twhere. cbn [sh dat]. rewrite shape_eqb_refl. cbn [andb bind]. rewrite sel3_map by exact L.
  now rewrite lslice_map.
Qed.
Theorem positive_series_f n s (a : list F) st : n > 0 -> length a = prod (n :: s) -> no_state st ->
  call Positive (Leaf (mkT (n :: s) (DF a))) st true =
  Ok (Leaf (mkT (n :: s) (DF (map (fun x => if flt f0 x then f1 else f0) a))), Tup [], Tup []).
Proof. intros Hp La Hst. apply (sign_series_f fgt Z.gtb); auto. apply (user_of_genuine _ genuine_positive). Qed.
Theorem negative_series_f n s (a : list F) st : n > 0 -> length a = prod (n :: s) -> no_state st ->
  call Negative (Leaf (mkT (n :: s) (DF a))) st true =
  Ok (Leaf (mkT (n :: s) (DF (map (fun x => if flt x f0 then f1 else f0) a))), Tup [], Tup []).
Proof. intros Hp La Hst. apply (sign_series_f flt Z.ltb); auto. apply (user_of_genuine _ genuine_negative). Qed.
Theorem positive_series_i n s (a : list Z) st : n > 0 -> length a = prod (n :: s) -> no_state st ->
  call Positive (Leaf (mkT (n :: s) (DI a))) st true =
  Ok (Leaf (mkT (n :: s) (DI (map (fun x => if (0 <? x)%Z then 1%Z else 0%Z) a))), Tup [], Tup []).
Proof.
  intros Hp La Hst. rewrite (map_ext _ (fun x => if (x >? 0)%Z then 1%Z else 0%Z)).
  - apply (sign_series_i fgt Z.gtb); auto. apply (user_of_genuine _ genuine_positive).
  - intros x. now rewrite Z.gtb_ltb.
Qed.
Theorem negative_series_i n s (a : list Z) st : n > 0 -> length a = prod (n :: s) -> no_state st ->
  call Negative (Leaf (mkT (n :: s) (DI a))) st true =
  Ok (Leaf (mkT (n :: s) (DI (map (fun x => if (x <? 0)%Z then 1%Z else 0%Z) a))), Tup [], Tup []).
Proof. intros Hp La Hst. apply (sign_series_i flt Z.ltb); auto. apply (user_of_genuine _ genuine_negative). Qed.
(** ** Select *)
Lemma py_nth_index vs i v : py_nth vs i = Ok v <-> at_index vs i v.
Proof.
  unfold py_nth, at_index. destruct (Z.ltb_spec i 0) as [L|L].
  - destruct (Z.ltb_spec (i + Z.of_nat (length vs)) 0) as [L'|L'].
    + split; [discriminate|]. intros [[K _]|(_ & K & _)]; lia.
    + replace (Z.to_nat (i + Z.of_nat (length vs))) with (length vs - Z.to_nat (- i)) by lia. split.
      * intros H. right. destruct (nth_error vs _); [injection H as ->|discriminate]. split; [lia|]. split; [lia|reflexivity].
      * intros [[K _]|(_ & _ & ->)]; [lia|reflexivity].
  - destruct (Z.ltb_spec i 0) as [L'|L']; [lia|]. split.
    + intros H. left. destruct (nth_error vs _); [injection H as ->|discriminate]. now split.
    + intros [[_ ->]|(K & _)]; [reflexivity|lia].
Qed.
Lemma at_index_in vs i v : at_index vs i v -> In v vs.
Proof. intros [[_ H]|(_ & _ & H)]; now apply nth_error_In in H. Qed.
Lemma at_index_row k vs i v : at_index vs i v -> at_index (map (row k) vs) i (row k v).
Proof.
  intros [[K H]|(K1 & K2 & H)]; [left|right]; rewrite ?map_length; repeat split; auto; rewrite nth_error_map, H; reflexivity.
Qed.
Lemma index_mapM vs l ws : mapM (py_nth vs) l = Ok ws <-> Forall2 (at_index vs) l ws.
Proof.
  rewrite mapM_ok_iff. split; induction 1; constructor; auto; now apply py_nth_index.
Qed.
Lemma series_part n x vs v : inputs_are x vs -> genuine x -> is_series n x -> In v vs ->
  genuine v /\ Forall (fun t => exists s, sh t = n :: s) (leaves v).
Proof.
  intros I G [_ S1] Hv. assert (G1 : Forall genuine vs) by (destruct I as [-> | ->]; [now apply genuine_tup|now apply genuine_lst]).
  rewrite Forall_forall in *. split; [now apply G1|]. intros t Ht. apply S1.
  destruct I as [-> | ->]; cbn [leaves]; apply in_flat_map; eauto.
Qed.
Lemma arguments_row i x vs : inputs_are x vs -> arguments (row i x) = map (row i) vs.
Proof. intros [-> | ->]; reflexivity. Qed.
Theorem select_list_series l n x vs ws st : n > 0 -> genuine x -> inputs_are x vs -> is_series n x -> no_state st ->
  Forall2 (at_index vs) l ws ->
  call (Select (IdxList l)) x st true = Ok (Lst ws, Tup [], Tup []).
Proof.
  intros Hp G I Hn Hst F.
  assert (K : forall w, In w ws -> genuine w /\ Forall (fun t => exists s, sh t = n :: s) (leaves w)).
  { intros w Hw. apply (series_part n x vs); auto. clear -F Hw. induction F; [easy|].
    destruct Hw as [<-|Hw]; [now apply at_index_in in H|auto]. }
  apply (stateless_series _ _ _ n); auto.
  - apply (user_of_genuine _ (genuine_select_list l)).
  - apply genuine_lst. apply Forall_forall. intros w Hw. now apply K.
  - apply Forall_forall. intros t Ht. cbn [leaves] in Ht. apply in_flat_map in Ht as (w & Hw & Ht).
    destruct (K w Hw) as [_ K2]. rewrite Forall_forall in K2. auto.
  - intros i Hi. rewrite (arguments_row i x vs I).
    assert (E : mapM (py_nth (map (row i) vs)) l = Ok (map (row i) ws)).
    { apply index_mapM. clear -F. induction F; constructor; auto. now apply at_index_row. }
    rewrite E. reflexivity.
Qed.
Theorem select_one_series j n x vs w st : n > 0 -> genuine x -> inputs_are x vs -> is_series n x -> no_state st ->
  at_index vs j w ->
  call (Select (IdxOne j)) x st true = Ok (w, Tup [], Tup []).
Proof.
  intros Hp G I Hn Hst F. destruct (series_part n x vs w) as [Gw Sw]; auto; [now apply at_index_in in F|].
  apply (stateless_series _ _ _ n); auto.
  - apply (user_of_genuine _ (genuine_select_one j)).
  - intros i Hi. rewrite (arguments_row i x vs I). apply py_nth_index. now apply at_index_row.
Qed.
Theorem select_tuple_never l x st r : genuine x -> genuine_opt st -> call (Select (IdxTuple l)) x st true <> Ok r.
Proof.
  intros G Gst H. destruct r as [[outs sf] s0]. destruct (series_of_call _ _ _ _ (genuine_pyok _ G) Gst H) as (n & Hn).
  apply (call_iff _ x st n) in H; auto. destruct H as (_ & o0 & s1 & i0 & os & Hf & _ & _ & tas & _ & Ht & _).
  cbn [forward_step Select make_streamable] in Hf. apply bind_ok in Hf as (o & Ho & Hf). injection Hf as <- <- <-.
  apply bind_ok in Ho as (ws & _ & Ho). injection Ho as <-. discriminate Ht.
Qed.
End StatelessFacts.
Theorem signs_exclusive N usable n s a st : @orderly N usable -> n > 0 -> length a = prod (n :: s) -> no_state st ->
  exists pos neg,
    call Positive (Leaf (mkT (n :: s) (DF a))) st true = Ok (Leaf (mkT (n :: s) (DF pos)), Tup [], Tup []) /\
    call Negative (Leaf (mkT (n :: s) (DF a))) st true = Ok (Leaf (mkT (n :: s) (DF neg)), Tup [], Tup []) /\
    forall i, i < length a ->
      (nth i pos f0 = f0 \/ nth i pos f0 = f1) /\ (nth i neg f0 = f0 \/ nth i neg f0 = f1) /\
      (nth i pos f0 = f0 \/ nth i neg f0 = f0).
Proof.
  intros O Hp La Hst. eexists _, _. split; [now apply positive_series_f|]. split; [now apply negative_series_f|].
  intros i Hi. set (x := nth i a f0).
  assert (E1 : nth i (map (fun x => if flt f0 x then f1 else f0) a) f0 = if flt f0 x then f1 else f0).
  { rewrite (nth_indep _ f0 ((fun x => if flt f0 x then f1 else f0) f0)) by now rewrite map_length.
    now rewrite (map_nth (fun x => if flt f0 x then f1 else f0)). }
  assert (E2 : nth i (map (fun x => if flt x f0 then f1 else f0) a) f0 = if flt x f0 then f1 else f0).
  { rewrite (nth_indep _ f0 ((fun x => if flt x f0 then f1 else f0) f0)) by now rewrite map_length.
    now rewrite (map_nth (fun x => if flt x f0 then f1 else f0)). }
  rewrite E1, E2. destruct (flt f0 x) eqn:H1, (flt x f0) eqn:H2; auto.
  assert (K := o_trans _ _ O _ _ _ H1 H2). now rewrite (o_irrefl _ _ O) in K.
Qed.
