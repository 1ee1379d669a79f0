(** * ImplBasic: closed forms of Lag, SetDuring, the moving averages, the moving standard
    deviation, Bollinger bands and returns. *)
From Coq Require Import String List ZArith Bool Lia.
From Verif Require Import Num Py PyFacts Tensor Streamable Spec StreamFacts TensorFacts StreamProofs
  WfFacts Meta Common Finance Series Formulas EvalFacts Implements ImplMeta.
Import ListNotations.

Ltac args := cbn [arity length Nat.leb andb bind targ nth_error as_t targ_or].
Ltac ttup := apply typed_tup; repeat apply Forall_cons; [..|apply Forall_nil].

Section ImplBasic.
Context {N : FOps}.

Lemma streams_of {X} op P (EI : pyval (X -> tensor)) EO ES inp out :
  implements op P EI EO ES -> leaves EI <> [] ->
  (forall xs, xs <> [] -> stacked EI xs = inp xs) ->
  (forall hs, hs <> [] -> stacked EO hs = out hs) ->
  streams op P inp out.
Proof.
  intros IM NL HI HO. exists (at_ ES).
  assert (NH : forall (h xs : list X), xs <> [] -> hists h xs <> []) by (intros h [|x xs] H; [easy|discriminate]).
  split.
  - intros xs NE Hok. rewrite <- HI, <- HO by auto.
    pose proof (implements_stream op P EI EO ES IM [] xs None) as E. rewrite app_nil_r in E. apply E; auto.
  - intros h xs NE Hok. rewrite <- HI, <- HO by auto.
    apply (implements_stream op P EI EO ES IM); auto.
Qed.
(** Only the step with a state has to be described. *)
Lemma implements_intro {X} op (P : list X -> Prop) EI EO ES :
  P [] -> (forall x h, P (x :: h) -> P h) ->
  typed (fun x => exists h, P (x :: h)) EI -> typed (fun h => P h /\ h <> []) EO -> typed P ES ->
  (forall x h, P (x :: h) ->
    forward_step op (at_ EI x) (Some (at_ ES h)) = Ok (at_ EO (x :: h), at_ ES (x :: h), at_ ES h)) ->
  (forall x, P [x] -> forward_step op (at_ EI x) None = forward_step op (at_ EI x) (Some (at_ ES []))) ->
  implements op P EI EO ES.
Proof.
  intros H1 H2 H3 H4 H5 H6 H7. split; auto. intros x H. rewrite H7 by assumption. now apply H6.
Qed.
Lemma typed_mkT {X} (P : X -> Prop) d s (g : X -> list (elt d)) :
  (forall x, P x -> length (g x) = prod s) -> typed P (Leaf (fun x => mkT s (mkD d (g x)))).
Proof.
  intros H. apply (typed_leaf _ _ (s, d)). intros x Hx. split.
  - now destruct d.
  - unfold wf. cbn [sh dat]. destruct d; cbn [mkD dlen]; now apply H.
Qed.
Lemma typed_mkF {X} (P : X -> Prop) s (g : X -> list F) :
  (forall x, P x -> length (g x) = prod s) -> typed P (Leaf (fun x => mkF s (g x))).
Proof. exact (typed_mkT P F32 s g). Qed.
Lemma typed_fsc {X} (P : X -> Prop) (g : X -> F) : typed P (Leaf (fun x => fsc (g x))).
Proof. apply (typed_leaf _ _ ([], F32)). intros. split; reflexivity. Qed.
Lemma typed_isc {X} (P : X -> Prop) (g : X -> Z) : typed P (Leaf (fun x => isc (g x))).
Proof. apply (typed_leaf _ _ ([], I32)). intros. split; reflexivity. Qed.
Lemma typed_bsc {X} (P : X -> Prop) (g : X -> bool) : typed P (Leaf (fun x => bsc (g x))).
Proof. apply (typed_leaf _ _ ([], BOOL)). intros. split; reflexivity. Qed.
Lemma typed_cnt {X} (P : list X -> Prop) : typed P (Leaf cnt).
Proof. apply (typed_leaf _ _ ([], I32)). intros. split; reflexivity. Qed.
Lemma typed_mkb {X} (P : X -> Prop) d p s (g : X -> list (list (elt d))) :
  (forall x, P x -> length (g x) = p /\ shaped s (g x)) -> typed P (Leaf (fun x => mkb d p s (g x))).
Proof.
  intros H. apply (typed_leaf _ _ (p :: s, d)). intros x Hx. destruct (H x Hx) as [H1 H2]. split.
  - now destruct d.
  - unfold wf, mkb. cbn [sh dat]. assert (length (concat (g x)) = p * prod s).
    { rewrite (concat_length_k _ (prod s)) by exact H2. now rewrite H1. }
    destruct d; cbn [mkD dlen]; assumption.
Qed.
Lemma typed_nil {X} (P : X -> Prop) : typed P (Tup []).
Proof. now apply typed_tup. Qed.

(** The rows a buffer of the last [p] elements contains. *)
Definition wnd (d : dtype) (p : nat) (s : list nat) (h : list (list (elt d))) : list (list (elt d)) :=
  window p (repeat (zero_of d) (prod s)) h.
Lemma wnd_length d p s h : length (wnd d p s h) = p.
Proof. apply window_length. Qed.
Lemma wnd_shaped d p s h : shaped s h -> shaped s (wnd d p s h).
Proof. intros H. apply window_Forall; [apply repeat_length|exact H]. Qed.
Lemma wnd_roll d p s x h : p >= 1 -> shaped s (x :: h) ->
  roll (mkT s (mkD d x)) (mkb d p s (wnd d p s h)) = Ok (mkb d p s (wnd d p s (x :: h))).
Proof.
  intros Hp H. inversion H; subst. rewrite roll_buf; auto using wnd_length, wnd_shaped.
  unfold wnd. now rewrite window_cons.
Qed.
Lemma wnd_nth d p s h i : i < p -> nth i (wnd d p s h) [] = nth i h (repeat (zero_of d) (prod s)).
Proof.
  intros Hi. rewrite (nth_indep _ [] (repeat (zero_of d) (prod s))) by (rewrite wnd_length; lia).
  now apply window_nth.
Qed.
Lemma nth_shaped {A} s (h : list (list A)) i z : shaped s h -> length z = prod s -> length (nth i h z) = prod s.
Proof.
  intros H Hz. destruct (Nat.lt_ge_cases i (length h)).
  - unfold shaped in H. rewrite Forall_forall in H. apply H. now apply nth_In.
  - now rewrite nth_overflow.
Qed.
Lemma wnd_zeros d p s x : zeros_buffer (Z.of_nat p) (mkT s (mkD d x)) = Ok (mkb d p s (wnd d p s [])).
Proof. apply zeros_buffer_buf. Qed.

Lemma wnd_rollF p s x h : p >= 1 -> shaped s (x :: h) ->
  roll (mkF s x) (mkb F32 p s (wnd F32 p s h)) = Ok (mkb F32 p s (wnd F32 p s (x :: h))).
Proof. exact (wnd_roll F32 p s x h). Qed.
Lemma wnd_zerosF p s x : zeros_buffer (Z.of_nat p) (mkF s x) = Ok (mkb F32 p s (wnd F32 p s [])).
Proof. exact (wnd_zeros F32 p s x). Qed.

(** ** Lag *)
Lemma lag_implements d s p : p >= 1 ->
  implements (Lag (Z.of_nat p)) (shaped s)
    (Leaf (fun r : list (elt d) => mkT s (mkD d r)))
    (Leaf (fun h => mkT s (mkD d (nth p h (repeat (zero_of d) (prod s))))))
    (Leaf (fun h => mkb d p s (wnd d p s h))).
Proof.
  intros Hp. apply implements_intro.
  - constructor.
  - intros x h H. now inversion H.
  - apply typed_mkT. intros x (h & H). now inversion H.
  - apply typed_mkT. intros h [H _]. apply nth_shaped; auto. apply repeat_length.
  - apply typed_mkb. intros h H. auto using wnd_length, wnd_shaped.
  - intros x h H. cbn [forward_step Lag at_ vmap app]. unfold lag_step. cbn [arity length Nat.leb andb bind targ nth_error as_t targ_or].
    inversion H; subst. rewrite index0_last by auto using wnd_length, wnd_shaped. cbn [bind].
    rewrite wnd_roll by assumption. cbn [bind]. rewrite wnd_nth by lia.
    replace (nth (p - 1) h) with (nth p (x :: h)); [reflexivity|].
    destruct p; [lia|]. simpl. now rewrite Nat.sub_0_r.
  - intros x H. cbn [forward_step Lag at_ vmap app]. unfold lag_step. cbn [arity length Nat.leb andb bind targ nth_error as_t targ_or].
    now rewrite wnd_zeros.
Qed.
Theorem lag_streams d s p : p >= 1 ->
  streams (Lag (Z.of_nat p)) (shaped s) (series_of d s)
    (fun hs => series_of d s (map (fun h => nth p h (repeat (zero_of d) (prod s))) hs)).
Proof.
  intros Hp. eapply streams_of; [apply (lag_implements d s p Hp)|discriminate|..].
  - intros xs NE. cbn [stacked vmap]. now rewrite stack_mkD.
  - intros hs NE. cbn [stacked vmap]. unfold series_of. f_equal.
    rewrite <- (map_map (fun h => nth p h (repeat (zero_of d) (prod s))) (fun r => mkT s (mkD d r))).
    apply stack_mkD. destruct hs; [easy|discriminate].
Qed.

(** ** Buffered operators *)
Lemma column_wnd p s j h : column f0 j (wnd F32 p s h) = window p f0 (column f0 j h).
Proof.
  unfold column, wnd. rewrite window_map. f_equal. cbn [zero_of elt]. apply nth_repeat.
Qed.
Lemma treduce0_wnd r p s h : shaped s h ->
  treduce0 r (mkb F32 p s (wnd F32 p s h)) = Ok (mkF s (each s (fun c => r (window p f0 c)) h)).
Proof.
  intros H. rewrite treduce0_buf by auto using wnd_length, wnd_shaped. do 2 f_equal.
  apply each_ext. intros j _. now rewrite column_wnd.
Qed.
Lemma each_if {B} s (b : bool) (u v : list F -> B) (w : list F -> B) h :
  (forall j, j < prod s -> w (column f0 j h) = if b then u (column f0 j h) else v (column f0 j h)) ->
  each s w h = if b then each s u h else each s v h.
Proof. intros H. destruct b; apply each_ext; exact H. Qed.

(** ** SimpleMovingAverage, for series of any length *)
Definition sma_code (p : nat) (h : list F) : F :=
  if (wrap32 (Z.of_nat (length h) - 1) <? Z.of_nat p - 1)%Z then f0
  else fdiv (fsum (window p f0 h)) (f_of_Z (Z.of_nat p)).
Definition sma_st (p : nat) (s : list nat) : pyval (list (list F) -> tensor) :=
  Tup [Leaf cnt; Leaf (fun h => mkb F32 p s (wnd F32 p s h))].
Lemma sma_implements_code s p : p >= 1 ->
  implements (SimpleMovingAverage (Z.of_nat p)) (shaped s)
    (Leaf (mkF s)) (Leaf (fun h => mkF s (each s (sma_code p) h))) (sma_st p s).
Proof.
  intros Hp. apply implements_intro.
  - constructor.
  - intros x h H. now inversion H.
  - apply typed_mkF. intros x (h & H). now inversion H.
  - apply typed_mkF. intros h _. apply each_length.
  - ttup; [apply typed_cnt|].
    apply typed_mkb. intros h H. auto using wnd_length, wnd_shaped.
  - intros x h H. cbn [forward_step SimpleMovingAverage at_ vmap sma_st map app]. unfold sma_step. args.
    rewrite wnd_rollF by assumption. cbn [bind].
    unfold cnt at 1. rewrite int_op_i. unfold tless. rewrite tcmp_ii. cbn [bind].
    unfold treduce_sum0. rewrite treduce0_wnd by assumption. cbn [bind].
    rewrite int_op_F. unfold tdiv. rewrite tbin_scalar_r by apply each_length.
    rewrite zeros_like_F, tcond_F. cbn [bind]. rewrite (cnt_next x). cbn [bind].
    rewrite <- (each_const s f0 (x :: h)), map_each. do 5 f_equal. symmetry. apply each_if.
    intros j _. unfold sma_code. rewrite column_length. cbn [length].
    replace (Z.of_nat (S (length h)) - 1)%Z with (Z.of_nat (length h)) by lia. reflexivity.
  - intros x H. cbn [forward_step SimpleMovingAverage at_ vmap sma_st map app]. unfold sma_step. args.
    now rewrite wnd_zerosF.
Qed.
Lemma sma_code_ok p h : p >= 1 -> short h -> h <> [] -> sma_code p h = sma p h.
Proof.
  intros Hp Hs NE. unfold sma_code, sma, short in *.
  assert (length h > 0) by (destruct h; [easy|simpl; lia]).
  rewrite wrap32_small by lia.
  destruct (Z.ltb_spec (Z.of_nat (length h) - 1) (Z.of_nat p - 1)), (Nat.ltb_spec (length h) p); try lia; auto.
  now rewrite window_full.
Qed.
Lemma column_nil {A} (d : A) j h : column d j h = [] -> h = [].
Proof. apply map_eq_nil. Qed.
Lemma sma_implements s p : p >= 1 ->
  implements (SimpleMovingAverage (Z.of_nat p)) (ok_rows s)
    (Leaf (mkF s)) (Leaf (fun h => mkF s (each s (sma p) h))) (sma_st p s).
Proof.
  intros Hp. eapply implements_out.
  - eapply implements_weaken; [apply sma_implements_code; exact Hp|apply ok_rows_nil|apply ok_rows_tl|now intros h []].
  - apply typed_mkF. intros h _. apply each_length.
  - intros h [H1 H2] NE. cbn [at_ vmap]. do 2 f_equal. apply each_ext. intros j _.
    symmetry. apply sma_code_ok; [assumption|eapply short_le; [exact H2|now rewrite column_length]|].
    intros E. apply column_nil in E. auto.
Qed.
Lemma tensors_streams op P s f ES :
  implements op P (Leaf (mkF s)) (Leaf (fun h => mkF s (each s f h))) ES ->
  streams op P (tensors s) (fun hs => tensors s (map (each s f) hs)).
Proof.
  intros IM. eapply streams_of; [exact IM|discriminate|..].
  - intros xs NE. cbn [stacked vmap]. now rewrite stack_mkF.
  - intros hs NE. cbn [stacked vmap]. unfold tensors. f_equal.
    rewrite <- (map_map (each s f) (mkF s)). apply stack_mkF. destruct hs; [easy|discriminate].
Qed.
Theorem sma_streams s p : p >= 1 ->
  streams (SimpleMovingAverage (Z.of_nat p)) (ok_rows s) (tensors s) (fun hs => tensors s (map (each s (sma p)) hs)).
Proof. intros Hp. eapply tensors_streams, sma_implements, Hp. Qed.

(** ** Moving averages seeded by the simple average *)
(** The oldest [p] elements. *)
Definition oldest {A} (p : nat) (h : list A) : list A := skipn (length h - p) h.
Lemma oldest_all {A} p (h : list A) : length h <= p -> oldest p h = h.
Proof. intros H. unfold oldest. now replace (length h - p) with 0 by lia. Qed.
Lemma oldest_cons {A} p (x : A) h : p <= length h -> oldest p (x :: h) = oldest p h.
Proof.
  intros H. unfold oldest. cbn [length]. replace (S (length h) - p) with (S (length h - p)) by lia. reflexivity.
Qed.
Lemma oldest_length {A} p (h : list A) : length (oldest p h) <= length h.
Proof. unfold oldest. rewrite skipn_length. lia. Qed.
Lemma Forall_skipn {A} (P : A -> Prop) n l : Forall P l -> Forall P (skipn n l).
Proof.
  intros H. rewrite <- (firstn_skipn n l) in H. apply Forall_app in H. apply H.
Qed.
Lemma ok_rows_oldest s p h : ok_rows s h -> ok_rows s (oldest p h).
Proof.
  intros [H1 H2]. split; [apply Forall_skipn, H1|]. eapply short_le; [exact H2|apply oldest_length].
Qed.
Lemma ok_rows_cons_oldest s p x h : ok_rows s (x :: h) -> ok_rows s (x :: oldest p h).
Proof.
  intros [H1 H2]. inversion H1; subst. split; [constructor; auto; apply Forall_skipn; auto|].
  eapply short_le; [exact H2|]. cbn [length]. pose proof (oldest_length p h). lia.
Qed.
Definition seeded_st (p : nat) (s : list nat) (f : list F -> F) : pyval (list (list F) -> tensor) :=
  Tup [Leaf cnt; Leaf (fun h => mkF s (each s f h)); vmap (fun g h => g (oldest p h)) (sma_st p s)].
Lemma typed_seeded_st p s f : p >= 1 -> typed (ok_rows s) (seeded_st p s f).
Proof.
  intros Hp. ttup.
  - apply typed_cnt.
  - apply typed_mkF. intros. apply each_length.
  - eapply (typed_pull (oldest p)); [apply (sma_implements s p Hp)|]. intros h. apply ok_rows_oldest.
Qed.
(** what the two branches of the tf.cond have in common *)
Lemma sma_st_solid p s l h : p >= 1 -> ok_rows s h ->
  solid (Tup [Leaf (mkF s l); at_ (sma_st p s) h]).
Proof.
  intros Hp H. apply solid_pair. repeat constructor.
Qed.
Lemma sma_st_types p s l l' h h' :
  same_types (Tup [Leaf (mkF s l); at_ (sma_st p s) h]) (Tup [Leaf (mkF s l'); at_ (sma_st p s) h']) = true.
Proof. reflexivity. Qed.
Lemma cnt_lt {X} (x : X) h p : short (x :: h) -> int_op tless (cnt h) (Z.of_nat p) = Ok (bsc (length h <? p)).
Proof. intros H. apply (cnt_ltb x); [exact H|]. apply ltb_nat. Qed.
Lemma each_step s x h (a b : F -> F) (f : list F -> F) (c : F -> F -> F) : length x = prod s ->
  map2 c (map a x) (map b (each s f h)) =
  each s (fun g => match g with [] => f0 | y :: r => c (a y) (b (f r)) end) (x :: h).
Proof.
  intros H. rewrite (nth_list' f0 x (prod s) H) at 1. unfold each. rewrite !map_map, map2_map. reflexivity.
Qed.

Lemma ema_implements s p : p >= 1 ->
  implements (ExponentialMovingAverage (Z.of_nat p)) (ok_rows s)
    (Leaf (mkF s)) (Leaf (fun h => mkF s (each s (ema p) h))) (seeded_st p s (ema p)).
Proof.
  intros Hp. apply implements_intro.
  - apply ok_rows_nil.
  - apply ok_rows_tl.
  - apply typed_mkF. intros x (h & H & _). now inversion H.
  - apply typed_mkF. intros. apply each_length.
  - now apply typed_seeded_st.
  - intros x h H. cbn [forward_step ExponentialMovingAverage]. cbn [at_ vmap seeded_st map app]. fold (sma_st p s).
    change (vmap (fun g => g h) (vmap (fun f h => f (oldest p h)) (sma_st p s))) with (at_ (vmap (fun g h => g (oldest p h)) (sma_st p s)) h).
    change (vmap (fun g => g (x :: h)) (vmap (fun f h => f (oldest p h)) (sma_st p s))) with (at_ (vmap (fun g h => g (oldest p h)) (sma_st p s)) (x :: h)).
    rewrite !(at_vmap (oldest p)).
    unfold ema_step. args.
    change (Leaf (mkF s x)) with (at_ (Leaf (mkF s)) x) at 1.
    rewrite (im_call _ _ _ _ _ _ _ (sma_implements s p Hp)) by now apply ok_rows_cons_oldest.
    cbn [bind]. rewrite !pyfloat_like_F. cbn [bind]. destruct H as [H1 H2]. inversion H1; subst.
    unfold tmul, tadd at 1. do 2 (rewrite tbin_scalar_r by auto using each_length; cbn [bind]).
    rewrite tbin_same. cbn [bind].
    rewrite (cnt_lt x) by assumption. cbn [bind].
    rewrite tf_cond_pick'; [|apply sma_st_solid; auto..|apply sma_st_types].
    2: { apply ok_rows_cons_oldest. split; auto. }
    2: { apply ok_rows_oldest. split; auto. now apply short_tl in H2. }
    cbn [bind]. destruct (Nat.ltb_spec (length h) p); cbn [item nth_error bind].
    + rewrite oldest_all by lia. rewrite oldest_all by (cbn [length]; lia).
      rewrite (cnt_next x). cbn [bind].
      assert (E : each s (ema p) (x :: h) = each s (sma p) (x :: h)).
      { apply each_ext. intros j _. cbn [column map ema length]. rewrite map_length.
        destruct (Nat.leb_spec (S (length h)) p); [reflexivity|lia]. }
      cbn [at_ vmap]. rewrite E. reflexivity.
    + rewrite oldest_cons by lia. rewrite (cnt_next x). cbn [bind].
      assert (E : each s (ema p) (x :: h) = map2 fadd (map (fun y => fmul y (f_of_D (ema_k (Z.of_nat p)))) x)
        (map (fun y => fmul y (f_of_D (dsub (d_of_Z 1) (ema_k (Z.of_nat p))))) (each s (ema p) h))).
      { rewrite each_step by assumption. apply each_ext. intros j _. cbn [column map ema length]. rewrite map_length.
        destruct (Nat.leb_spec (S (length h)) p); [lia|reflexivity]. }
      rewrite E. reflexivity.
  - intros x H. cbn [forward_step ExponentialMovingAverage]. cbn [at_ vmap seeded_st map app]. fold (sma_st p s).
    unfold ema_step. args.
    change (Leaf (mkF s x)) with (at_ (Leaf (mkF s)) x).
    rewrite (im_call0 _ _ _ _ _ _ (sma_implements s p Hp)) by assumption.
    change (vmap (fun g => g []) (vmap (fun f h => f (oldest p h)) (sma_st p s))) with (at_ (vmap (fun g h => g (oldest p h)) (sma_st p s)) []).
    rewrite (at_vmap (oldest p)). change (oldest p []) with (@nil (list F)).
    rewrite (im_call _ _ _ _ _ _ _ (sma_implements s p Hp)) by assumption.
    rewrite zeros_like_F. rewrite <- (each_const s f0 []).
    replace (each s (fun _ => f0) []) with (each s (ema p) []) by (apply each_ext; reflexivity).
    reflexivity.
Qed.
Theorem ema_streams s p : p >= 1 ->
  streams (ExponentialMovingAverage (Z.of_nat p)) (ok_rows s) (tensors s) (fun hs => tensors s (map (each s (ema p)) hs)).
Proof. intros Hp. eapply tensors_streams, ema_implements, Hp. Qed.

Lemma rma_implements s p : p >= 1 ->
  implements (RollingMovingAverage (Z.of_nat p)) (ok_rows s)
    (Leaf (mkF s)) (Leaf (fun h => mkF s (each s (rma p) h))) (seeded_st p s (rma p)).
Proof.
  intros Hp. apply implements_intro.
  - apply ok_rows_nil.
  - apply ok_rows_tl.
  - apply typed_mkF. intros x (h & H & _). now inversion H.
  - apply typed_mkF. intros. apply each_length.
  - now apply typed_seeded_st.
  - intros x h H. cbn [forward_step RollingMovingAverage]. cbn [at_ vmap seeded_st map app]. fold (sma_st p s).
    change (vmap (fun g => g h) (vmap (fun f h => f (oldest p h)) (sma_st p s))) with (at_ (vmap (fun g h => g (oldest p h)) (sma_st p s)) h).
    change (vmap (fun g => g (x :: h)) (vmap (fun f h => f (oldest p h)) (sma_st p s))) with (at_ (vmap (fun g h => g (oldest p h)) (sma_st p s)) (x :: h)).
    rewrite !(at_vmap (oldest p)).
    unfold rma_step. args.
    change (Leaf (mkF s x)) with (at_ (Leaf (mkF s)) x) at 1.
    rewrite (im_call _ _ _ _ _ _ _ (sma_implements s p Hp)) by now apply ok_rows_cons_oldest.
    cbn [bind]. rewrite int_op_F. destruct H as [H1 H2]. inversion H1; subst.
    unfold tmul, tadd at 1. rewrite tbin_scalar_r by auto using each_length. cbn [bind].
    rewrite tbin_same. cbn [bind]. rewrite int_op_F. unfold tdiv.
    rewrite tbin_scalar_r by (rewrite map2_length; rewrite ?map_length, each_length; auto). cbn [bind].
    rewrite (cnt_lt x) by assumption. cbn [bind].
    rewrite tf_cond_pick'; [|apply sma_st_solid; auto..|apply sma_st_types].
    2: { apply ok_rows_cons_oldest. split; auto. }
    2: { apply ok_rows_oldest. split; auto. now apply short_tl in H2. }
    cbn [bind]. destruct (Nat.ltb_spec (length h) p); cbn [item nth_error bind].
    + rewrite oldest_all by lia. rewrite oldest_all by (cbn [length]; lia).
      rewrite (cnt_next x). cbn [bind].
      assert (E : each s (rma p) (x :: h) = each s (sma p) (x :: h)).
      { apply each_ext. intros j _. cbn [column map rma length]. rewrite map_length.
        destruct (Nat.leb_spec (S (length h)) p); [reflexivity|lia]. }
      cbn [at_ vmap]. rewrite E. reflexivity.
    + rewrite oldest_cons by lia. rewrite (cnt_next x). cbn [bind].
      match goal with |- context [mkF s (map ?f (map2 fadd (map ?g ?y) x))] =>
        assert (E : each s (rma p) (x :: h) = map f (map2 fadd (map g y) x)) end.
      { rewrite (nth_list' f0 x (prod s)) at 2 by assumption. unfold each. rewrite !map_map, map2_map, map_map.
        apply map_ext_in. intros j _. cbn [column map rma length]. rewrite map_length.
        destruct (Nat.leb_spec (S (length h)) p); [lia|reflexivity]. }
      rewrite E. reflexivity.
  - intros x H. cbn [forward_step RollingMovingAverage]. cbn [at_ vmap seeded_st map app]. fold (sma_st p s).
    unfold rma_step. args.
    change (Leaf (mkF s x)) with (at_ (Leaf (mkF s)) x).
    rewrite (im_call0 _ _ _ _ _ _ (sma_implements s p Hp)) by assumption.
    change (vmap (fun g => g []) (vmap (fun f h => f (oldest p h)) (sma_st p s))) with (at_ (vmap (fun g h => g (oldest p h)) (sma_st p s)) []).
    rewrite (at_vmap (oldest p)). change (oldest p []) with (@nil (list F)).
    rewrite (im_call _ _ _ _ _ _ _ (sma_implements s p Hp)) by assumption.
    rewrite zeros_like_F. rewrite <- (each_const s f0 []).
    replace (each s (fun _ => f0) []) with (each s (rma p) []) by (apply each_ext; reflexivity).
    reflexivity.
Qed.
Theorem rma_streams s p : p >= 1 ->
  streams (RollingMovingAverage (Z.of_nat p)) (ok_rows s) (tensors s) (fun hs => tensors s (map (each s (rma p)) hs)).
Proof. intros Hp. eapply tensors_streams, rma_implements, Hp. Qed.

(** ** MovingStandardDeviation *)
Lemma cnt_lt_pred {X} (x : X) h p : p >= 1 -> short (x :: h) ->
  int_op tless (cnt h) (Z.of_nat p - 1) = Ok (bsc (S (length h) <? p)).
Proof.
  intros Hp H. apply (cnt_ltb x); [exact H|].
  replace (Z.of_nat p - 1)%Z with (Z.of_nat (p - 1)) by lia. rewrite ltb_nat.
  destruct (Nat.ltb_spec (length h) (p - 1)), (Nat.ltb_spec (S (length h)) p); auto; lia.
Qed.
Lemma msd_implements s p : p >= 1 ->
  implements (MovingStandardDeviation (Z.of_nat p)) (ok_rows s)
    (Leaf (mkF s)) (Leaf (fun h => mkF s (each s (msd p) h))) (sma_st p s).
Proof.
  intros Hp. apply implements_intro.
  - apply ok_rows_nil.
  - apply ok_rows_tl.
  - apply typed_mkF. intros x (h & H & _). now inversion H.
  - apply typed_mkF. intros. apply each_length.
  - ttup; [apply typed_cnt|].
    apply typed_mkb. intros h [H _]. auto using wnd_length, wnd_shaped.
  - intros x h H. cbn [forward_step MovingStandardDeviation at_ vmap sma_st map app]. unfold msd_step. args.
    destruct H as [H1 H2].
    rewrite wnd_rollF by assumption. cbn [bind]. unfold tmoments0.
    do 2 (rewrite treduce0_wnd by assumption; cbn [bind]).
    unfold tsqrt. rewrite tun_F. cbn [bind]. rewrite (cnt_lt_pred x) by assumption. cbn [bind].
    rewrite zeros_like_F, tcond_F. cbn [bind]. rewrite (cnt_next x). cbn [bind].
    rewrite <- (each_const s f0 (x :: h)), map_each. do 5 f_equal. symmetry. apply each_if.
    intros j _. unfold msd. rewrite column_length. cbn [length].
    destruct (Nat.ltb_spec (S (length h)) p); [reflexivity|].
    rewrite window_full; [reflexivity|]. rewrite column_length. simpl. lia.
  - intros x H. cbn [forward_step MovingStandardDeviation at_ vmap sma_st map app]. unfold msd_step. args.
    now rewrite wnd_zerosF.
Qed.
Theorem msd_streams s p : p >= 1 ->
  streams (MovingStandardDeviation (Z.of_nat p)) (ok_rows s) (tensors s) (fun hs => tensors s (map (each s (msd p)) hs)).
Proof. intros Hp. eapply tensors_streams, msd_implements, Hp. Qed.

(** ** BollingerBands *)
Lemma bollinger_implements s n k : n >= 1 ->
  implements (BollingerBands (Z.of_nat n) k) (ok_rows s) (Leaf (mkF s))
    (Tup [Leaf (fun h => mkF s (each s (fun c => fsub (sma n c) (fmul (msd n c) (num k))) h));
          Leaf (fun h => mkF s (each s (sma n) h));
          Leaf (fun h => mkF s (each s (fun c => fadd (sma n c) (fmul (msd n c) (num k))) h))])
    (Tup [sma_st n s; sma_st n s]).
Proof.
  intros Hn. apply implements_intro.
  - apply ok_rows_nil.
  - apply ok_rows_tl.
  - apply typed_mkF. intros x (h & H & _). now inversion H.
  - ttup; apply typed_mkF; intros; apply each_length.
  - ttup; apply (sma_implements s n Hn).
  - intros x h H. cbn [forward_step BollingerBands].
    change (at_ (Tup [sma_st n s; sma_st n s])) with (fun h => Tup [at_ (sma_st n s) h; at_ (sma_st n s) h]).
    cbv beta iota. cbn [app]. change (at_ (Leaf (mkF s)) x) with (Leaf (mkF s x)). cbv iota.
    cbn [app]. unfold bollinger_step. args. change (Leaf (mkF s x)) with (at_ (Leaf (mkF s)) x).
    rewrite (im_call _ _ _ _ _ _ _ (sma_implements s n Hn)) by assumption. cbn [bind].
    rewrite (im_call _ _ _ _ _ _ _ (msd_implements s n Hn)) by assumption. cbn [bind at_ vmap as_t].
    rewrite pynum_like_F. cbn [bind]. unfold tmul, tsub, tadd.
    rewrite tbin_scalar_r by apply each_length. cbn [bind].
    do 2 (rewrite tbin_same; cbn [bind]).
    rewrite map_each, !map2_each. reflexivity.
  - intros x H. cbn [forward_step BollingerBands].
    change (at_ (Tup [sma_st n s; sma_st n s])) with (fun h => Tup [at_ (sma_st n s) h; at_ (sma_st n s) h]).
    cbv beta iota. cbn [app]. change (at_ (Leaf (mkF s)) x) with (Leaf (mkF s x)). cbv iota.
    cbn [app]. unfold bollinger_step. args. change (Leaf (mkF s x)) with (at_ (Leaf (mkF s)) x).
    rewrite (im_call _ _ _ _ _ _ _ (sma_implements s n Hn)) by assumption.
    rewrite (im_call0 _ _ _ _ _ _ (sma_implements s n Hn)) by assumption. cbn [bind].
    rewrite (im_call _ _ _ _ _ _ _ (msd_implements s n Hn)) by assumption.
    rewrite (im_call0 _ _ _ _ _ _ (msd_implements s n Hn)) by assumption. reflexivity.
Qed.
Lemma stack_each {X} s (u : X -> list F) (hs : list X) : hs <> [] ->
  Leaf (stackT (map (fun h => mkF s (u h)) hs)) = tensors s (map u hs).
Proof.
  intros NE. unfold tensors. f_equal. rewrite <- (map_map u (mkF s)). apply stack_mkF.
  destruct hs; [easy|discriminate].
Qed.
Theorem bollinger_streams s n k : n >= 1 ->
  streams (BollingerBands (Z.of_nat n) k) (ok_rows s) (tensors s) (fun hs =>
    Tup [tensors s (map (each s (fun c => fsub (sma n c) (fmul (msd n c) (num k)))) hs);
         tensors s (map (each s (sma n)) hs);
         tensors s (map (each s (fun c => fadd (sma n c) (fmul (msd n c) (num k)))) hs)]).
Proof.
  intros Hn. eapply streams_of; [apply bollinger_implements, Hn|discriminate|..].
  - intros xs NE. cbn [stacked vmap]. now rewrite stack_mkF.
  - intros hs NE. cbn [stacked vmap map]. now rewrite !stack_each.
Qed.

(** ** SetDuring *)
Definition filled (d : dtype) (a : elt d) (t : tensor) : tensor :=
  mkT (sh t) (mkD d (repeat a (prod (sh t)))).
Lemma setduring_implements {X} d (a : elt d) p (P : list X -> Prop) EI :
  P [] -> (forall x h, P (x :: h) -> P h) -> (forall h, P h -> short h) ->
  typed (fun x => exists h, P (x :: h)) EI ->
  (forall g x h, In g (leaves EI) -> P (x :: h) -> dtype_of (g x) = d) ->
  implements (SetDuring (mkT [] (mkD d [a])) (Z.of_nat p)) P EI
    (vmap (fun g h => match h with [] => dummy
       | x :: r => if length r <? p then filled d a (g x) else g x end) EI)
    (Tup [Leaf cnt]).
Proof.
  intros P0 Pt Ps T D. apply implements_intro; auto.
  - destruct T as [T1 T2]. split; [now apply pyok_vmap|]. rewrite leaves_vmap, Forall_map.
    rewrite Forall_forall in *. intros g Hg. destruct (T2 g Hg) as (sg & K).
    exists sg. intros [|x r] [Hx NE]; [easy|]. specialize (D g x r Hg Hx).
    destruct (K x) as [K1 K2]; [eauto|]. destruct (length r <? p); auto.
    unfold filled, tsig in *. cbn [sh]. split.
    + rewrite <- K1, D. now destruct d.
    + unfold wf. cbn [sh dat]. destruct d; cbn [mkD dlen]; apply repeat_length.
  - ttup. apply typed_cnt.
  - intros x h H. cbn [forward_step SetDuring]. unfold set_during_step.
    cbn [at_ vmap map item nth_error bind as_t]. fold (at_ EI x).
    change (pyint_like (cnt h) (Z.of_nat p)) with (Ok (isc (Z.of_nat p))). cbn [bind].
    assert (EC : tless (cnt h) (isc (Z.of_nat p)) = Ok (bsc (length h <? p))) by exact (cnt_lt x h p (Ps _ H)).
    assert (pyok EI) by apply T.
    match goal with |- bind ?m _ = _ => assert (E : m = Ok (at_ (vmap (fun g h => match h with [] => dummy
       | x :: r => if length r <? p then filled d a (g x) else g x end) EI) (x :: h))) end.
    { unfold at_. etransitivity; [apply (map_fn_vmap _ EI H0 (fun g => g x) [fun g => g x])|].
      rewrite vmap_vmap. cbn [map].
      etransitivity; [|apply (vmapM_ok (fun g => Ok (if length h <? p then filled d a (g x) else g x))
        (fun g => if length h <? p then filled d a (g x) else g x)); auto].
      apply vmapM_ext. intros g Hg. cbn [bind]. rewrite EC. cbn [bind].
      assert (EF : fill (sh (g x)) (mkT [] (mkD d [a])) = Ok (filled d a (g x))) by (now destruct d).
      rewrite EF. cbn [bind]. rewrite tf_cond_pick'; [destruct (length h <? p); reflexivity|apply solid_leaf..|].
      unfold same_types. cbn [vmap pv_eqb]. rewrite (D g x h Hg H). now destruct d. }
    rewrite E. cbn [bind]. change (pyint_like (cnt h) 1) with (Ok (isc 1)). cbn [bind].
    assert (EN : tadd (cnt h) (isc 1) = Ok (cnt (x :: h))) by exact (cnt_next x h).
    rewrite EN. reflexivity.
Qed.

Lemma hists_nth {X} (xs : list X) : forall h i d, i < length xs -> nth i (hists h xs) d = rev (firstn (S i) xs) ++ h.
Proof.
  induction xs as [|x xs IH]; intros h i d Hi; cbn [length] in Hi; [lia|].
  destruct i as [|i]; [reflexivity|]. cbn [hists nth]. rewrite IH by lia.
  change (firstn (S (S i)) (x :: xs)) with (x :: firstn (S i) xs). cbn [rev]. now rewrite <- app_assoc.
Qed.
Lemma rev_firstn_S {X} (xs : list X) i d : i < length xs -> rev (firstn (S i) xs) = nth i xs d :: rev (firstn i xs).
Proof.
  revert i. induction xs as [|x xs IH]; intros i Hi; cbn [length] in Hi; [lia|].
  destruct i as [|i]; [reflexivity|]. change (firstn (S (S i)) (x :: xs)) with (x :: firstn (S i) xs).
  cbn [rev]. rewrite IH by lia. reflexivity.
Qed.
(** A series as the stack of its rows. *)
Lemma stacked_rows n v : n > 0 -> genuine v -> is_series n v ->
  stacked (vmap (fun t i => trow i t) v) (seq 0 n) = v.
Proof.
  intros Hn [G1 G2] [_ S2]. unfold stacked. rewrite vmap_vmap. rewrite <- (vmap_id v) at 2.
  apply vmap_ext. intros t Ht. rewrite Forall_forall in *. destruct (S2 t Ht) as (s & E).
  eapply stackT_rows; eauto.
Qed.
Lemma typed_rows n v (P : nat -> Prop) : genuine v -> is_series n v -> (forall i, P i -> i < n) ->
  typed P (vmap (fun t i => trow i t) v).
Proof.
  intros [G1 G2] [_ S2] HP. split; [now apply pyok_vmap|]. rewrite leaves_vmap, Forall_map.
  rewrite Forall_forall in *. intros t Ht. destruct (S2 t Ht) as (s & E).
  exists (s, dtype_of t). intros i Hi. split.
  - unfold tsig, trow. cbn [sh dtype_of dat]. rewrite E. cbn [tl]. f_equal. unfold dtype_of. now destruct (dat t).
  - eapply wf_trow; eauto.
Qed.
Lemma genuine_stacked {Y} (Q : Y -> Prop) (E : pyval (Y -> tensor)) ys i d :
  typed Q E -> Forall Q ys -> leaves E <> [] -> i < length ys ->
  row i (stacked E ys) = at_ E (nth i ys d).
Proof.
  intros T HQ NL Hi. assert (NE : ys <> []) by (destruct ys; [simpl in Hi; lia|discriminate]).
  destruct (stacked_series Q E ys T NE HQ NL) as (_ & _ & R).
  assert (E1 : nth i (rows (length ys) (stacked E ys)) (row 0 (stacked E ys)) = row i (stacked E ys)).
  { unfold rows. rewrite (map_nth (fun i => row i (stacked E ys))). now rewrite seq_nth. }
  rewrite <- E1, R. rewrite (nth_indep _ _ (at_ E d)) by (now rewrite map_length). apply map_nth.
Qed.
Theorem setduring_series d (a : elt d) p k n v st :
  genuine v -> is_series n v -> n > 0 -> Forall (fun t => dtype_of t = d) (leaves v) ->
  (Z.of_nat (k + n) <= 2147483648)%Z ->
  st = Some (Tup [Leaf (isc (Z.of_nat k))]) \/ st = None /\ k = 0 ->
  exists o sf, call (SetDuring (mkT [] (mkD d [a])) (Z.of_nat p)) v st true =
      Ok (o, sf, Tup [Leaf (isc (Z.of_nat k))]) /\
    genuine o /\ is_series n o /\
    forall i, i < n -> row i o = if k + i <? p then vmap (filled d a) (row i v) else row i v.
Proof.
  intros G S Hn HD Hk Hst.
  set (P := fun h : list nat => short h /\ Forall (fun i => i < n) h).
  set (EI := vmap (fun t i => trow i t) v).
  assert (TI : typed (fun x => exists h, P (x :: h)) EI).
  { apply (typed_rows n); auto. intros i (h & _ & H). now inversion H. }
  assert (IM := setduring_implements d a p P EI). 
  destruct IM as [P0 Pt _ TO TS ST IN]; auto.
  { split; [apply short_nil|constructor]. }
  { intros x h [H1 H2]. split; [now apply short_tl in H1|now inversion H2]. }
  { now intros h []. }
  { intros g x h Hg _. unfold EI in Hg. rewrite leaves_vmap in Hg. apply in_map_iff in Hg as (t & <- & Ht).
    rewrite Forall_forall in HD. rewrite <- (HD t Ht). unfold dtype_of, trow. cbn [dat]. now destruct (dat t). }
  assert (IM := Build_implements _ _ _ _ _ _ P0 Pt TI TO TS ST IN).
  set (EO := vmap _ EI) in *.
  assert (NL : leaves EI <> []).
  { unfold EI. rewrite leaves_vmap. intros E. apply map_eq_nil in E. now apply (proj1 S). }
  assert (NLO : leaves EO <> []).
  { unfold EO. rewrite leaves_vmap. intros E. apply map_eq_nil in E. auto. }
  assert (HP : P (rev (seq 0 n) ++ repeat 0 k)).
  { split.
    - unfold short. rewrite app_length, rev_length, seq_length, repeat_length. lia.
    - apply Forall_app. split; apply Forall_forall.
      + intros i Hi. apply in_rev in Hi. apply in_seq in Hi. lia.
      + intros i Hi. apply repeat_spec in Hi. lia. }
  assert (NE : seq 0 n <> []) by (destruct n; [lia|discriminate]).
  assert (E0 : at_ (Tup [Leaf cnt]) (repeat 0 k) = Tup [Leaf (isc (Z.of_nat k))]).
  { cbn [at_ vmap map]. unfold cnt. rewrite repeat_length, wrap32_small by lia. reflexivity. }
  pose proof (implements_stream _ P EI EO _ IM (repeat 0 k) (seq 0 n) st HP NE NL) as E.
  rewrite E0 in E. unfold EI in E at 1. rewrite stacked_rows in E by auto.
  eexists _, _. split; [apply E; destruct Hst as [->|[-> ->]]; auto|].
  assert (HH := im_hists _ _ _ _ _ IM _ _ HP).
  assert (LH : length (hists (repeat 0 k) (seq 0 n)) = n) by (rewrite hists_length; apply seq_length).
  assert (NH : hists (repeat 0 k) (seq 0 n) <> []) by (intros Em; rewrite Em in LH; simpl in LH; lia).
  destruct (stacked_series _ EO (hists (repeat 0 k) (seq 0 n)) TO NH HH NLO) as (G1 & S1 & _).
  rewrite LH in S1. split; [exact G1|]. split; [exact S1|]. intros i Hi.
  rewrite (genuine_stacked _ EO _ i [] TO HH NLO) by lia.
  rewrite hists_nth by (rewrite seq_length; lia).
  rewrite (rev_firstn_S _ i 0) by (rewrite seq_length; lia). rewrite seq_nth by lia.
  cbn [app]. unfold at_, EO, EI, row. rewrite !vmap_vmap.
  rewrite app_length, rev_length, firstn_length, seq_length, repeat_length.
  replace (Nat.min i n + k) with (k + i) by lia. cbn [Nat.add].
  destruct (k + i <? p); reflexivity.
Qed.
End ImplBasic.
