(** * ImplSignal: the zero-crossing signal and the two pipelines built on it. *)
From Coq Require Import String List ZArith Bool Lia.
From Verif Require Import Num Py PyFacts Tensor Streamable Spec StreamFacts TensorFacts StreamProofs
  WfFacts Meta Common Finance Series Formulas EvalFacts Implements ImplMeta ImplBasic ImplScalar ImplComp.
Import ListNotations.

Section ImplSignal.
Context {N : FOps}.

(** ** ZeroCrossoverSignal, as the code computes it *)
Definition sgn (x : F) : F := if fge (fsign x) f0 then f_of_Z 1 else f_of_Z (-1).
Definition crossed (d x : F) : bool := flt (sgn (fmul x d)) f0 && negb (feq x f0).
Fixpoint zc_dir (h : list F) : F :=
  match h with
  | [] => f0
  | x :: r => match r with
              | [] => sgn x
              | _ => if crossed (zc_dir r) x then fneg (zc_dir r) else zc_dir r
              end
  end.
Definition zc_sig (h : list F) : F :=
  match h with
  | [] | [_] => f0
  | x :: r => if crossed (zc_dir r) x then fneg (zc_dir r) else f0
  end.
Definition mkI (s : list nat) (l : list Z) : tensor := mkT s (DI l).
Definition isnil {A} (h : list A) : bool := match h with [] => true | _ => false end.
Lemma map2_each' {A B C} (f : A -> B -> C) s u v h :
  map2 f (each s u h) (each s v h) = each s (fun c => f (u c) (v c)) h.
Proof. apply map2_each. Qed.
Lemma tbin_each ff fi s u v h :
  tbin ff fi (mkF s (each s u h)) (mkF s (each s v h)) = Ok (mkF s (each s (fun c => ff (u c) (v c)) h)).
Proof. now rewrite tbin_same, map2_each'. Qed.
Lemma tcmp_each ff fi s u v h :
  tcmp ff fi (mkF s (each s u h)) (mkF s (each s v h)) = Ok (mkT s (DB (each s (fun c => ff (u c) (v c)) h))).
Proof. now rewrite tcmp_same, map2_each'. Qed.
Lemma tun_each f s u h : tun f (mkF s (each s u h)) = Ok (mkF s (each s (fun c => f (u c)) h)).
Proof. now rewrite tun_F, map_each. Qed.
Lemma tnot_each s u h :
  tlogical_not (mkT s (DB (each s u h))) = Ok (mkT s (DB (each s (fun c => negb (u c)) h))).
Proof. unfold tlogical_not. cbn [dat sh]. now rewrite map_each. Qed.
Lemma tand_each s u v h :
  tlogical_and (mkT s (DB (each s u h))) (mkT s (DB (each s v h))) = Ok (mkT s (DB (each s (fun c => u c && v c) h))).
Proof. unfold tlogical_and, tbool2. cbn [dat sh]. rewrite bop_same. cbn [bind]. now rewrite map2_each'. Qed.
Lemma combine_each {A B} s (u : list F -> A) (v : list F -> B) h :
  combine (each s u h) (each s v h) = each s (fun c => (u c, v c)) h.
Proof. unfold each. induction (seq 0 (prod s)) as [|j l IH]; [reflexivity|]. cbn. now rewrite IH. Qed.
Lemma twhere_each s (b : list F -> bool) u v h :
  twhere (mkT s (DB (each s b h))) (mkF s (each s u h)) (mkF s (each s v h)) =
  Ok (mkF s (each s (fun c => if b c then u c else v c) h)).
Proof.
  unfold twhere. cbn [dat sh]. rewrite !shape_eqb_refl. cbn [andb mkF dat sh]. unfold sel3.
  rewrite combine_each, map2_each'. reflexivity.
Qed.
Lemma sign_each s u h : sign (mkF s (each s u h)) = Ok (mkF s (each s (fun c => sgn (u c)) h)).
Proof.
  unfold sign, tsign. rewrite tun_each. cbn [bind]. unfold tgreater_equal, zeros. cbn [sh mkF].
  rewrite <- (each_const s f0 h). 
  change (mkT s (DF (each s (fun c => fsign (u c)) h))) with (mkF s (each s (fun c => fsign (u c)) h)).
  change (mkT s (DF (each s (fun _ => f0) h))) with (mkF s (each s (fun _ => f0) h)).
  rewrite tcmp_each. cbn [bind fill sh fsc dat]. unfold fsc. cbn [fill sh dat bind].
  rewrite <- (each_const s (f_of_Z 1) h), <- (each_const s (f_of_Z (-1)) h).
  apply (twhere_each s (fun c => fge (fsign (u c)) f0) (fun _ => f_of_Z 1) (fun _ => f_of_Z (-1))).
Qed.
Definition zc_st (s : list nat) : pyval (list (list F) -> tensor) :=
  Tup [Leaf (fun h => bsc (isnil h)); Leaf (fun h => mkF s (each s zc_dir h))].
Lemma each_tl {B} s (f : list F -> B) x h : each s f h = each s (fun c => f (tl c)) (x :: h).
Proof. apply each_ext. reflexivity. Qed.
Lemma zc_implements s :
  implements ZeroCrossoverSignal (ok_rows s) (Leaf (mkF s))
    (Leaf (fun h => mkI s (each s (fun c => f_to_Z (zc_sig c)) h))) (zc_st s).
Proof.
  apply implements_intro.
  - apply ok_rows_nil.
  - apply ok_rows_tl.
  - apply typed_rowin.
  - apply (typed_mkT _ I32). intros. apply each_length.
  - ttup; [apply typed_bsc|]. apply typed_mkF. intros. apply each_length.
  - intros x h [H _]. inversion H; subst. cbn [forward_step ZeroCrossoverSignal at_ vmap zc_st map app].
    unfold zero_crossover_step. args. rewrite zeros_like_F, <- (each_const s f0 (x :: h)).
    rewrite (each_tl s zc_dir x h). replace (mkF s x) with (mkF s (each s now (x :: h))) by (now rewrite each_now).
    rewrite sign_each. cbn [bind]. unfold tmul, tless, tequal, tneg.
    rewrite tbin_each. cbn [bind]. rewrite sign_each. cbn [bind].
    rewrite tcmp_each. cbn [bind]. rewrite tcmp_each. cbn [bind]. rewrite tnot_each. cbn [bind].
    rewrite tand_each. cbn [bind]. rewrite tun_each. cbn [bind].
    do 2 (rewrite twhere_each; cbn [bind]).
    rewrite tf_cond_pick'; [|apply solid_pair; repeat constructor..|reflexivity]. cbn [bind].
    rewrite <- (each_tl s zc_dir x h).
    destruct h as [|y h]; cbn [isnil item nth_error bind as_t].
    + unfold tcast_i32. cbn [mkF dat sh bind]. rewrite map_each. reflexivity.
    + unfold tcast_i32. cbn [mkF dat sh bind]. rewrite map_each. reflexivity.
  - intros x H. cbn [forward_step ZeroCrossoverSignal at_ vmap zc_st map app].
    unfold zero_crossover_step. args. rewrite zeros_like_F, <- (each_const s f0 []). reflexivity.
Qed.
Definition int_tensors (s : list nat) (rows : list (list Z)) : val :=
  Leaf (mkT (length rows :: s) (DI (concat rows))).
Lemma stack_mkI s g : g <> [] -> stackT (map (mkI s) g) = mkT (length g :: s) (DI (concat g)).
Proof. exact (stack_mkD I32 s g). Qed.
Lemma int_tensors_streams op P s f ES :
  implements op P (Leaf (mkF s)) (Leaf (fun h => mkI s (each s f h))) ES ->
  streams op P (tensors s) (fun hs => int_tensors s (map (each s f) hs)).
Proof.
  intros IM. eapply streams_of; [exact IM|discriminate|..].
  - intros xs NE. cbn [stacked vmap]. now rewrite stack_mkF.
  - intros hs NE. cbn [stacked vmap]. unfold int_tensors. f_equal.
    rewrite <- (map_map (each s f) (mkI s)). apply stack_mkI. destruct hs; [easy|discriminate].
Qed.
Theorem zc_streams s :
  streams ZeroCrossoverSignal (ok_rows s) (tensors s)
    (fun hs => int_tensors s (map (each s (fun c => f_to_Z (zc_sig c))) hs)).
Proof. eapply int_tensors_streams, zc_implements. Qed.

(** ** The pipelines *)
Definition ok_irows (s : list nat) (h : list (list Z)) : Prop := shaped s h /\ short h.
Lemma ok_irows_trail s (f : list F -> Z) h : short h -> ok_irows s (trail (each s f) h).
Proof. intros H. split; [apply trail_shaped; intros; apply each_length|now apply trail_short]. Qed.
Lemma setduring_irows p s a :
  implements (SetDuring (isc a) (Z.of_nat p)) (ok_irows s) (Leaf (mkI s))
    (Leaf (fun h => mkI s (if length h <=? p then repeat a (prod s) else hd [] h))) (Tup [Leaf cnt]).
Proof.
  eapply implements_out.
  - apply (setduring_implements I32 a p (ok_irows s) (Leaf (mkI s))).
    + split; [constructor|apply short_nil].
    + intros x h [H1 H2]. split; [now inversion H1|now apply short_tl in H2].
    + now intros h [].
    + apply (typed_mkT _ I32). intros x (h & H & _). now inversion H.
    + intros g x h [<-|[]] _. reflexivity.
  - apply (typed_mkT _ I32). intros h [[H _] NE]. destruct (length h <=? p); [apply repeat_length|now apply shaped_hd].
  - intros [|x h] H NE; [easy|]. cbn [at_ vmap length hd].
    change (S (length h) <=? p) with (length h <? p). now destruct (length h <? p).
Qed.
Lemma zc_chain s p f ops S :
  chain ops (ok_rows s) (Leaf (mkF s)) (Leaf (fun h => mkF s (each s f h))) S -> ops <> [] ->
  exists S', chain ((ops ++ [ZeroCrossoverSignal]) ++ [SetDuring (isc 0) (Z.of_nat p)]) (ok_rows s) (Leaf (mkF s))
    (Leaf (fun h => mkI s (each s (fun c => if length c <=? p then 0%Z else f_to_Z (zc_sig (trail f c))) h))) S'.
Proof.
  intros C NE.
  assert (C1 := chain_app (each s f) _ _ _ _ _ _ _ _ _ _ C (chain_one _ _ _ _ _ (zc_implements s)) NE
    (fun h H Hn => eq_refl) (fun h H => ok_rows_trail s f h (proj2 H))).
  eexists. eapply chain_out.
  - eapply (chain_app (each s (fun c => f_to_Z (zc_sig (trail f c)))) _ _ _ _ _ _ _ _ _ _ C1
      (chain_one _ _ _ _ _ (setduring_irows p s 0%Z))).
    + destruct ops; discriminate.
    + intros h H Hn. cbn [at_ vmap]. now rewrite each_trail.
    + intros h [_ H]. now apply ok_irows_trail.
  - apply (typed_mkT _ I32). intros. apply each_length.
  - intros [|x h] H Hn; [easy|]. cbn [at_ vmap]. do 2 f_equal. rewrite trail_length.
    rewrite (each_if s (length (x :: h) <=? p) (fun _ => 0%Z) (fun c => f_to_Z (zc_sig (trail f c)))).
    + destruct (length (x :: h) <=? p); [apply each_const|reflexivity].
    + intros j _. now rewrite column_length.
Qed.
Lemma typed_nth {X} (P : X -> Prop) Es i E : typed P (Tup Es) -> nth_error Es i = Some E -> typed P E.
Proof.
  intros [H1 H2] Hi. apply nth_error_In in Hi. split.
  - apply pyok_tup in H1. rewrite Forall_forall in H1. auto.
  - cbn [leaves] in H2. apply Forall_flat_map in H2. rewrite Forall_forall in H2. auto.
Qed.
Lemma nonempty_suffixes {X} (P : list X -> Prop) h : (forall x h, P (x :: h) -> P h) -> P h ->
  Forall (fun g => P g /\ g <> []) (trail (fun g => g) h).
Proof.
  intros Pt. induction h as [|x h IH]; intros H; constructor.
  - split; [exact H|discriminate].
  - apply IH. eauto.
Qed.
Lemma chain_select {X} op (P : list X -> Prop) EI EOs ES i E :
  implements op P EI (Tup EOs) ES -> nth_error EOs i = Some E ->
  exists S, chain [op; Select (IdxOne (Z.of_nat i))] P EI E S.
Proof.
  intros IM Hi. eexists. eapply chain_out.
  - eapply (chain_cons (fun h => h) op [Select (IdxOne (Z.of_nat i))] P
      (fun hs : list (list X) => Forall (fun h => P h /\ h <> []) hs)); [exact IM| |reflexivity|].
    + apply chain_one. apply (stateless_implements _ _ (Tup EOs) E).
      * constructor.
      * intros x h H. now inversion H.
      * eapply typed_weaken; [apply IM|]. intros h (g & H). now inversion H.
      * eapply typed_weaken; [eapply typed_nth; [apply IM|exact Hi]|]. intros h (g & H). now inversion H.
      * intros h g H. cbn [at_ vmap arglist]. unfold py_nth.
        destruct (Z.ltb_spec (Z.of_nat i) 0); [lia|]. destruct (Z.ltb_spec (Z.of_nat i) 0); [lia|].
        rewrite Nat2Z.id. rewrite nth_error_map, Hi. reflexivity.
    + intros h H. apply nonempty_suffixes; [apply IM|exact H].
  - eapply typed_nth; [apply IM|exact Hi].
  - intros [|x h] H NE; [easy|]. rewrite (at_vmap (trail (fun g => g))). cbn [trail]. now rewrite at_newest.
Qed.
Lemma macd_sig_implements s slow fast m : slow >= 1 -> fast >= 1 -> m >= 1 ->
  exists ES, implements (MovingAverageConvergenceDivergenceSignal (Z.of_nat slow) (Z.of_nat fast) (Z.of_nat m))
    (ok_rows s) (Leaf (mkF s))
    (Leaf (fun h => mkI s (each s (fun c => if length c + 1 <? slow + m then 0%Z
       else f_to_Z (zc_sig (trail (macd_histogram slow fast m) c))) h))) ES.
Proof.
  intros Hs Hf Hm.
  destruct (chain_select _ _ _ _ _ 4 _ (macd_implements s slow fast m Hs Hf Hm) eq_refl) as [S C].
  destruct (zc_chain s (slow + m - 2) _ _ _ C) as [S' C']; [discriminate|].
  unfold MovingAverageConvergenceDivergenceSignal.
  replace (Z.of_nat slow + Z.of_nat m - 2)%Z with (Z.of_nat (slow + m - 2)) by lia.
  eexists. eapply implements_out; [apply implements_compose; exact C'|apply (typed_mkT _ I32); intros; apply each_length|].
  intros h _ _. cbn [at_ vmap]. do 2 f_equal. apply each_ext. intros j _.
  destruct (Nat.ltb_spec (length (column f0 j h) + 1) (slow + m)), (Nat.leb_spec (length (column f0 j h)) (slow + m - 2)); auto; lia.
Qed.
Theorem macd_sig_streams s slow fast m : slow >= 1 -> fast >= 1 -> m >= 1 ->
  streams (MovingAverageConvergenceDivergenceSignal (Z.of_nat slow) (Z.of_nat fast) (Z.of_nat m))
    (ok_rows s) (tensors s)
    (fun hs => int_tensors s (map (each s (fun c => if length c + 1 <? slow + m then 0%Z
       else f_to_Z (zc_sig (trail (macd_histogram slow fast m) c)))) hs)).
Proof. intros Hs Hf Hm. destruct (macd_sig_implements s slow fast m Hs Hf Hm) as [ES IM]. eapply int_tensors_streams, IM. Qed.
Lemma crossover_sig_implements s slow fast : slow >= 1 -> fast >= 1 ->
  exists ES, implements (SimpleMovingAverageCrossoverSignal (Z.of_nat slow) (Z.of_nat fast))
    (ok_rows s) (Leaf (mkF s))
    (Leaf (fun h => mkI s (each s (fun c => if length c <=? slow then 0%Z
       else f_to_Z (zc_sig (trail (crossover_code slow fast) c))) h))) ES.
Proof.
  intros Hs Hf. destruct (crossover_implements s slow fast Hs Hf) as [S IM].
  destruct (zc_chain s slow _ _ _ (chain_one _ _ _ _ _ IM)) as [S' C']; [discriminate|].
  eexists. apply implements_compose. exact C'.
Qed.
Theorem crossover_sig_streams s slow fast : slow >= 1 -> fast >= 1 ->
  streams (SimpleMovingAverageCrossoverSignal (Z.of_nat slow) (Z.of_nat fast))
    (ok_rows s) (tensors s)
    (fun hs => int_tensors s (map (each s (fun c => if length c <=? slow then 0%Z
       else f_to_Z (zc_sig (trail (crossover_code slow fast) c)))) hs)).
Proof. intros Hs Hf. destruct (crossover_sig_implements s slow fast Hs Hf) as [ES IM]. eapply int_tensors_streams, IM. Qed.
End ImplSignal.
