(** * ImplRisk: closed form of RiskRatioEvaluator. *)
From Coq Require Import String List ZArith Bool Lia.
From Verif Require Import Num Py PyFacts Tensor Streamable Spec StreamFacts TensorFacts StreamProofs
  WfFacts Meta Common Finance Series Formulas EvalFacts Implements ImplMeta ImplBasic ImplScalar ImplComp ImplWindow ImplMarket.
Import ListNotations.

Section ImplRisk.
Context {N : FOps}.

Definition ticks (l : list tick) : val :=
  Tup [scalars (map k_low l); scalars (map k_high l); scalars (map k_close l); ints (map k_signal l)].
Definition tick_in : pyval (tick -> tensor) :=
  Tup [Leaf (fun x => fsc (k_low x)); Leaf (fun x => fsc (k_high x)); Leaf (fun x => fsc (k_close x));
       Leaf (fun x => isc (k_signal x))].
Lemma stack_ticks xs : xs <> [] -> stacked tick_in xs = ticks xs.
Proof. intros NE. cbn [stacked tick_in vmap map]. now rewrite !stack_fsc', stack_isc'. Qed.

Section Eval.
Variables (ks kl : F) (p : nat) (duration : option Z).
Let ev_ := evaluation ks kl p duration.
Lemma next_book_bounds d vol t b n : (0 <= b_age b <= n)%Z -> (0 <= b_wins b <= b_bets b)%Z -> (b_bets b <= n)%Z ->
  let b' := next_book ks kl d vol t b in
  (0 <= b_age b' <= n + 1)%Z /\ (0 <= b_wins b' <= b_bets b')%Z /\ (b_bets b' <= n + 1)%Z.
Proof.
  intros H1 H2 H3. unfold next_book, sold.
  repeat match goal with |- context [if ?c then _ else _] => destruct c end; cbn [b_age b_wins b_bets]; lia.
Qed.
Lemma evaluation_bounds h :
  (0 <= b_age (ev_ h) <= Z.of_nat (length h))%Z /\ (0 <= b_wins (ev_ h) <= b_bets (ev_ h))%Z /\
  (b_bets (ev_ h) <= Z.of_nat (length h))%Z.
Proof.
  induction h as [|t h (I1 & I2 & I3)]; [cbn; lia|].
  replace (Z.of_nat (length (t :: h))) with (Z.of_nat (length h) + 1)%Z by (cbn [length]; lia).
  unfold ev_. cbn [evaluation]. now apply next_book_bounds.
Qed.
End Eval.

Definition msd_sc (p : nat) : pyval (list F -> tensor) := on_sing (sma_st p []).
Lemma msd_scalar p : p >= 1 ->
  implements (MovingStandardDeviation (Z.of_nat p)) short (Leaf fsc) (Leaf (fun h => fsc (msd p h))) (msd_sc p).
Proof. intros Hp. apply implements_scalar, msd_implements, Hp. Qed.

Section Risk.
Variables (stop limit : pynum) (p : nat) (duration : option Z).
Hypothesis Hp : p >= 1.
Let bk := evaluation (num stop) (num limit) p duration.
Definition closes (h : list tick) : list F := map k_close h.
Definition risk_st : pyval (list tick -> tensor) :=
  Tup [Leaf (fun h => fsc (b_stop (bk h))); Leaf (fun h => fsc (b_limit (bk h))); Leaf (fun h => fsc (b_price (bk h)));
       Leaf (fun h => isc (b_age (bk h))); Leaf (fun h => isc (b_wins (bk h))); Leaf (fun h => isc (b_bets (bk h)));
       vmap (fun g h => g (closes h)) (msd_sc p)].
Definition risk_out : pyval (list tick -> tensor) :=
  Tup [Leaf (fun h => isc (b_wins (bk h))); Leaf (fun h => isc (b_bets (bk h))); Leaf (fun h => fsc (msd p (closes h)));
       Leaf (fun h => isc (b_signal (bk h)))].
Lemma at_risk_st h : at_ risk_st h =
  Tup [Leaf (fsc (b_stop (bk h))); Leaf (fsc (b_limit (bk h))); Leaf (fsc (b_price (bk h)));
       Leaf (isc (b_age (bk h))); Leaf (isc (b_wins (bk h))); Leaf (isc (b_bets (bk h))); at_ (msd_sc p) (closes h)].
Proof. rewrite <- (at_vmap closes (msd_sc p) h). reflexivity. Qed.
Lemma short_closes h : below31 h -> short (closes h).
Proof. unfold below31, short, closes. rewrite map_length. lia. Qed.
Definition book_val (b : book) : val :=
  Tup [Leaf (fsc (b_stop b)); Leaf (fsc (b_limit b)); Leaf (fsc (b_price b)); Leaf (isc (b_age b));
       Leaf (isc (b_wins b)); Leaf (isc (b_bets b)); Leaf (isc (b_signal b))].
Lemma solid_book b : solid (book_val b).
Proof. apply solid_pair. repeat constructor. Qed.
Lemma incr z : (-2147483648 <= z < 2147483647)%Z -> tadd (isc z) (isc 1) = Ok (isc (z + 1)).
Proof. intros H. unfold tadd. rewrite tbin_ii. unfold iadd. rewrite wrap32_small by lia. reflexivity. Qed.
Lemma pynum_f a k : pynum_like (fsc a) k = Ok (fsc (num k)).
Proof. exact (pynum_like_F [] [a] k). Qed.
Definition books (cs : list (bool * book)) : list (bool * val) := map (fun c => (fst c, book_val (snd c))) cs.
Lemma case_books cs d : tf_case (guarded (books cs)) (Ok (book_val d)) false = Ok (book_val (pick cs d)).
Proof.
  rewrite tf_case_pick.
  - f_equal. induction cs as [|[b v] cs IH]; [reflexivity|]. cbn [books map pick fst snd]. unfold books in IH. rewrite IH. now destruct b.
  - apply solid_book.
  - apply Forall_map, Forall_forall. intros c _. split; [apply solid_book|reflexivity].
  - reflexivity.
Qed.
Lemma risk_implements :
  implements (RiskRatioEvaluator stop limit (Z.of_nat p) duration) below31 tick_in risk_out risk_st.
Proof.
  assert (IM := msd_scalar p Hp). apply implements_intro.
  - unfold below31. cbn. lia.
  - intros x h. unfold below31. cbn [length]. lia.
  - ttup; [apply typed_fsc..|apply typed_isc].
  - ttup; [apply typed_isc|apply typed_isc|apply typed_fsc|apply typed_isc].
  - ttup; [apply typed_fsc..|apply typed_isc|apply typed_isc|apply typed_isc|].
    eapply (typed_pull closes); [apply IM|]. exact short_closes.
  - intros x h H.
    assert (H31 : (Z.of_nat (length h) < 2147483647)%Z) by (unfold below31 in H; cbn [length] in H; lia).
    destruct (evaluation_bounds (num stop) (num limit) p duration h) as (B1 & B2 & B3). fold bk in B1, B2, B3.
    assert (Hs : short (k_close x :: closes h)) by exact (short_closes (x :: h) H).
    rewrite !at_risk_st.
    change (at_ risk_out (x :: h)) with (Tup [Leaf (isc (b_wins (bk (x :: h)))); Leaf (isc (b_bets (bk (x :: h))));
      Leaf (fsc (msd p (closes (x :: h)))); Leaf (isc (b_signal (bk (x :: h))))]).
    assert (EB : bk (x :: h) = next_book (num stop) (num limit) duration (msd p (closes (x :: h))) x (bk h)) by reflexivity.
    set (b := bk h) in *. set (b' := bk (x :: h)) in *. clearbody b b'.
    cbn [forward_step RiskRatioEvaluator]. set (AT := at_ (msd_sc p)). cbn [at_ vmap tick_in map app]. subst AT.
    unfold risk_ratio_step. args.
    change (Leaf (fsc (k_close x))) with (at_ (Leaf fsc) (k_close x)) at 1.
    rewrite (im_call _ _ _ _ _ _ _ IM) by exact Hs. cbn [bind at_ vmap as_t].
    change (k_close x :: closes h) with (closes (x :: h)).
    set (vol := msd p (closes (x :: h))) in *.
    unfold tequal, tless_equal, tgreater_equal, tgreater, tlogical_and. ev.
    rewrite !pynum_f. cbn [bind]. unfold tmul, tsub. ev. rewrite !incr by lia. cbn [bind].
    pose (holding := negb (feq (b_stop b) (f_of_Z 0))). fold holding.
    pose (lc := match duration with None => [] | Some m =>
      [(holding && Z.eqb (b_age b) m, sold (if flt (b_price b) (k_close x) then b_wins b + 1 else b_wins b)%Z (b_bets b + 1)%Z)] end).
    match goal with |- bind ?e ?f = ?r => replace e with (@Ok (list (tensor * res val)) (guarded (books lc)))
      by (unfold lc; destruct duration as [m|]; [ev; reflexivity|reflexivity]) end.
    cbn [bind]. unfold tadd. ev.
    match goal with |- bind ?e ?f = ?r => replace e with (@Ok val (book_val (pick ([
      (holding && fle (k_low x) (b_stop b), sold (b_wins b) (b_bets b + 1)%Z);
      (holding && fle (b_limit b) (k_high x), sold (b_wins b + 1)%Z (b_bets b + 1)%Z);
      (feq (b_stop b) (f_of_Z 0) && Z.eqb (k_signal x) 1,
       Book (fsub (k_close x) (fmul (num stop) vol)) (fadd (k_close x) (fmul (num limit) vol)) (k_close x) 1
         (b_wins b) (b_bets b) 1)] ++ lc)
      (Book (b_stop b) (b_limit b) (b_price b) (b_age b + 1) (b_wins b) (b_bets b) 0)))) end.
    2: { symmetry. unfold guarded, books in *. rewrite <- case_books. unfold guarded, books. rewrite !map_app. reflexivity. }
    replace (pick _ _) with b'; [reflexivity|].
    rewrite EB. unfold next_book, lc. fold f0 in *. fold f0. change (negb (feq (b_stop b) f0)) with holding.
    replace (feq (b_stop b) f0) with (negb holding) by apply negb_involutive.
    cbn [pick app]. destruct duration as [m|]; cbn [pick]; [reflexivity|]. rewrite andb_false_r. reflexivity.
  - intros x H. assert (Hs : short [k_close x]) by exact (short_closes [x] H).
    rewrite !at_risk_st.
    cbn [forward_step RiskRatioEvaluator]. set (AT := at_ (msd_sc p)). cbn [at_ vmap tick_in map app]. subst AT.
    unfold risk_ratio_step. args.
    assert (E0 := im_call0 _ _ _ _ _ _ IM Hs). assert (E1 := im_call _ _ _ _ _ _ _ IM Hs).
    change (at_ (Leaf fsc) (k_close x)) with (@Leaf tensor (fsc (k_close x))) in E0, E1. change (closes []) with (@nil F).
    rewrite E0, E1. reflexivity.
Qed.
Definition evaluations (l : list (Z * Z * F * Z)) : val :=
  Tup [ints (map (fun x => fst (fst (fst x))) l); ints (map (fun x => snd (fst (fst x))) l);
       scalars (map (fun x => snd (fst x)) l); ints (map snd l)].
Theorem risk_streams :
  streams (RiskRatioEvaluator stop limit (Z.of_nat p) duration) below31 ticks
    (fun hs => evaluations (map (fun h => (b_wins (bk h), b_bets (bk h), msd p (map k_close h), b_signal (bk h))) hs)).
Proof.
  eapply streams_of; [apply risk_implements|discriminate|apply stack_ticks|].
  intros hs NE. cbn [stacked risk_out vmap map]. unfold evaluations. rewrite !map_map. rewrite !stack_isc', stack_fsc' by assumption.
  reflexivity.
Qed.
End Risk.
End ImplRisk.
