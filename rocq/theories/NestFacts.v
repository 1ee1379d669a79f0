(** * NestFacts: nesting Compose only regroups the states. *)
From Coq Require Import String List ZArith Bool Lia.
From Verif Require Import Num Py PyFacts Tensor Streamable Spec StreamFacts TensorFacts StreamProofs
  WfFacts Meta Common Finance Library GenuineBase Genuine GenuineLib RunFacts SpecMeta JoinFacts ComposeFacts.
Import ListNotations.

Section NestFacts.
Context {N : FOps}.
Hint Resolve genuine_pyok genuine_opt_pyok : core.

(** ** Operators that differ in the presentation of their state *)
Section Iso.
Context {P : Type} (op1 op2 : operator) (f g : P -> val) (G : P -> Prop)
  (core : val -> option P -> res (val * P * P)).
Local Notation Gopt := (Gopt G).
Hypothesis H1 : forall x q, genuine x -> Gopt q ->
  forward_step op1 x (option_map f q) = let* (o, p, i) := core x q in Ok (o, f p, f i).
Hypothesis H2 : forall x q, genuine x -> Gopt q ->
  forward_step op2 x (option_map g q) = let* (o, p, i) := core x q in Ok (o, g p, g i).
Hypothesis HG : forall x q o p i, genuine x -> Gopt q -> core x q = Ok (o, p, i) -> G p /\ G i.
Hypothesis Gf : forall p, G p -> genuine (f p).
Hypothesis Gg : forall p, G p -> genuine (g p).
Hypothesis Hc : forall p p', G p -> G p' -> state_check (f p) (f p') = Ok tt <-> state_check (g p) (g p') = Ok tt.
Hypothesis If : forall p p', G p -> G p' -> f p = f p' -> p = p'.

Lemma iso_steps : forall xs p os sf, Forall genuine xs -> G p ->
  stepsG state_check op1 (f p) xs = Ok (os, sf) ->
  exists p', G p' /\ sf = f p' /\ stepsG state_check op2 (g p) xs = Ok (os, g p').
Proof.
  induction xs as [|x xs IH]; intros p os sf Gx Gp H.
  - injection H as <- <-. exists p. auto.
  - inversion Gx; subst. apply stepsG_cons in H as (o & s' & i & os' & F & C & R & ->).
    change (Some (f p)) with (option_map f (Some p)) in F. rewrite H1 in F by auto.
    apply bind_ok in F as ([[o1 p1] i1] & F & E). injection E as <- <- <-.
    destruct (HG x (Some p) _ _ _ ltac:(auto) Gp F) as [Gp1 Gi1].
    destruct (IH _ _ _ ltac:(auto) Gp1 R) as (p' & Gp' & -> & R'). exists p'. split; auto. split; auto.
    apply stepsG_cons. exists o1, (g p1), (g i1), os'. split; [|split; [now apply Hc|auto]].
    change (Some (g p)) with (option_map g (Some p)). rewrite H2, F by auto. reflexivity.
Qed.
Lemma iso_call v q b o s i : genuine v -> Gopt q ->
  call op1 v (option_map f q) b = Ok (o, s, i) ->
  exists p' i', G p' /\ G i' /\ s = f p' /\ i = f i' /\ call op2 v (option_map g q) b = Ok (o, g p', g i').
Proof.
  intros Gv Gq H.
  assert (Gfq : genuine_opt (option_map f q)) by (destruct q; simpl in *; auto).
  assert (Ggq : genuine_opt (option_map g q)) by (destruct q; simpl in *; auto).
  destruct b.
  - destruct (series_of_call _ _ _ _ (genuine_pyok _ Gv) Gfq H) as (n & Hn).
    rewrite (call_iff _ v _ n) in H by auto. destruct H as (Hp & o0 & s1 & i0 & os & F & E & R & A).
    assert (G0 : genuine (row 0 v)) by now apply (genuine_row n).
    rewrite H1 in F by auto. apply bind_ok in F as ([[o1 p1] i1] & F & E'). injection E' as <- <- <-.
    destruct (HG _ _ _ _ _ G0 Gq F) as [Gp1 Gi1].
    set (i' := match q with Some p => p | None => i1 end).
    assert (Gi' : G i') by (unfold i'; destruct q; auto).
    assert (Ei : i = f i') by (subst i; unfold i'; now destruct q). subst i.
    rewrite Ei, stepsC_G in R. destruct (iso_steps _ _ _ _ (genuine_rows n v Gv Hn) Gi' R) as (p' & Gp' & -> & R').
    exists p', i'. repeat (split; auto). apply (call_iff _ v _ n); auto. split; auto.
    exists o1, (g p1), (g i1), os. rewrite H2, F, stepsC_G by auto.
    split; [reflexivity|]. split; [unfold i'; now destruct q|]. auto.
  - rewrite call_false_g in H by auto. rewrite H1 in H by auto.
    apply bind_ok in H as ([[o1 p1] i1] & F & E'). injection E' as <- <- <-.
    destruct (HG _ _ _ _ _ Gv Gq F) as [Gp1 Gi1]. exists p1, i1. repeat (split; auto).
    rewrite call_false_g, H2, F by auto. reflexivity.
Qed.
Lemma iso_call_to v q b o p i : genuine v -> Gopt q -> G p -> G i ->
  call op1 v (option_map f q) b = Ok (o, f p, f i) -> call op2 v (option_map g q) b = Ok (o, g p, g i).
Proof.
  intros Gv Gq Gp Gi H. destruct (iso_call _ _ _ _ _ _ Gv Gq H) as (p' & i' & Gp' & Gi' & E1 & E2 & K).
  apply If in E1; auto. apply If in E2; auto. now subst.
Qed.
End Iso.

(** ** Regrouping *)
Definition core (C B A : list operator) (x : val) (q : option triple) : res (val * triple * triple) :=
  let qc := option_map (fun p : triple => fst (fst p)) q in
  let qb := option_map (fun p : triple => snd (fst p)) q in
  let qa := option_map (fun p : triple => snd p) q in
  let* (m1, sc, ic) := ploop (combine C (states_for (length C) qc)) x in
  let* (m2, sb, ib) := ploop (combine B (states_for (length B) qb)) m1 in
  let* (o, sa, ia) := ploop (combine A (states_for (length A) qa)) m2 in
  Ok (o, (sc, sb, sa), (ic, ib, ia)).

Lemma ploop_app l1 l2 : forall x, ploop (l1 ++ l2) x =
  let* (m, n1, i1) := ploop l1 x in let* (o, n2, i2) := ploop l2 m in Ok (o, n1 ++ n2, i1 ++ i2).
Proof.
  induction l1 as [|[op st] l1 IH]; intros x; cbn [app ploop bind].
  - now destruct (ploop l2 x) as [[[o n] i]|].
  - destruct (call op x st false) as [[[m s] i]|]; cbn [bind]; [|reflexivity]. rewrite IH.
    destruct (ploop l1 m) as [[[m' n1] i1]|]; cbn [bind]; [|reflexivity].
    now destruct (ploop l2 m') as [[[o n2] i2]|].
Qed.
Lemma combine_app' {A B} (a1 a2 : list A) (b1 b2 : list B) : length a1 = length b1 ->
  combine (a1 ++ a2) (b1 ++ b2) = combine a1 b1 ++ combine a2 b2.
Proof. revert b1; induction a1 as [|x a1 IH]; intros [|y b1] L; try discriminate; simpl; auto. now rewrite IH by auto. Qed.
Lemma ploop_genuine l : forall x o ss is,
  Forall (fun p => genuine_op (fst p) /\ genuine_opt (snd p)) l -> genuine x ->
  ploop l x = Ok (o, ss, is) -> genuine o /\ Forall genuine ss /\ Forall genuine is.
Proof.
  induction l as [|[op st] l IH]; intros x o ss is Hl Gx H; cbn [ploop] in H; binv H; [auto|].
  inversion Hl as [|? ? [Hop Hst] Hl']; subst. cbn [fst snd] in *.
  destruct (genuine_call _ _ _ _ _ _ Hop Gx Hst E) as (G1 & G2 & G3).
  eapply IH in E0 as (G4 & G5 & G6); eauto.
Qed.
Lemma states_genuine ops q : Forall genuine_op ops -> given_states (length ops) q ->
  Forall (fun p => genuine_op (fst p) /\ genuine_opt (snd p)) (combine ops (states_for (length ops) q)).
Proof.
  intros Ho Gq. apply combine_ops; auto. destruct q as [ss|]; simpl in *.
  - apply Forall_map. now destruct Gq.
  - apply Forall_forall. intros y Hy. apply repeat_spec in Hy. now subst.
Qed.
Lemma repeat_app' {A} (x : A) n m : repeat x (n + m) = repeat x n ++ repeat x m.
Proof. induction n; simpl; congruence. Qed.

Section Nest.
Variables C B A : list operator.
Hypothesis HB : B <> [].
Hypothesis GC : Forall genuine_op C.
Hypothesis GB : Forall genuine_op B.
Hypothesis GA : Forall genuine_op A.

Lemma part_states q : Gopt (Gtriple C B A) q ->
  given_states (length C) (option_map (fun p : triple => fst (fst p)) q) /\
  given_states (length B) (option_map (fun p : triple => snd (fst p)) q) /\
  given_states (length A) (option_map (fun p : triple => snd p) q).
Proof. destruct q as [[[c b] a]|]; simpl; tauto. Qed.
Lemma tcong (q : option triple) : option_map flat q = tuple_state (option_map (fun p : triple => fst (fst p) ++ snd (fst p) ++ snd p) q).
Proof. now destruct q as [[[c b] a]|]. Qed.
Lemma tcongn (q : option triple) : option_map nest q = tuple_state (option_map (fun p : triple => fst (fst p) ++ Tup (snd (fst p)) :: snd p) q).
Proof. now destruct q as [[[c b] a]|]. Qed.

Lemma flat_core x q : genuine x -> Gopt (Gtriple C B A) q ->
  forward_step (Chain (C ++ B ++ A)) x (option_map flat q) =
  let* (o, p, i) := core C B A x q in Ok (o, flat p, flat i).
Proof.
  intros Gx Gq. destruct (part_states q Gq) as (Gc & Gb & Ga).
  rewrite tcong, chain_fwd.
  2:{ destruct C; [destruct B; [easy|discriminate]|discriminate]. }
  2:{ destruct q as [[[c b] a]|]; simpl in *; [|exact I]. rewrite !app_length. rewrite !Forall_app.
      split; [lia|tauto]. }
  assert (E : states_for (length (C ++ B ++ A)) (option_map (fun p : triple => fst (fst p) ++ snd (fst p) ++ snd p) q)
     = states_for (length C) (option_map (fun p : triple => fst (fst p)) q) ++
       states_for (length B) (option_map (fun p : triple => snd (fst p)) q) ++
       states_for (length A) (option_map (fun p : triple => snd p) q)).
  { destruct q as [[[c b] a]|]; simpl; [now rewrite !map_app|]. rewrite !app_length. now rewrite !repeat_app'. }
  rewrite E, combine_app' by (symmetry; now apply states_length).
  rewrite combine_app' by (symmetry; now apply states_length).
  rewrite !ploop_app. unfold core.
  destruct (ploop (combine C _) x) as [[[m1 sc] ic]|]; cbn [bind]; [|reflexivity]. rewrite ploop_app.
  destruct (ploop (combine B _) m1) as [[[m2 sb] ib]|]; cbn [bind]; [|reflexivity].
  destruct (ploop (combine A _) m2) as [[[o sa] ia]|]; cbn [bind]; reflexivity.
Qed.
Lemma nest_core x q : genuine x -> Gopt (Gtriple C B A) q ->
  forward_step (Chain (C ++ Chain B :: A)) x (option_map nest q) =
  let* (o, p, i) := core C B A x q in Ok (o, nest p, nest i).
Proof.
  intros Gx Gq. destruct (part_states q Gq) as (Gc & Gb & Ga).
  rewrite tcongn, chain_fwd.
  2:{ destruct C; discriminate. }
  2:{ destruct q as [[[c b] a]|]; simpl in *; [|exact I]. rewrite !app_length. rewrite !Forall_app.
      simpl. split; [lia|]. split; [tauto|]. constructor; [now apply genuine_tup|tauto]. }
  assert (E : states_for (length (C ++ Chain B :: A)) (option_map (fun p : triple => fst (fst p) ++ Tup (snd (fst p)) :: snd p) q)
     = states_for (length C) (option_map (fun p : triple => fst (fst p)) q) ++
       tuple_state (option_map (fun p : triple => snd (fst p)) q) ::
       states_for (length A) (option_map (fun p : triple => snd p) q)).
  { destruct q as [[[c b] a]|]; simpl; [now rewrite !map_app|]. rewrite !app_length. simpl. now rewrite !repeat_app'. }
  rewrite E, combine_app' by (symmetry; now apply states_length).
  rewrite !ploop_app. unfold core.
  destruct (ploop (combine C _) x) as [[[m1 sc] ic]|] eqn:E1; cbn [bind]; [|reflexivity].
  cbn [combine ploop].
  apply ploop_genuine in E1; auto using states_genuine. destruct E1 as (Gm & _ & _).
  rewrite call_false_g by eauto using tuple_genuine.
  rewrite chain_fwd by auto.
  destruct (ploop (combine B _) m1) as [[[m2 sb] ib]|]; cbn [bind]; [|reflexivity].
  destruct (ploop (combine A _) m2) as [[[o sa] ia]|]; cbn [bind]; reflexivity.
Qed.
Lemma core_G x q o p i : genuine x -> Gopt (Gtriple C B A) q -> core C B A x q = Ok (o, p, i) ->
  Gtriple C B A p /\ Gtriple C B A i.
Proof.
  intros Gx Gq H. destruct (part_states q Gq) as (Gc & Gb & Ga). unfold core in H.
  apply bind_ok in H as ([[m1 sc] ic] & E1 & H). apply bind_ok in H as ([[m2 sb] ib] & E2 & H).
  apply bind_ok in H as ([[o' sa] ia] & E3 & H). injection H as <- <- <-.
  assert (L1 := ploop_length _ _ _ _ _ E1). assert (L2 := ploop_length _ _ _ _ _ E2). assert (L3 := ploop_length _ _ _ _ _ E3).
  rewrite combine_length, states_length, Nat.min_id in L1, L2, L3 by assumption.
  apply ploop_genuine in E1 as (G1 & G2 & G3); auto using states_genuine.
  apply ploop_genuine in E2 as (G4 & G5 & G6); auto using states_genuine.
  apply ploop_genuine in E3 as (G7 & G8 & G9); auto using states_genuine.
  unfold Gtriple. tauto.
Qed.
Lemma flat_genuine p : Gtriple C B A p -> genuine (flat p).
Proof. destruct p as [[c b] a]. intros (H1 & H2 & H3). apply genuine_tup. rewrite !Forall_app. tauto. Qed.
Lemma nest_genuine p : Gtriple C B A p -> genuine (nest p).
Proof.
  destruct p as [[c b] a]. intros (H1 & H2 & H3). apply genuine_tup. rewrite !Forall_app.
  split; [tauto|]. constructor; [now apply genuine_tup|tauto].
Qed.
Lemma app_inj {X} (a a' b b' : list X) : length a = length a' -> a ++ b = a' ++ b' -> a = a' /\ b = b'.
Proof.
  revert a'; induction a as [|x a IH]; intros [|y a'] L H; try discriminate; auto.
  injection H as -> H. injection L as L. destruct (IH _ L H) as [-> ->]. auto.
Qed.
Lemma flat_inj p p' : Gtriple C B A p -> Gtriple C B A p' -> flat p = flat p' -> p = p'.
Proof.
  destruct p as [[c b] a], p' as [[c' b'] a']. intros (H1 & H2 & H3) (H4 & H5 & H6) E. injection E as E.
  apply app_inj in E as [-> E]; [|exact (eq_trans (proj1 H1) (eq_sym (proj1 H4)))].
  apply app_inj in E as [-> ->]; [|exact (eq_trans (proj1 H2) (eq_sym (proj1 H5)))]. reflexivity.
Qed.
Lemma nest_inj p p' : Gtriple C B A p -> Gtriple C B A p' -> nest p = nest p' -> p = p'.
Proof.
  destruct p as [[c b] a], p' as [[c' b'] a']. intros (H1 & H2 & H3) (H4 & H5 & H6) E. injection E as E.
  apply app_inj in E as [-> E]; [|exact (eq_trans (proj1 H1) (eq_sym (proj1 H4)))]. now injection E as -> ->.
Qed.
Lemma check_list a a' : Forall genuine a -> Forall genuine a' -> length a = length a' ->
  state_check (Tup a) (Tup a') = Ok tt <-> Forall2 (fun s s' => state_check s s' = Ok tt) a a'.
Proof.
  intros G. revert a'. induction G as [|x a Gx Ga IH]; intros a' G' L; destruct a' as [|y a']; try discriminate.
  - split; [constructor|reflexivity].
  - inversion G'; subst. rewrite state_check_cons by (apply genuine_tup; auto).
    rewrite IH by auto. split; [intros []; now constructor|]. intros H; inversion H; auto.
Qed.
Lemma Forall2_app_iff {X Y} (R : X -> Y -> Prop) a b a' b' : length a = length a' ->
  Forall2 R (a ++ b) (a' ++ b') <-> Forall2 R a a' /\ Forall2 R b b'.
Proof.
  revert a'; induction a as [|x a IH]; intros [|y a'] L; try discriminate; simpl.
  - split; [auto|tauto].
  - injection L as L. specialize (IH _ L). split.
    + intros H; inversion H; subst. destruct IH as [IH _]. destruct (IH ltac:(assumption)). auto.
    + intros [H1 H2]. inversion H1; subst. constructor; auto. now apply IH.
Qed.
Lemma check_same p p' : Gtriple C B A p -> Gtriple C B A p' ->
  state_check (flat p) (flat p') = Ok tt <-> state_check (nest p) (nest p') = Ok tt.
Proof.
  destruct p as [[c b] a], p' as [[c' b'] a']. intros (H1 & H2 & H3) (H4 & H5 & H6). unfold flat, nest.
  rewrite !check_list.
  - assert (L1 := eq_trans (proj1 H1) (eq_sym (proj1 H4))). assert (L2 := eq_trans (proj1 H2) (eq_sym (proj1 H5))).
    rewrite (Forall2_app_iff _ c (b ++ a) c' (b' ++ a') L1).
    rewrite (Forall2_app_iff _ c (Tup b :: a) c' (Tup b' :: a') L1).
    rewrite (Forall2_app_iff _ b a b' a' L2).
    assert (K : Forall2 (fun s s' => state_check s s' = Ok tt) (Tup b :: a) (Tup b' :: a') <->
      Forall2 (fun s s' => state_check s s' = Ok tt) b b' /\ Forall2 (fun s s' => state_check s s' = Ok tt) a a').
    { rewrite <- (check_list b b') by (auto; tauto).
      split; [intros H; inversion H; auto|]. intros []. now constructor. }
    rewrite K. tauto.
  - rewrite Forall_app. split; [tauto|]. constructor; [now apply genuine_tup|tauto].
  - rewrite Forall_app. split; [tauto|]. constructor; [now apply genuine_tup|tauto].
  - rewrite !app_length. simpl. lia.
  - rewrite !Forall_app. tauto.
  - rewrite !Forall_app. tauto.
  - rewrite !app_length. lia.
Qed.
Lemma chain_nested v q b o p i : genuine v -> Gopt (Gtriple C B A) q -> Gtriple C B A p -> Gtriple C B A i ->
  call (Chain (C ++ B ++ A)) v (option_map flat q) b = Ok (o, flat p, flat i) <->
  call (Chain (C ++ Chain B :: A)) v (option_map nest q) b = Ok (o, nest p, nest i).
Proof.
  intros Gv Gq Gp Gi. split.
  - apply (iso_call_to _ _ flat nest (Gtriple C B A) (core C B A)); auto using flat_core, nest_core,
      flat_genuine, nest_genuine, flat_inj, check_same. intros. eapply core_G; eauto.
  - apply (iso_call_to _ _ nest flat (Gtriple C B A) (core C B A)); auto using flat_core, nest_core,
      flat_genuine, nest_genuine, nest_inj. { intros. eapply core_G; eauto. }
    intros. symmetry. now apply check_same.
Qed.
Lemma flat_result v q b o s i : genuine v -> Gopt (Gtriple C B A) q ->
  call (Chain (C ++ B ++ A)) v (option_map flat q) b = Ok (o, s, i) ->
  exists p i', Gtriple C B A p /\ Gtriple C B A i' /\ s = flat p /\ i = flat i' /\
    call (Chain (C ++ Chain B :: A)) v (option_map nest q) b = Ok (o, nest p, nest i').
Proof.
  apply (iso_call _ _ flat nest (Gtriple C B A) (core C B A)); auto using flat_core, nest_core,
      flat_genuine, nest_genuine, check_same. intros. eapply core_G; eauto.
Qed.
Lemma nest_result v q b o s i : genuine v -> Gopt (Gtriple C B A) q ->
  call (Chain (C ++ Chain B :: A)) v (option_map nest q) b = Ok (o, s, i) ->
  exists p i', Gtriple C B A p /\ Gtriple C B A i' /\ s = nest p /\ i = nest i' /\
    call (Chain (C ++ B ++ A)) v (option_map flat q) b = Ok (o, flat p, flat i').
Proof.
  apply (iso_call _ _ nest flat (Gtriple C B A) (core C B A)); auto using flat_core, nest_core,
      flat_genuine, nest_genuine. { intros. eapply core_G; eauto. }
  intros. symmetry. now apply check_same.
Qed.
End Nest.
Lemma gtriple_rev C B A p : Gtriple C B A p -> Gtriple (rev C) (rev B) (rev A) p.
Proof. destruct p as [[c b] a]. unfold Gtriple. now rewrite !rev_length. Qed.
Lemma gtriple_unrev C B A p : Gtriple (rev C) (rev B) (rev A) p -> Gtriple C B A p.
Proof. destruct p as [[c b] a]. unfold Gtriple. now rewrite !rev_length. Qed.
Lemma rev_ne {X} (l : list X) : l <> [] -> rev l <> [].
Proof. intros H E. apply H. rewrite <- (rev_involutive l), E. reflexivity. Qed.
Lemma rev_flat (A B C : list operator) : rev (A ++ B ++ C) = rev C ++ rev B ++ rev A.
Proof. now rewrite !rev_app_distr, app_assoc. Qed.
Lemma rev_nest (A B C : list operator) : rev (A ++ Compose B :: C) = rev C ++ Chain (rev B) :: rev A.
Proof. rewrite rev_app_distr. cbn [rev]. now rewrite <- app_assoc. Qed.
Theorem compose_nest A B C v q b o s i :
  B <> [] -> Forall genuine_op (A ++ B ++ C) -> genuine v -> Gopt (Gtriple C B A) q ->
  call (Compose (A ++ B ++ C)) v (option_map flat q) b = Ok (o, s, i) ->
  exists p i', Gtriple C B A p /\ Gtriple C B A i' /\ s = flat p /\ i = flat i' /\
    call (Compose (A ++ Compose B :: C)) v (option_map nest q) b = Ok (o, nest p, nest i').
Proof.
  rewrite !Forall_app. intros NE (GA & GB & GC) Gv Gq. rewrite (Compose_Chain (A ++ B ++ C)), (Compose_Chain (A ++ Compose B :: C)), rev_flat, rev_nest. intros H.
  destruct (flat_result (rev C) (rev B) (rev A) (rev_ne _ NE) ltac:(now apply Forall_rev) ltac:(now apply Forall_rev)
    ltac:(now apply Forall_rev) v q b o s i Gv) as (p & i' & K1 & K2 & K); auto.
  { destruct q; simpl in *; auto using gtriple_rev. }
  exists p, i'. auto using gtriple_unrev.
Qed.
Theorem compose_unnest A B C v q b o s i :
  B <> [] -> Forall genuine_op (A ++ B ++ C) -> genuine v -> Gopt (Gtriple C B A) q ->
  call (Compose (A ++ Compose B :: C)) v (option_map nest q) b = Ok (o, s, i) ->
  exists p i', Gtriple C B A p /\ Gtriple C B A i' /\ s = nest p /\ i = nest i' /\
    call (Compose (A ++ B ++ C)) v (option_map flat q) b = Ok (o, flat p, flat i').
Proof.
  rewrite !Forall_app. intros NE (GA & GB & GC) Gv Gq. rewrite (Compose_Chain (A ++ B ++ C)), (Compose_Chain (A ++ Compose B :: C)), rev_flat, rev_nest. intros H.
  destruct (nest_result (rev C) (rev B) (rev A) (rev_ne _ NE) ltac:(now apply Forall_rev) ltac:(now apply Forall_rev)
    ltac:(now apply Forall_rev) v q b o s i Gv) as (p & i' & K1 & K2 & K); auto.
  { destruct q; simpl in *; auto using gtriple_rev. }
  exists p, i'. auto using gtriple_unrev.
Qed.
End NestFacts.
