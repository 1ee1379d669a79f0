(** * Implements: an operator computes a function of the history of its inputs.

    One generic theorem turns the description of a single step into the closed form of
    the streamed call.  Histories are newest first. *)
From Coq Require Import String List ZArith Bool Lia.
From Verif Require Import Num Py PyFacts Tensor Streamable Spec StreamFacts TensorFacts StreamProofs WfFacts Series.
Import ListNotations.

Section Implements.
Context {N : FOps}.

(** A nested structure of tensors depending on [x]. *)
Definition at_ {X} (E : pyval (X -> tensor)) (x : X) : val := vmap (fun g => g x) E.
Definition stacked {X} (E : pyval (X -> tensor)) (xs : list X) : val := vmap (fun g => stackT (map g xs)) E.

Definition typed {X} (P : X -> Prop) (E : pyval (X -> tensor)) : Prop :=
  pyok E /\ Forall (fun g => exists sg, forall x, P x -> tsig (g x) = sg /\ wf (g x)) (leaves E).

Record implements {X} (op : operator) (P : list X -> Prop)
  (EI : pyval (X -> tensor)) (EO ES : pyval (list X -> tensor)) : Prop := {
  im_nil : P [];
  im_tl : forall x h, P (x :: h) -> P h;
  im_in : typed (fun x => exists h, P (x :: h)) EI;
  im_out : typed (fun h => P h /\ h <> []) EO;
  im_st : typed P ES;
  im_step : forall x h, P (x :: h) ->
    forward_step op (at_ EI x) (Some (at_ ES h)) = Ok (at_ EO (x :: h), at_ ES (x :: h), at_ ES h);
  im_init : forall x, P [x] ->
    forward_step op (at_ EI x) None = Ok (at_ EO [x], at_ ES [x], at_ ES [])
}.

Lemma typed_genuine {X} (P : X -> Prop) E x : typed P E -> P x -> genuine (at_ E x).
Proof.
  intros [H1 H2] Hx. split; [now apply pyok_vmap|]. unfold at_. rewrite leaves_vmap, Forall_map.
  eapply Forall_impl; [|exact H2]. intros g (sg & H). now apply H.
Qed.
Lemma typed_sig {X} (P : X -> Prop) E x y : typed P E -> P x -> P y -> sig (at_ E x) = sig (at_ E y).
Proof.
  intros [_ H] Hx Hy. unfold sig, at_. rewrite !vmap_vmap. apply vmap_ext. intros g Hg.
  rewrite Forall_forall in H. destruct (H g Hg) as (sg & K). destruct (K x Hx) as [-> _], (K y Hy) as [-> _]. reflexivity.
Qed.
Lemma typed_weaken {X} (P Q : X -> Prop) E : typed P E -> (forall x, Q x -> P x) -> typed Q E.
Proof.
  intros [H1 H2] H. split; auto. eapply Forall_impl; [|exact H2]. intros g (sg & K). exists sg. auto.
Qed.

Section Stream.
Context {X : Type} (op : operator) (P : list X -> Prop)
  (EI : pyval (X -> tensor)) (EO ES : pyval (list X -> tensor)).
Context (IM : implements op P EI EO ES).

Lemma im_suffix xs h : P (xs ++ h) -> P h.
Proof. induction xs as [|x xs IH]; simpl; auto. intros H. apply IH. eapply im_tl; eauto. Qed.

Lemma im_stepsC xs : forall h, P (rev xs ++ h) ->
  stepsC op (at_ ES h) (map (at_ EI) xs) = Ok (map (at_ EO) (hists h xs), at_ ES (rev xs ++ h)).
Proof.
  induction xs as [|x xs IH]; intros h H; [reflexivity|].
  simpl in H. rewrite <- app_assoc in H. simpl in H.
  assert (H1 : P (x :: h)) by (eapply im_suffix; exact H).
  cbn [map stepsC hists]. rewrite (im_step _ _ _ _ _ IM x h H1). cbn [bind].
  rewrite state_check_sig; cbn [bind].
  - rewrite IH by exact H. cbn [bind]. simpl. now rewrite <- app_assoc.
  - apply (typed_genuine P); [apply (im_st _ _ _ _ _ IM)|]. eapply im_tl; eauto.
  - apply (typed_sig P); auto; [apply (im_st _ _ _ _ _ IM)|]. eapply im_tl; eauto.
Qed.
Lemma im_rev_in xs h x : P (rev xs ++ h) -> In x xs -> exists h', P (x :: h').
Proof.
  revert h. induction xs as [|y xs IH]; intros h H Hx; [easy|].
  simpl in H. rewrite <- app_assoc in H. simpl in H. destruct Hx as [<-|Hx].
  - exists h. eapply im_suffix; exact H.
  - eapply IH; eauto.
Qed.
Lemma hists_length (h xs : list X) : length (hists h xs) = length xs.
Proof. revert h. induction xs; simpl; auto. Qed.
Lemma im_hists xs : forall h, P (rev xs ++ h) -> Forall (fun h' => P h' /\ h' <> []) (hists h xs).
Proof.
  induction xs as [|x xs IH]; intros h H; [constructor|].
  simpl in H. rewrite <- app_assoc in H. simpl in H. constructor; [|auto].
  split; [|discriminate]. eapply im_suffix; exact H.
Qed.
(** stacking the values of a typed structure *)
Lemma stack_ok {Y} (Q : Y -> Prop) (E : pyval (Y -> tensor)) g ys :
  typed Q E -> In g (leaves E) -> ys <> [] -> Forall Q ys ->
  tstack (map g ys) = Ok (stackT (map g ys)) /\
  Forall (fun u => sh u = sh (hd dummy (map g ys)) /\ dtype_of u = dtype_of (hd dummy (map g ys))) (map g ys) /\
  Forall wf (map g ys).
Proof.
  intros [_ T] Hg NE HQ. rewrite Forall_forall in T. destruct (T g Hg) as (sg & K).
  destruct ys as [|y ys]; [easy|]. inversion HQ as [|? ? Qy Qs]; subst.
  assert (A : Forall (fun u => sh u = sh (hd dummy (map g (y :: ys))) /\ dtype_of u = dtype_of (hd dummy (map g (y :: ys)))) (map g (y :: ys))).
  { cbn [map hd]. rewrite <- (map_cons g). apply Forall_map. eapply Forall_impl; [|exact HQ]. intros z Qz.
    destruct (K y Qy) as [E1 _], (K z Qz) as [E2 _]. unfold tsig in *. split; congruence. }
  split; [|split]; auto.
  - apply tstack_iff. split; [discriminate|]. auto.
  - apply Forall_map. eapply Forall_impl; [|exact HQ]. intros z Qz. now apply K.
Qed.
Lemma stacked_series {Y} (Q : Y -> Prop) (E : pyval (Y -> tensor)) ys :
  typed Q E -> ys <> [] -> Forall Q ys -> leaves E <> [] ->
  genuine (stacked E ys) /\ is_series (length ys) (stacked E ys) /\
  rows (length ys) (stacked E ys) = map (at_ E) ys.
Proof.
  intros T NE HQ NL.
  assert (K : forall g, In g (leaves E) -> wf (stackT (map g ys)) /\
     (exists s, sh (stackT (map g ys)) = length ys :: s) /\
     forall i, i < length ys -> trow i (stackT (map g ys)) = nth i (map g ys) dummy).
  { intros g Hg. destruct (stack_ok Q E g ys T Hg NE HQ) as (_ & A & B).
    destruct (stackT_facts (map g ys)) as (F1 & F2 & F3 & F4); auto.
    { destruct ys; [easy|discriminate]. }
    rewrite map_length in *. eauto. }
  split; [|split].
  - split; [apply pyok_vmap, T|]. unfold stacked. rewrite leaves_vmap, Forall_map, Forall_forall. intros g Hg. now apply K.
  - split; [unfold stacked; rewrite leaves_vmap; intros Em; apply map_eq_nil in Em; auto|].
    unfold stacked. rewrite leaves_vmap, Forall_map, Forall_forall. intros g Hg. now apply K.
  - unfold rows. destruct ys as [|y0 ys0]; [easy|]. set (ys := y0 :: ys0) in *.
    apply (nth_ext _ _ (at_ E y0) (at_ E y0)); [now rewrite !map_length, seq_length|].
    intros i Hi. rewrite map_length, seq_length in Hi.
    transitivity (row i (stacked E ys)).
    { rewrite (nth_indep _ _ (row 0 (stacked E ys))) by (now rewrite map_length, seq_length).
      rewrite (map_nth (fun i => row i (stacked E ys))), seq_nth by assumption. reflexivity. }
    rewrite (map_nth (at_ E)). unfold row, stacked, at_. rewrite vmap_vmap. apply vmap_ext. intros g Hg.
    destruct (K g Hg) as (_ & _ & KR). rewrite KR by assumption.
    rewrite (nth_indep _ _ (g y0)) by (now rewrite map_length). apply map_nth.
Qed.

Theorem implements_stream h xs st :
  P (rev xs ++ h) -> xs <> [] -> leaves EI <> [] ->
  st = Some (at_ ES h) \/ st = None /\ h = [] ->
  call op (stacked EI xs) st true = Ok (stacked EO (hists h xs), at_ ES (rev xs ++ h), at_ ES h).
Proof.
  intros HP NE NL Hst.
  assert (Ph : P h) by (eapply im_suffix; exact HP).
  assert (HX : Forall (fun x => exists h, P (x :: h)) xs).
  { apply Forall_forall. intros x Hx. eapply im_rev_in; eauto. }
  destruct (stacked_series _ EI xs (im_in _ _ _ _ _ IM) NE HX NL) as (G & S & R).
  assert (Gh : genuine (at_ ES h)) by (apply (typed_genuine P); auto; apply (im_st _ _ _ _ _ IM)).
  rewrite call_true; [|apply G|intros s Es; destruct Hst as [->|[-> _]]; [injection Es as <-; apply Gh|discriminate]].
  apply (streamed_iff op _ st (length xs)); [apply G|exact S|].
  destruct xs as [|x xs]; [easy|]. split; [simpl; lia|].
  assert (H1 : P (x :: h)).
  { simpl in HP. rewrite <- app_assoc in HP. eapply im_suffix; exact HP. }
  assert (HF : forward_step op (row 0 (stacked EI (x :: xs))) st = Ok (at_ EO (x :: h), at_ ES (x :: h), at_ ES h)).
  { unfold rows in R. cbn [length seq map] in R. injection R as -> _.
    destruct Hst as [->|[-> ->]]; [now apply (im_step _ _ _ _ _ IM)|now apply (im_init _ _ _ _ _ IM)]. }
  assert (HH := im_hists _ _ HP).
  pose proof (arrays_iff EO (fun g => g (x :: h)) (map (fun h g => g h) (hists h (x :: xs))) (length (x :: xs))
    (stacked EO (hists h (x :: xs)))) as A.
  destruct A as [_ A]; [apply (im_out _ _ _ _ _ IM)|rewrite map_length; apply hists_length|].
  destruct A as (tas & tasf & A1 & A2 & A3).
  { split.
    - intros g Hg. split.
      + apply Forall_map. eapply Forall_impl; [|exact HH]. intros h' Hh'.
        destruct (im_out _ _ _ _ _ IM) as [_ T]. rewrite Forall_forall in T. destruct (T g Hg) as (sg & K).
        destruct (K h' Hh') as [E1 _], (K (x :: h)) as [E2 _]; [split; [auto|discriminate]|]. unfold tsig in *. congruence.
      + rewrite map_map. destruct (stack_ok _ EO g (hists h (x :: xs)) (im_out _ _ _ _ _ IM) Hg) as (E & _ & _); eauto. discriminate.
    - unfold stacked. apply vmap_ext. intros g Hg. rewrite map_map.
      destruct (stack_ok _ EO g (hists h (x :: xs)) (im_out _ _ _ _ _ IM) Hg) as (E & _ & _); auto; [discriminate|].
      exact (eq_sym (f_equal (getok dummy) E)). }
  exists (at_ EO (x :: h)), (at_ ES (x :: h)), (at_ ES h), tas, (map (at_ EO) (hists h (x :: xs))), tasf.
  split; [exact HF|]. split; [destruct Hst as [->|[-> _]]; reflexivity|]. split; [exact A1|].
  split; [rewrite R; now apply im_stepsC|]. split; [|exact A3]. rewrite map_map in A2. exact A2.
Qed.
End Stream.
End Implements.
