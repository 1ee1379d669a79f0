(** * ImplMeta: [implements] is closed under renaming of inputs, Compose and Join. *)
From Coq Require Import String List ZArith Bool Lia.
From Verif Require Import Num Py PyFacts Tensor Streamable Spec StreamFacts TensorFacts StreamProofs WfFacts
  Meta Common Finance Series Implements.
Import ListNotations.

Section ImplMeta.
Context {N : FOps}.

Lemma at_vmap {X Y} (f : X -> Y) (E : pyval (Y -> tensor)) x :
  at_ (vmap (fun g x => g (f x)) E) x = at_ E (f x).
Proof. unfold at_. now rewrite vmap_vmap. Qed.
Lemma typed_pull {X Y} (f : X -> Y) (P : X -> Prop) (Q : Y -> Prop) (E : pyval (Y -> tensor)) :
  typed Q E -> (forall x, P x -> Q (f x)) -> typed P (vmap (fun g x => g (f x)) E).
Proof.
  intros [H1 H2] H. split; [now apply pyok_vmap|]. rewrite leaves_vmap, Forall_map.
  eapply Forall_impl; [|exact H2]. intros g (sg & K). exists sg. auto.
Qed.
Lemma typed_leaf {X} (P : X -> Prop) (g : X -> tensor) sg :
  (forall x, P x -> tsig (g x) = sg /\ wf (g x)) -> typed P (Leaf g).
Proof. intros H. split; [exact I|]. repeat constructor. eauto. Qed.
Lemma typed_tup {X} (P : X -> Prop) l : Forall (typed P) l -> typed P (Tup l).
Proof.
  intros H. split.
  - apply pyok_tup. eapply Forall_impl; [|exact H]. now intros a [].
  - cbn [leaves]. apply Forall_flat_map. eapply Forall_impl; [|exact H]. now intros a [].
Qed.

Lemma implements_weaken {X} op (P Q : list X -> Prop) EI EO ES :
  implements op P EI EO ES -> Q [] -> (forall x h, Q (x :: h) -> Q h) -> (forall h, Q h -> P h) ->
  implements op Q EI EO ES.
Proof.
  intros IM Q0 Qt QP. split; auto.
  - eapply typed_weaken; [apply IM|]. intros x (h & H). exists h. auto.
  - eapply typed_weaken; [apply IM|]. intros h [H1 H2]. auto.
  - eapply typed_weaken; [apply IM|]. auto.
  - intros. apply IM; auto.
  - intros. apply IM; auto.
Qed.
Lemma implements_pull {X Y} (f : X -> Y) op (P : list Y -> Prop) EI EO ES :
  implements op P EI EO ES ->
  implements op (fun h => P (map f h)) (vmap (fun g x => g (f x)) EI)
    (vmap (fun g h => g (map f h)) EO) (vmap (fun g h => g (map f h)) ES).
Proof.
  intros IM. split.
  - apply IM.
  - intros x h H. exact (im_tl _ _ _ _ _ IM (f x) (map f h) H).
  - eapply typed_pull; [apply IM|]. intros x (h & H). exists (map f h). exact H.
  - eapply (typed_pull (map f)); [apply IM|]. intros h [H1 H2]. split; auto.
    destruct h; [easy|discriminate].
  - eapply (typed_pull (map f)); [apply IM|]. auto.
  - intros x h H. rewrite !at_vmap. rewrite ?(at_vmap (map f)). apply IM. exact H.
  - intros x H. rewrite !at_vmap, ?(at_vmap (map f)). apply IM. exact H.
Qed.
(** Other descriptions of the same tensors. *)
Lemma implements_ext {X} op (P : list X -> Prop) EI EO ES EI' EO' ES' :
  implements op P EI EO ES ->
  typed (fun x => exists h, P (x :: h)) EI' -> typed (fun h => P h /\ h <> []) EO' -> typed P ES' ->
  (forall x h, P (x :: h) -> at_ EI' x = at_ EI x) ->
  (forall h, P h -> h <> [] -> at_ EO' h = at_ EO h) -> (forall h, P h -> at_ ES' h = at_ ES h) ->
  implements op P EI' EO' ES'.
Proof.
  intros IM T1 T2 T3 E1 E2 E3. split; auto; try apply IM.
  - intros x h H. assert (P h) by (eapply im_tl; eauto).
    rewrite (E1 x h H), (E2 (x :: h)), !E3 by (auto; discriminate). now apply IM.
  - intros x H. assert (P []) by apply IM.
    rewrite (E1 x [] H), (E2 [x]), !E3 by (auto; discriminate). now apply IM.
Qed.
Lemma implements_out {X} op (P : list X -> Prop) EI EO ES EO' :
  implements op P EI EO ES -> typed (fun h => P h /\ h <> []) EO' ->
  (forall h, P h -> h <> [] -> at_ EO' h = at_ EO h) -> implements op P EI EO' ES.
Proof. intros IM T H. eapply implements_ext; eauto; apply IM. Qed.
Lemma implements_st {X} op (P : list X -> Prop) EI EO ES ES' :
  implements op P EI EO ES -> typed P ES' ->
  (forall h, P h -> at_ ES' h = at_ ES h) -> implements op P EI EO ES'.
Proof. intros IM T H. eapply implements_ext; eauto; apply IM. Qed.

Lemma im_call {X} op (P : list X -> Prop) EI EO ES x h : implements op P EI EO ES -> P (x :: h) ->
  call op (at_ EI x) (Some (at_ ES h)) false = Ok (at_ EO (x :: h), at_ ES (x :: h), at_ ES h).
Proof.
  intros IM H. rewrite call_false_g.
  - now apply IM.
  - eapply typed_genuine; [apply IM|]. simpl. eauto.
  - simpl. eapply typed_genuine; [apply IM|]. eapply im_tl; eauto.
Qed.
Lemma im_call0 {X} op (P : list X -> Prop) EI EO ES x : implements op P EI EO ES -> P [x] ->
  call op (at_ EI x) None false = Ok (at_ EO [x], at_ ES [x], at_ ES []).
Proof.
  intros IM H. rewrite call_false_g.
  - now apply IM.
  - eapply typed_genuine; [apply IM|]. simpl. eauto.
  - exact I.
Qed.

(** ** Compose *)
Lemma trail_length {X Y} (f : list X -> Y) h : length (trail f h) = length h.
Proof. induction h; simpl; auto. Qed.
Lemma trail_nil {X Y} (f : list X -> Y) h : trail f h = [] -> h = [].
Proof. destruct h; [auto|discriminate]. Qed.

Record chain {X} (ops : list operator) (P : list X -> Prop) (EI : pyval (X -> tensor))
  (EO : pyval (list X -> tensor)) (ESs : list (pyval (list X -> tensor))) : Prop := {
  ch_nil : P [];
  ch_tl : forall x h, P (x :: h) -> P h;
  ch_in : typed (fun x => exists h, P (x :: h)) EI;
  ch_out : typed (fun h => P h /\ h <> []) EO;
  ch_st : Forall (typed P) ESs;
  ch_len : length ESs = length ops;
  ch_step : forall x h out, P (x :: h) ->
    compose_loop (combine ops (map Some (map (fun E => at_ E h) ESs))) (at_ EI x) out =
    Ok (Some (at_ EO (x :: h)), map (fun E => at_ E (x :: h)) ESs, map (fun E => at_ E h) ESs);
  ch_init : forall x out, P [x] ->
    compose_loop (combine ops (repeat None (length ops))) (at_ EI x) out =
    Ok (Some (at_ EO [x]), map (fun E => at_ E [x]) ESs, map (fun E => at_ E []) ESs)
}.
Lemma chain_one {X} op (P : list X -> Prop) EI EO ES :
  implements op P EI EO ES -> chain [op] P EI EO [ES].
Proof.
  intros IM. split; try apply IM; auto.
  - constructor; [apply IM|constructor].
  - intros x h out H. cbn [map combine compose_loop]. match goal with K : implements op P _ _ _ |- _ => rewrite (im_call _ _ _ _ _ _ _ K) by assumption end. reflexivity.
  - intros x out H. cbn [map combine compose_loop length repeat]. rewrite (im_call0 _ _ _ _ _ _ IM) by assumption. reflexivity.
Qed.
Lemma chain_cons {X Y} (f : list X -> Y) op ops (P : list X -> Prop) (Q : list Y -> Prop) EI EO ES EI2 EO2 ESs :
  implements op P EI EO ES -> chain ops Q EI2 EO2 ESs ->
  (forall h, P h -> h <> [] -> at_ EO h = at_ EI2 (f h)) -> (forall h, P h -> Q (trail f h)) ->
  chain (op :: ops) P EI (vmap (fun g h => g (trail f h)) EO2) (ES :: map (vmap (fun g h => g (trail f h))) ESs).
Proof.
  intros IM CH HO HQ.
  assert (EM : forall h, map (fun E => at_ E h) (map (vmap (fun g h => g (trail f h))) ESs) = map (fun E => at_ E (trail f h)) ESs).
  { intros h. rewrite map_map. apply map_ext. intros E. apply (at_vmap (trail f)). }
  split; try apply IM.
  - eapply (typed_pull (trail f)); [apply CH|]. intros h [H1 H2]. split; auto. intros E. now apply trail_nil in E.
  - constructor; [apply IM|]. apply Forall_map. eapply Forall_impl; [|apply CH]. intros E T.
    eapply (typed_pull (trail f)); [exact T|]. auto.
  - simpl. rewrite map_length. f_equal. apply CH.
  - intros x h out H. cbn [map combine compose_loop]. match goal with K : implements op P _ _ _ |- _ => rewrite (im_call _ _ _ _ _ _ _ K) by assumption end. cbn [bind].
    rewrite !EM. rewrite HO by (auto; discriminate).
    change (f (x :: h)) with (hd (f (x :: h)) (trail f (x :: h))).
    rewrite (ch_step _ _ _ _ _ CH (f (x :: h)) (trail f h)) by (apply (HQ (x :: h)); assumption).
    cbn [bind]. rewrite (at_vmap (trail f)). reflexivity.
  - intros x out H. cbn [map combine compose_loop length repeat]. rewrite (im_call0 _ _ _ _ _ _ IM) by assumption. cbn [bind].
    rewrite !EM. rewrite HO by (auto; discriminate).
    rewrite (ch_init _ _ _ _ _ CH (f [x])) by (apply (HQ [x]); assumption).
    cbn [bind]. rewrite (at_vmap (trail f)). reflexivity.
Qed.
Lemma implements_compose {X} ops (P : list X -> Prop) EI EO ESs :
  chain (rev ops) P EI EO ESs -> implements (Compose ops) P EI EO (Tup ESs).
Proof.
  intros CH. split; try apply CH.
  - apply typed_tup, CH.
  - intros x h H. cbn [forward_step Compose]. unfold compose_step. cbn [at_ vmap iter bind].
    pose proof (ch_step _ _ _ _ _ CH x h None H) as E. unfold at_ in E at 1. 
    match goal with |- bind ?e _ = _ => replace e with (Ok (Some (at_ EO (x :: h)), map (fun E => at_ E (x :: h)) ESs, map (fun E => at_ E h) ESs)) by (symmetry; exact E) end.
    reflexivity.
  - intros x H. cbn [forward_step Compose]. unfold compose_step. cbn [bind].
    pose proof (ch_init _ _ _ _ _ CH x None H) as E.
    match goal with |- bind ?e _ = _ => replace e with (Ok (Some (at_ EO [x]), map (fun E => at_ E [x]) ESs, map (fun E => at_ E []) ESs)) by (symmetry; exact E) end.
    reflexivity.
Qed.

(** ** Join *)
Inductive joined {X} (P : list X -> Prop) : list operator -> list (pyval (X -> tensor)) ->
  list (pyval (list X -> tensor)) -> list (pyval (list X -> tensor)) -> Prop :=
| joined_nil : joined P [] [] [] []
| joined_cons op ops EI EIs EO EOs ES ESs : implements op P EI EO ES -> joined P ops EIs EOs ESs ->
    joined P (op :: ops) (EI :: EIs) (EO :: EOs) (ES :: ESs).
Lemma implements_join {X} (P : list X -> Prop) ops EIs EOs ESs :
  P [] -> (forall x h, P (x :: h) -> P h) -> joined P ops EIs EOs ESs ->
  implements (Join ops) P (Tup EIs) (Tup EOs) (Tup ESs).
Proof.
  intros P0 Pt J. split; auto.
  - apply typed_tup. induction J; constructor; auto. apply H.
  - apply typed_tup. induction J; constructor; auto. apply H.
  - apply typed_tup. induction J; constructor; auto. apply H.
  - intros x h H. cbn [forward_step Join]. unfold join_step. cbn [at_ vmap iter bind].
    assert (E : join_loop (combine ops (combine (map (fun E => at_ E x) EIs) (map Some (map (fun E => at_ E h) ESs)))) =
      Ok (map (fun E => at_ E (x :: h)) EOs, map (fun E => at_ E (x :: h)) ESs, map (fun E => at_ E h) ESs)).
    { induction J; [reflexivity|]. cbn [map combine join_loop]. match goal with K : implements op P _ _ _ |- _ => rewrite (im_call _ _ _ _ _ _ _ K) by assumption end. cbn [bind].
      rewrite IHJ. reflexivity. }
    match goal with |- bind ?e _ = _ => match type of E with _ = ?r => replace e with r by (symmetry; exact E) end end.
    reflexivity.
  - intros x H. cbn [forward_step Join]. unfold join_step. cbn [at_ vmap iter bind].
    assert (E : join_loop (combine ops (combine (map (fun E => at_ E x) EIs) (repeat None (length ops)))) =
      Ok (map (fun E => at_ E [x]) EOs, map (fun E => at_ E [x]) ESs, map (fun E => at_ E []) ESs)).
    { induction J; [reflexivity|]. cbn [map combine join_loop length repeat].
      match goal with K : implements op P _ _ _ |- _ => rewrite (im_call0 _ _ _ _ _ _ K) by assumption end. cbn [bind].
      rewrite IHJ. reflexivity. }
    match goal with |- bind ?e _ = _ => match type of E with _ = ?r => replace e with r by (symmetry; exact E) end end.
    reflexivity.
Qed.
End ImplMeta.
