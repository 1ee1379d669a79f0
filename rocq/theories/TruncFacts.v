(** * TruncFacts: what Join does when the numbers of operators and inputs differ. *)
From Coq Require Import String List ZArith Bool Lia.
From Verif Require Import Num Py PyFacts Tensor Streamable Spec StreamFacts TensorFacts StreamProofs
  WfFacts Meta Common Finance GenuineBase RunFacts SpecMeta.
Import ListNotations.

Section TruncFacts.
Context {N : FOps}.

Lemma bind_assoc {A B C} (r : res A) (f : A -> res B) (g : B -> res C) :
  bind (bind r f) g = bind r (fun x => bind (f x) g).
Proof. now destruct r. Qed.
Lemma bind_ext {A B} (r : res A) (f g : A -> res B) : (forall a, r = Ok a -> f a = g a) -> bind r f = bind r g.
Proof. destruct r; simpl; auto. Qed.
Lemma while_ext {S} (c : S -> bool) (f g : S -> res S) : (forall s, f s = g s) -> forall k s,
  tf_while k c f s = tf_while k c g s.
Proof.
  intros H. induction k as [|k IH]; intros s; cbn [tf_while]; [reflexivity|]. destruct (c s); [|reflexivity].
  rewrite H. apply bind_ext. auto.
Qed.
(** Two operators that do the same on the elements of two series stream alike. *)
Lemma call_streamed_ext op1 op2 v v' st :
  input_size v = input_size v' ->
  (forall i s, (let* x := slice_at i v in forward_step op1 x s) = (let* x := slice_at i v' in forward_step op2 x s)) ->
  call_streamed op1 v st = call_streamed op2 v' st.
Proof.
  intros HS HF. unfold call_streamed. rewrite HS. apply bind_ext. intros n _.
  rewrite <- !(bind_assoc _ (fun x => forward_step _ x st)). rewrite HF. apply bind_ext. intros [[o s1] i0] _.
  apply bind_ext. intros tas _. rewrite (while_ext _ (stream_body op1 v) (stream_body op2 v')); [reflexivity|].
  intros [[i s] ta]. unfold stream_body. rewrite <- !(bind_assoc _ (fun x => forward_step _ x (Some s))). now rewrite HF.
Qed.

Lemma map_fn_tup_length {A B} (f : list (pyval A) -> res (pyval B)) a : forall r,
  map_fn f (Tup a) [Tup a] = Ok r -> exists rs, r = Tup rs /\ length rs = length a.
Proof.
  induction a as [|x a IH]; intros r H.
  - cbn in H. injection H as <-. exists []. auto.
  - apply map_fn_cons1 in H as (u & rs & _ & H & ->). destruct (IH _ H) as (rs' & E & L). injection E as ->.
    exists (u :: rs'). simpl. auto.
Qed.

Lemma combine_firstn_l' {A B} (l : list A) (m : list B) : combine (firstn (length m) l) m = combine l m.
Proof. revert l; induction m as [|y m IH]; intros [|x l]; simpl; auto. now rewrite IH. Qed.
Lemma combine_firstn_r' {A B} (l : list A) (m : list B) : combine l (firstn (length l) m) = combine l m.
Proof. revert m; induction l as [|y l IH]; intros [|x m]; simpl; auto. now rewrite IH. Qed.
Lemma combine3_l {A B C} (l : list A) (m : list B) (p : list C) :
  combine (firstn (length m) l) (combine m p) = combine l (combine m p).
Proof.
  revert l p; induction m as [|y m IH]; intros [|x l] [|z p]; simpl; auto. now rewrite IH.
Qed.
Lemma combine3_none {A B C} (l : list A) (m : list B) (z : C) :
  combine (firstn (length m) l) (combine m (repeat z (length (firstn (length m) l)))) = combine l (combine m (repeat z (length l))).
Proof. revert l; induction m as [|y m IH]; intros [|x l]; simpl; auto. now rewrite IH. Qed.
Lemma combine3_r {A B C} (l : list A) (m : list B) (p : list C) :
  combine l (combine (firstn (length l) m) p) = combine l (combine m p).
Proof.
  revert m p; induction l as [|y l IH]; intros [|x m] [|z p]; simpl; auto. now rewrite IH.
Qed.

Lemma join_step_fewer ops l st :
  join_step (firstn (length l) ops) (Tup l) st = join_step ops (Tup l) st.
Proof.
  unfold join_step. destruct st as [s|].
  - destruct (iter s) as [ss|]; cbn [bind iter]; [|reflexivity]. now rewrite combine3_l.
  - cbn [bind iter]. now rewrite combine3_none.
Qed.
Lemma join_step_more ops l st :
  join_step ops (Tup (firstn (length ops) l)) st = join_step ops (Tup l) st.
Proof.
  unfold join_step. destruct st as [s|].
  - destruct (iter s) as [ss|]; cbn [bind iter]; [|reflexivity]. now rewrite combine3_r.
  - cbn [bind iter]. now rewrite combine3_r.
Qed.
(** Fewer inputs than operators: only the first operators exist. *)
Theorem join_fewer ops vs st b :
  call (Join ops) (Tup vs) st b = call (Join (firstn (length vs) ops)) (Tup vs) st b.
Proof.
  unfold call. apply bind_ext. intros x Hx. apply bind_ext. intros st' _.
  destruct (map_fn_tup_length _ _ _ Hx) as (l & -> & L). rewrite <- L. destruct b.
  - apply call_streamed_ext; [reflexivity|]. intros i s. apply bind_ext. intros y Hy.
    destruct (map_fn_tup_length _ _ _ Hy) as (l' & -> & L'). rewrite <- L'. cbn [forward_step Join].
    now rewrite join_step_fewer.
  - cbn [forward_step Join]. now rewrite join_step_fewer.
Qed.
(** More inputs than operators: the others are ignored. *)
Lemma map_firstn {A B} (f : A -> B) k l : map f (firstn k l) = firstn k (map f l).
Proof. revert k; induction l as [|x l IH]; intros [|k]; simpl; auto. now rewrite IH. Qed.
Lemma Forall_firstn' {A} (P : A -> Prop) k l : Forall P l -> Forall P (firstn k l).
Proof. intros H. revert k; induction H; intros [|k]; simpl; auto. Qed.
Lemma is_series_firstn n k vs : leaves (Tup (firstn k vs)) <> [] -> is_series n (Tup vs) -> is_series n (Tup (firstn k vs)).
Proof.
  intros NE [_ H]. split; auto. cbn [leaves] in *. rewrite Forall_flat_map in *. now apply Forall_firstn'.
Qed.
Theorem join_more ops vs st :
  Forall genuine vs -> genuine_opt st ->
  call (Join ops) (Tup vs) st false = call (Join ops) (Tup (firstn (length ops) vs)) st false.
Proof.
  intros Gv Gs. assert (Pv : Forall pyok vs) by (eapply Forall_impl; [|exact Gv]; now intros ? []).
  rewrite !call_false; try (now apply genuine_opt_pyok); try (apply pyok_tup; auto using Forall_firstn').
  cbn [forward_step Join]. now rewrite join_step_more.
Qed.
Lemma vmapM_err {A B} (h : A -> res (pyval B)) e v : pyok v ->
  (forall a, In a (leaves v) -> h a = Err e) ->
  (leaves v = [] -> exists w, vmapM h v = Ok w) /\ (leaves v <> [] -> vmapM h v = Err e).
Proof.
  assert (L : forall l : list (pyval A),
    Forall (fun v => (leaves v = [] -> exists w, vmapM h v = Ok w) /\ (leaves v <> [] -> vmapM h v = Err e)) l ->
    (flat_map leaves l = [] -> exists w, mapM (vmapM h) l = Ok w) /\
    (flat_map leaves l <> [] -> mapM (vmapM h) l = Err e)).
  { intros l Hl. induction Hl as [|x l [H1 H2] _ [IH1 IH2]]; simpl.
    - split; [eauto|easy].
    - destruct (leaves x) eqn:E.
      + destruct (H1 eq_refl) as (w & ->). cbn [bind app]. split; intros H.
        * destruct (IH1 H) as (ws & ->). cbn [bind]. eauto.
        * now rewrite (IH2 H).
      + rewrite (H2 ltac:(discriminate)). split; [discriminate|reflexivity]. }
  induction v as [a|l IH|l IH|l IH|l IH] using pyval_ind'; intros Hok H.
  - simpl in *. split; [discriminate|]. intros _. apply H. now left.
  - apply pyok_tup in Hok. cbn [leaves vmapM] in *.
    destruct (L l) as [L1 L2].
    { rewrite Forall_forall in *. intros x Hx. apply IH; auto. intros a Ha. apply H. apply in_flat_map. eauto. }
    split; intros E; [destruct (L1 E) as (w & ->); cbn [bind]; eauto|now rewrite (L2 E)].
  - apply pyok_lst in Hok. cbn [leaves vmapM] in *.
    destruct (L l) as [L1 L2].
    { rewrite Forall_forall in *. intros x Hx. apply IH; auto. intros a Ha. apply H. apply in_flat_map. eauto. }
    split; intros E; [destruct (L1 E) as (w & ->); cbn [bind]; eauto|now rewrite (L2 E)].
  - apply pyok_dct in Hok as [_ Hok]. cbn [leaves vmapM] in *.
    assert (K : (flat_map (fun kv => leaves (snd kv)) l = [] ->
                 exists w, mapM (fun kv => let* v' := vmapM h (snd kv) in Ok (fst kv, v')) l = Ok w) /\
                (flat_map (fun kv => leaves (snd kv)) l <> [] ->
                 mapM (fun kv => let* v' := vmapM h (snd kv) in Ok (fst kv, v')) l = Err e)).
    { clear L. induction IH as [|[k x] l Hx _ IHl]; simpl in *; [split; [eauto|easy]|].
      inversion Hok; subst.
      destruct (Hx H2) as [H1x H2x]. { intros a Ha. apply H. apply in_or_app. auto. }
      destruct (IHl H3) as [L1 L2]. { intros a Ha. apply H. apply in_or_app. auto. }
      cbn [snd] in *. destruct (leaves x) eqn:E.
      - destruct (H1x eq_refl) as (w & ->). cbn [bind app]. split; intros E'.
        + destruct (L1 E') as (ws & ->). cbn [bind]. eauto.
        + now rewrite (L2 E').
      - rewrite (H2x ltac:(discriminate)). split; [discriminate|reflexivity]. }
    destruct K as [L1 L2].
    split; intros E; [destruct (L1 E) as (w & ->); cbn [bind]; eauto|now rewrite (L2 E)].
  - destruct Hok.
Qed.
(** Which element [v[i]] is, negative indices included. *)
Definition py_index (n : nat) (i : Z) : option nat :=
  let j := if Z.ltb i 0 then (i + Z.of_nat n)%Z else i in
  if (Z.leb 0 j && Z.ltb j (Z.of_nat n))%bool then Some (Z.to_nat j) else None.
Lemma slice_at_cases n v i : pyok v -> is_series n v ->
  slice_at i v = match py_index n i with Some j => Ok (row j v) | None => Err EIndex end.
Proof.
  intros Pv [NE Hs]. rewrite slice_at_eq by assumption. rewrite Forall_forall in Hs. unfold py_index.
  destruct (_ && _)%bool eqn:E.
  - apply vmapM_ok; auto. intros t Ht. destruct (Hs t Ht) as (s & Es). unfold index0, trow. rewrite Es. cbn [tl].
    now rewrite E.
  - apply vmapM_err; auto. intros t Ht. destruct (Hs t Ht) as (s & Es). unfold index0. rewrite Es. now rewrite E.
Qed.
Theorem join_more_streamed n ops vs st :
  Forall genuine vs -> genuine_opt st -> is_series n (Tup vs) ->
  leaves (Tup (firstn (length ops) vs)) <> [] ->
  call (Join ops) (Tup vs) st true = call (Join ops) (Tup (firstn (length ops) vs)) st true.
Proof.
  intros Gv Gs Sv NE. assert (Pv : Forall pyok vs) by (eapply Forall_impl; [|exact Gv]; now intros ? []).
  assert (S' := is_series_firstn n _ _ NE Sv).
  assert (P1 : pyok (Tup vs)) by now apply pyok_tup.
  assert (P2 : pyok (Tup (firstn (length ops) vs))) by (apply pyok_tup; now apply Forall_firstn').
  rewrite !call_true; try (now apply genuine_opt_pyok); auto.
  apply call_streamed_ext.
  - now rewrite (proj2 (input_size_ok n _ P1) Sv), (proj2 (input_size_ok n _ P2) S').
  - intros i s. rewrite !(slice_at_cases n) by assumption. destruct (py_index n i) as [j|]; [|reflexivity].
    cbn [bind forward_step Join]. unfold row. cbn [vmap]. rewrite map_firstn.
    rewrite <- (join_step_more ops (map (vmap (trow j)) vs)). reflexivity.
Qed.
(** Fewer states than operators: only the first operators exist. *)
Theorem join_fewer_states ops vs ss :
  Forall genuine vs -> Forall genuine ss ->
  call (Join ops) (Tup vs) (Some (Tup ss)) false =
  call (Join (firstn (length ss) ops)) (Tup vs) (Some (Tup ss)) false.
Proof.
  intros Gv Gs. rewrite !call_false_g; try (apply genuine_tup; assumption).
  cbn [forward_step Join]. unfold join_step. cbn [bind iter].
  match goal with |- (let* _ := join_loop ?a in _) = (let* _ := join_loop ?b in _) =>
    enough (E : a = b) by now rewrite E end.
  revert vs ops Gv. induction ss as [|s ss IH]; intros [|v vs] [|op ops] Gv; simpl; auto.
  inversion Gs; inversion Gv; subst. now rewrite IH.
Qed.
End TruncFacts.
