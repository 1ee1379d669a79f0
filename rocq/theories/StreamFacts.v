(** * StreamFacts: what [call_streamed] computes, for every operator. *)
From Coq Require Import String List ZArith Bool Lia.
From Verif Require Import Num Py PyFacts Tensor Streamable Spec.
Import ListNotations.

Section StreamFacts.
Context {N : FOps}.

Lemma dtype_eqb_eq a b : dtype_eqb a b = true <-> a = b.
Proof. destruct a, b; simpl; split; congruence. Qed.
Lemma shape_eqb_eq a b : shape_eqb a b = true <-> a = b.
Proof.
  revert b; induction a as [|x a IH]; destruct b as [|y b]; simpl; split; try easy; intros H.
  - apply andb_true_iff in H as [H1 H2]. apply Nat.eqb_eq in H1. apply IH in H2. congruence.
  - injection H as -> ->. rewrite Nat.eqb_refl. now apply IH.
Qed.
Lemma shape_eqb_refl a : shape_eqb a a = true.
Proof. now apply shape_eqb_eq. Qed.
Lemma dtype_eqb_refl a : dtype_eqb a a = true.
Proof. now apply dtype_eqb_eq. Qed.

Definition dummy : tensor := mkT [] (DB []).
Definition dummy_ta : tarray := mkTA BOOL [].

(** ** Unary maps over a genuine value *)
Lemma map_fn1 {A B} (h : A -> res B) (v : pyval A) :
  pyok v ->
  map_fn (fun l => match l with [Leaf x] => let* y := h x in Ok (Leaf y) | _ => Err EType end) v [v]
  = vmapM (fun i => let* y := h i in Ok (Leaf y)) v.
Proof.
  intros Hok. rewrite <- (vmap_id v) at 1 2.
  apply (map_fn_vmap (fun l => match l with [Leaf x] => let* y := h x in Ok (Leaf y) | _ => Err EType end)
           v Hok (fun a => a) [fun a => a]).
Qed.
Lemma map_fn1_pure {A B} (h : A -> B) (v : pyval A) :
  pyok v ->
  map_fn (fun l => match l with [Leaf x] => Ok (Leaf (h x)) | _ => Err EType end) v [v]
  = Ok (vmap h v).
Proof.
  intros Hok. rewrite <- (vmap_id v) at 1 2.
  etransitivity; [apply (map_fn_vmap (fun l => match l with [Leaf x] => Ok (Leaf (h x)) | _ => Err EType end)
           v Hok (fun a => a) [fun a => a])|].
  apply (vmapM_ok (fun x => Ok (h x)) h); auto.
Qed.

Lemma convert_ok v : pyok v -> convert v = Ok v.
Proof. intros H. etransitivity; [now apply (map_fn1_pure (fun t : tensor => t))|]. now rewrite vmap_id. Qed.
Lemma call_false op x st :
  pyok x -> (forall s, st = Some s -> pyok s) -> call op x st false = forward_step op x st.
Proof.
  intros Hx Hs. unfold call. rewrite convert_ok by assumption. cbn [bind].
  destruct st as [s|]; [|reflexivity]. rewrite convert_ok by auto. reflexivity.
Qed.
Lemma call_true op x st :
  pyok x -> (forall s, st = Some s -> pyok s) -> call op x st true = call_streamed op x st.
Proof.
  intros Hx Hs. unfold call. rewrite convert_ok by assumption. cbn [bind].
  destruct st as [s|]; [|reflexivity]. rewrite convert_ok by auto. reflexivity.
Qed.

Lemma to_type_ok v : pyok v -> to_type v = Ok (vmap dtype_of v).
Proof. intros H. now apply (map_fn1_pure dtype_of). Qed.
Lemma ta_new_ok v n : pyok v ->
  ta_new_all v n = Ok (vmap (fun t => mkTA (dtype_of t) (repeat None n)) v).
Proof. intros H. now apply (map_fn1_pure (fun t => mkTA (dtype_of t) (repeat None n))). Qed.

(** ** Slices *)
Lemma index0_row n s t i : sh t = n :: s -> i < n -> index0 t (Z.of_nat i) = Ok (trow i t).
Proof.
  intros E H. unfold index0, trow. rewrite E. simpl.
  destruct (Z.ltb_spec (Z.of_nat i) 0); [lia|].
  destruct (Z.leb_spec 0 (Z.of_nat i)); [|lia].
  destruct (Z.ltb_spec (Z.of_nat i) (Z.of_nat n)); [|lia].
  simpl. now rewrite Nat2Z.id.
Qed.
Lemma index0_out n s t i : sh t = n :: s -> n <= i -> exists e, index0 t (Z.of_nat i) = Err e.
Proof.
  intros E H. unfold index0. rewrite E.
  destruct (Z.ltb_spec (Z.of_nat i) 0); [lia|].
  destruct (Z.ltb_spec (Z.of_nat i) (Z.of_nat n)); [lia|].
  rewrite andb_false_r. eauto.
Qed.
Lemma slice_at_eq v z : pyok v ->
  slice_at z v = vmapM (fun x => let* y := index0 x z in Ok (Leaf y)) v.
Proof. intros H. exact (map_fn1 (fun x => index0 x z) v H). Qed.
Lemma slice_at_ok n v i : pyok v -> is_series n v -> i < n -> slice_at (Z.of_nat i) v = Ok (row i v).
Proof.
  intros Hok [_ Hs] Hi. rewrite slice_at_eq by assumption.
  apply vmapM_ok; auto. intros t Ht. rewrite Forall_forall in Hs.
  destruct (Hs t Ht) as (s & E). now apply (index0_row n s).
Qed.

Lemma input_size_ok n v : pyok v -> input_size v = Ok n <-> is_series n v.
Proof.
  intros Hok. unfold input_size, is_series. rewrite flatten_ok, mapM_map by assumption. simpl.
  split.
  - intros H. apply bind_ok in H as (sizes & H1 & H2).
    apply mapM_ok_iff in H1.
    destruct (leaves v) as [|t0 l] eqn:L; inversion H1 as [|? z ? zs Hz Hzs]; subst; [discriminate|].
    destruct (forallb (Nat.eqb z) (z :: zs)) eqn:F; [|discriminate]. injection H2 as ->.
    split; [discriminate|].
    rewrite forallb_forall in F.
    assert (K : forall t, In t (t0 :: l) -> exists k, In k (n :: zs) /\ size0 t = Ok k).
    { clear -H1. induction H1 as [|a b l0 l1 E H1 IH]; [easy|].
      intros t [->|Ht]; [exists b; simpl; auto|]. destruct (IH t Ht) as (k & ? & ?). exists k. simpl; auto. }
    apply Forall_forall. intros t Ht. destruct (K t Ht) as (k & Hk & E).
    apply F, Nat.eqb_eq in Hk. subst k. unfold size0 in E. destruct (sh t); [discriminate|].
    injection E as ->. eauto.
  - intros [NE F].
    assert (E : mapM (fun x => size0 x) (leaves v) = Ok (repeat n (length (leaves v)))).
    { apply mapM_ok_iff. induction F as [|t l (s & E) F IH]; simpl; constructor.
      - unfold size0. now rewrite E.
      - destruct l; [constructor|apply IH; discriminate]. }
    rewrite E. cbn [bind]. destruct (leaves v) as [|t l]; [easy|]. simpl.
    rewrite Nat.eqb_refl. simpl.
    assert (G : forallb (Nat.eqb n) (repeat n (length l)) = true).
    { apply forallb_forall. intros k Hk. apply repeat_spec in Hk. subst. apply Nat.eqb_refl. }
    now rewrite G.
Qed.

Lemma pyok_row i v : pyok (row i v) <-> pyok v.
Proof. apply pyok_vmap. Qed.

(** ** The state checks of one iteration *)
Definition state_check (s s' : val) : res unit :=
  let* t1 := to_type s in
  let* t2 := to_type s' in
  let* _ := check_types_equality t1 t2 in
  check_shapes s s'.

Fixpoint stepsC (op : operator) (s : val) (xs : list val) : res (list val * val) :=
  match xs with
  | [] => Ok ([], s)
  | x :: r =>
      let* (o, s', _) := forward_step op x (Some s) in
      let* _ := state_check s s' in
      let* (os, sf) := stepsC op s' r in
      Ok (o :: os, sf)
  end.

Fixpoint write_from (i : nat) (os : list val) (tas : tavals) : res tavals :=
  match os with
  | [] => Ok tas
  | o :: r => let* t' := ta_write_all i o tas in write_from (S i) r t'
  end.

Lemma while_iff op v n fuel i s tas j sf tasf :
  pyok v -> is_series n v -> i + fuel = n ->
  tf_while fuel (fun v : nat * val * tavals => Nat.ltb (fst (fst v)) n)
           (stream_body op v) (i, s, tas) = Ok (j, sf, tasf)
  <-> j = n /\ exists os,
      stepsC op s (map (fun k => row k v) (seq i fuel)) = Ok (os, sf) /\
      write_from i os tas = Ok tasf.
Proof.
  intros Hok Hs. revert i s tas; induction fuel as [|fuel IH]; intros i s tas Hi.
  - simpl. replace (Nat.ltb i n) with false by (symmetry; apply Nat.ltb_ge; lia).
    split.
    + intros H. injection H as <- <- <-. split; [lia|]. exists []. auto.
    + intros (-> & os & H & W). injection H as <- <-. simpl in W. injection W as <-.
      replace i with n by lia. reflexivity.
  - cbn [tf_while fst]. replace (Nat.ltb i n) with true by (symmetry; apply Nat.ltb_lt; lia).
    cbn [seq map stepsC].
    unfold stream_body at 1. rewrite (slice_at_ok n) by (auto; lia). cbn [bind].
    destruct (forward_step op (row i v) (Some s)) as [[[o s'] i0]|e]; cbn [bind].
    2:{ split; [discriminate|]. intros (_ & os & H & _). discriminate. }
    unfold state_check.
    destruct (to_type s) as [t1|e]; cbn [bind].
    2:{ split; [discriminate|]. intros (_ & os & H & _). discriminate. }
    destruct (to_type s') as [t2|e]; cbn [bind].
    2:{ split; [discriminate|]. intros (_ & os & H & _). discriminate. }
    destruct (check_types_equality t1 t2) as [[]|e]; cbn [bind].
    2:{ split; [discriminate|]. intros (_ & os & H & _). discriminate. }
    destruct (ta_write_all i o tas) as [tas'|e] eqn:W; cbn [bind].
    2:{ split; [discriminate|]. intros (_ & os & H & W').
        apply bind_ok in H as (_ & _ & H). apply bind_ok in H as ([os' sf'] & _ & H).
        injection H as <- <-. simpl in W'. rewrite W in W'. discriminate. }
    destruct (check_shapes s s') as [[]|e]; cbn [bind].
    2:{ split; [discriminate|]. intros (_ & os & H & _). discriminate. }
    rewrite IH by lia. split.
    + intros (-> & os & H & W'). split; auto. exists (o :: os). rewrite H. split; [reflexivity|].
      simpl. now rewrite W.
    + intros (-> & os & H & W'). split; auto.
      apply bind_ok in H as ([os' sf'] & E & H). injection H as <- <-.
      simpl in W'. rewrite W in W'. exists os'. auto.
Qed.

Lemma streamed_iff op v st n outs sf s0 :
  pyok v -> is_series n v ->
  call_streamed op v st = Ok (outs, sf, s0) <->
  n > 0 /\ exists o0 s1 i0 tas os tasf,
    forward_step op (row 0 v) st = Ok (o0, s1, i0) /\
    s0 = match st with Some s => s | None => i0 end /\
    ta_new_all o0 n = Ok tas /\
    stepsC op s0 (rows n v) = Ok (os, sf) /\
    write_from 0 os tas = Ok tasf /\
    ta_stack_all tasf = Ok outs.
Proof.
  intros Hok Hs. unfold call_streamed.
  rewrite (proj2 (input_size_ok n v Hok) Hs). cbn [bind].
  split.
  - intros H. apply bind_ok in H as (x0 & Hx0 & H).
    assert (Hn : n > 0).
    { destruct n; [|lia]. exfalso. destruct Hs as [NE F].
      rewrite slice_at_eq in Hx0 by assumption.
      destruct (leaves v) as [|t l] eqn:L; [easy|].
      destruct (vmapM_inv _ _ _ Hx0 t) as (y & Hy); [rewrite L; now left|].
      inversion F as [|? ? (s & E) _]; subst.
      destruct (index0_out 0 s t 0 E) as (e & He); [lia|]. simpl in He. rewrite He in Hy. discriminate. }
    split; auto.
    change 0%Z with (Z.of_nat 0) in Hx0. rewrite (slice_at_ok n) in Hx0 by auto. injection Hx0 as <-.
    apply bind_ok in H as ([[o0 s1] i0] & Hf & H).
    apply bind_ok in H as (tas & Ht & H).
    apply bind_ok in H as ([[j sf'] tasf] & Hw & H).
    apply bind_ok in H as (outs' & Hst & H). injection H as <- <- <-.
    apply (while_iff op v n) in Hw; auto.
    destruct Hw as (_ & os & H1 & H2).
    exists o0, s1, i0, tas, os, tasf. auto 10.
  - intros (Hn & o0 & s1 & i0 & tas & os & tasf & Hf & -> & Ht & H1 & H2 & Hst).
    change 0%Z with (Z.of_nat 0). rewrite (slice_at_ok n) by auto. cbn [bind]. rewrite Hf. cbn [bind].
    rewrite Ht. cbn [bind].
    assert (Hw := proj2 (while_iff op v n n 0 _ tas n sf tasf Hok Hs eq_refl)
                    (conj eq_refl (ex_intro _ os (conj H1 H2)))).
    rewrite Hw. cbn [bind]. rewrite Hst. reflexivity.
Qed.

(** ** TensorArrays, leaf by leaf *)
Fixpoint lwrite (i : nat) (ts : list tensor) (a : tarray) : res tarray :=
  match ts with
  | [] => Ok a
  | t :: r => let* a' := ta_write i t a in lwrite (S i) r a'
  end.

Lemma ta_write_all_iff {I} (s : pyval I) i (f : I -> tensor) (T : I -> tarray) r :
  pyok s ->
  ta_write_all i (vmap f s) (vmap T s) = Ok r <->
  (forall j, In j (leaves s) -> exists a, ta_write i (f j) (T j) = Ok a) /\
  r = vmap (fun j => getok dummy_ta (ta_write i (f j) (T j))) s.
Proof.
  intros Hok. unfold ta_write_all. rewrite !vmap_vmap.
  pose proof (map_fn_vmap (fun l => match l with
       | [Leaf (inl x); Leaf (inr y)] => let* y' := ta_write i x y in Ok (Leaf y')
       | _ => Err EType end) s Hok (fun a => @inl tensor tarray (f a))
       [(fun a => @inl tensor tarray (f a)); (fun a => @inr tensor tarray (T a))]) as E.
  cbn [map] in E. rewrite E. clear E.
  rewrite bind_ok.
  pose proof (vmapM_iff dummy_ta (fun j => ta_write i (f j) (T j)) s) as V.
  split.
  - intros (a & H & K). apply V in H as [H ->]; auto.
    rewrite pv_eqb_vmap in K by assumption.
    destruct (forallb _ _); [|discriminate]. injection K as <-. auto.
  - intros [H ->]. eexists; split; [apply V; auto|].
    rewrite pv_eqb_vmap by assumption.
    replace (forallb _ _) with true; [reflexivity|]. symmetry. now apply forallb_forall.
Qed.

Lemma write_from_iff {I} (s : pyval I) : pyok s -> forall (Fs : list (I -> tensor)) i (T : I -> tarray) r,
  write_from i (map (fun f => vmap f s) Fs) (vmap T s) = Ok r <->
  (forall j, In j (leaves s) -> exists a, lwrite i (map (fun f => f j) Fs) (T j) = Ok a) /\
  r = vmap (fun j => getok dummy_ta (lwrite i (map (fun f => f j) Fs) (T j))) s.
Proof.
  intros Hok Fs. induction Fs as [|f Fs IH]; intros i T r; cbn [map write_from].
  - simpl. split.
    + intros H. injection H as <-. split; [eauto|reflexivity].
    + intros [_ ->]. reflexivity.
  - rewrite bind_ok. split.
    + intros (t' & H & K). apply ta_write_all_iff in H as [H ->]; auto.
      apply IH in K as [K ->].
      assert (E : forall j, In j (leaves s) ->
         lwrite (S i) (map (fun f => f j) Fs) (getok dummy_ta (ta_write i (f j) (T j)))
         = lwrite i (f j :: map (fun f => f j) Fs) (T j)).
      { intros j Hj. simpl. destruct (H j Hj) as (a & ->). reflexivity. }
      split.
      * intros j Hj. rewrite <- E by assumption. auto.
      * apply vmap_ext. intros j Hj. f_equal. auto.
    + intros [H ->].
      assert (H1 : forall j, In j (leaves s) -> exists a, ta_write i (f j) (T j) = Ok a).
      { intros j Hj. destruct (H j Hj) as (a & Ha). apply bind_ok in Ha as (a' & Ha & _). eauto. }
      eexists. split; [apply ta_write_all_iff; auto|].
      apply IH.
      assert (E : forall j, In j (leaves s) ->
         lwrite (S i) (map (fun f => f j) Fs) (getok dummy_ta (ta_write i (f j) (T j)))
         = lwrite i (f j :: map (fun f => f j) Fs) (T j)).
      { intros j Hj. simpl. destruct (H1 j Hj) as (a & ->). reflexivity. }
      split.
      * intros j Hj. rewrite E by assumption. auto.
      * apply vmap_ext. intros j Hj. f_equal. symmetry. auto.
Qed.

Lemma set_nth_app {A} (pre : list A) y r x : set_nth (length pre) x (pre ++ y :: r) = pre ++ x :: r.
Proof. induction pre; simpl; congruence. Qed.

Lemma lwrite_iff ts : forall d pre a,
  lwrite (length pre) ts (mkTA d (pre ++ repeat None (length ts))) = Ok a <->
  Forall (fun t => dtype_of t = d) ts /\ a = mkTA d (pre ++ map Some ts).
Proof.
  induction ts as [|t ts IH]; intros d pre a.
  - simpl. split; [intros H; injection H as <-; auto|intros [_ ->]; reflexivity].
  - cbn [lwrite length repeat map]. unfold ta_write. cbn [ta_dt ta_cells].
    destruct (dtype_eqb (dtype_of t) d) eqn:E.
    + apply dtype_eqb_eq in E.
      rewrite nth_error_app2, Nat.sub_diag by lia. cbn [nth_error bind].
      rewrite set_nth_app. cbn [bind].
      replace (pre ++ Some t :: repeat None (length ts))
        with ((pre ++ [Some t]) ++ repeat None (length ts)) by (now rewrite <- app_assoc).
      replace (S (length pre)) with (length (pre ++ [Some t])) by (rewrite app_length; simpl; lia).
      rewrite IH, <- app_assoc. simpl. rewrite Forall_cons_iff. tauto.
    + cbn [bind]. split; [discriminate|]. intros [H _]. inversion H as [|? ? Ht]; subst.
      rewrite dtype_eqb_refl in E. discriminate.
Qed.

Lemma ta_stack_some d ts : ta_stack (mkTA d (map Some ts)) = tstack ts.
Proof.
  unfold ta_stack. cbn [ta_cells]. rewrite mapM_map. rewrite (mapM_Ok (fun t => t)), map_id. reflexivity.
Qed.

Lemma ta_stack_all_iff {I} (s : pyval I) (T : I -> tarray) outs :
  pyok s ->
  ta_stack_all (vmap T s) = Ok outs <->
  (forall j, In j (leaves s) -> exists t, ta_stack (T j) = Ok t) /\
  outs = vmap (fun j => getok dummy (ta_stack (T j))) s.
Proof.
  intros Hok.
  assert (E : ta_stack_all (vmap T s) = vmapM (fun j => let* t := ta_stack (T j) in Ok (Leaf t)) s)
    by exact (map_fn_vmap (fun l => match l with
                   | [Leaf a] => let* t := ta_stack a in Ok (Leaf t)
                   | _ => Err EType end) s Hok T [T]).
  rewrite E. now apply (vmapM_iff dummy (fun j => ta_stack (T j))).
Qed.

(** The TensorArray part of a streamed call on outputs of one structure. *)
Lemma arrays_iff {I} (s : pyval I) (G : I -> tensor) (Fs : list (I -> tensor)) n outs :
  pyok s -> length Fs = n ->
  (exists tas tasf, ta_new_all (vmap G s) n = Ok tas /\
     write_from 0 (map (fun f => vmap f s) Fs) tas = Ok tasf /\ ta_stack_all tasf = Ok outs)
  <-> (forall j, In j (leaves s) ->
         Forall (fun f => dtype_of (f j) = dtype_of (G j)) Fs /\
         exists t, tstack (map (fun f => f j) Fs) = Ok t) /\
      outs = vmap (fun j => getok dummy (tstack (map (fun f => f j) Fs))) s.
Proof.
  intros Hok Hn.
  assert (L : forall j a,
    lwrite 0 (map (fun f => f j) Fs) (mkTA (dtype_of (G j)) (repeat None n)) = Ok a <->
    Forall (fun f => dtype_of (f j) = dtype_of (G j)) Fs /\
    a = mkTA (dtype_of (G j)) (map Some (map (fun f => f j) Fs))).
  { intros j a. pose proof (lwrite_iff (map (fun f => f j) Fs) (dtype_of (G j)) [] a) as K.
    rewrite map_length, Hn in K. rewrite Forall_map in K. exact K. }
  split.
  - intros (tas & tasf & H1 & H2 & H3).
    rewrite ta_new_ok in H1 by (now apply pyok_vmap). injection H1 as <-.
    rewrite vmap_vmap in H2. apply write_from_iff in H2 as [H2 ->]; auto.
    apply ta_stack_all_iff in H3 as [H3 ->]; auto.
    assert (K : forall j, In j (leaves s) ->
      ta_stack (getok dummy_ta (lwrite 0 (map (fun f => f j) Fs) (mkTA (dtype_of (G j)) (repeat None n))))
      = tstack (map (fun f => f j) Fs)
      /\ Forall (fun f => dtype_of (f j) = dtype_of (G j)) Fs).
    { intros j Hj. destruct (H2 j Hj) as (a & Ha). rewrite Ha. apply L in Ha as [Ha ->].
      simpl getok. rewrite ta_stack_some. auto. }
    split.
    + intros j Hj. destruct (K j Hj) as [E1 E2]. split; auto. rewrite <- E1. auto.
    + apply vmap_ext. intros j Hj. f_equal. now apply K.
  - intros [H ->].
    rewrite ta_new_ok by (now apply pyok_vmap). rewrite vmap_vmap.
    eexists _, _. split; [reflexivity|].
    assert (K : forall j, In j (leaves s) ->
       lwrite 0 (map (fun f => f j) Fs) (mkTA (dtype_of (G j)) (repeat None n))
       = Ok (mkTA (dtype_of (G j)) (map Some (map (fun f => f j) Fs)))).
    { intros j Hj. apply L. split; auto. now apply H. }
    split.
    + apply write_from_iff; auto. split; [|reflexivity].
      intros j Hj. rewrite K by assumption. eauto.
    + apply ta_stack_all_iff; auto. split.
      * intros j Hj. rewrite K by assumption. simpl getok. rewrite ta_stack_some. now apply H.
      * apply vmap_ext. intros j Hj. rewrite K by assumption. simpl getok. now rewrite ta_stack_some.
Qed.
End StreamFacts.
