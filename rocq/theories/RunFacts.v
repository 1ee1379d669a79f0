(** * RunFacts: a streamed call as a run over the rows; tuples of runs. *)
From Coq Require Import String List ZArith Bool Lia.
From Verif Require Import Num Py PyFacts Tensor Streamable Spec StreamFacts TensorFacts StreamProofs
  WfFacts Meta Common GenuineBase.
Import ListNotations.

Section RunFacts.
Context {N : FOps}.
Hint Resolve genuine_pyok genuine_opt_pyok : core.

(** The TensorArrays made for [o0], filled with [os] and stacked. *)
Definition arr (n : nat) (o0 : val) (os : list val) (outs : val) : Prop :=
  exists tas tasf, ta_new_all o0 n = Ok tas /\ write_from 0 os tas = Ok tasf /\ ta_stack_all tasf = Ok outs.
Definition start_of (st : option val) (i0 : val) : val := match st with Some s => s | None => i0 end.
Definition runs (op : operator) (st : option val) (x0 : val) (xs : list val) (outs sf s0 : val) : Prop :=
  exists o0 s1 i0 os,
    forward_step op x0 st = Ok (o0, s1, i0) /\ s0 = start_of st i0 /\
    stepsC op s0 xs = Ok (os, sf) /\ arr (length xs) o0 os outs.

Lemma call_iff op v st n outs sf s0 : genuine v -> genuine_opt st -> is_series n v ->
  call op v st true = Ok (outs, sf, s0) <-> n > 0 /\ runs op st (row 0 v) (rows n v) outs sf s0.
Proof.
  intros Gv Gst Hn. rewrite call_true by eauto. rewrite (streamed_iff op v st n) by auto.
  unfold runs, arr, start_of. rewrite rows_length. split.
  - intros (Hp & o0 & s1 & i0 & tas & os & tasf & H1 & H2 & H3 & H4 & H5 & H6). split; auto.
    exists o0, s1, i0, os. repeat (split; auto). exists tas, tasf. auto.
  - intros (Hp & o0 & s1 & i0 & os & H1 & H2 & H4 & tas & tasf & H3 & H5 & H6). split; auto.
    exists o0, s1, i0, tas, os, tasf. auto 10.
Qed.

(** ** Tuples, one component at a time *)
Lemma map_fn_tup_nil {A B} (f : list (pyval A) -> res (pyval B)) objs its :
  mapM iter objs = Ok its -> map_fn f (Tup []) objs = Ok (Tup []).
Proof. intros H. cbn [map_fn]. rewrite H. reflexivity. Qed.
Lemma map_fn_tup_ok {A B} (f : list (pyval A) -> res (pyval B)) a objs r :
  map_fn f (Tup a) objs = Ok r -> exists rs, r = Tup rs.
Proof.
  cbn [map_fn]. intros H. apply bind_ok in H as (its & _ & H). apply bind_ok in H as (rs & _ & H).
  injection H as <-. eauto.
Qed.
Lemma map_fn_cons1 {A B} (f : list (pyval A) -> res (pyval B)) x a y b r :
  map_fn f (Tup (x :: a)) [Tup (y :: b)] = Ok r <->
  exists u rs, map_fn f x [y] = Ok u /\ map_fn f (Tup a) [Tup b] = Ok (Tup rs) /\ r = Tup (u :: rs).
Proof.
  cbn [map_fn mapM iter bind heads]. split.
  - intros H. apply bind_ok in H as (rs & H & E). injection E as <-.
    apply bind_ok in H as (u & Hu & H). apply bind_ok in H as (rs' & Hr & H). injection H as <-.
    exists u, rs'. rewrite Hr. auto.
  - intros (u & rs & Hu & Hr & ->). rewrite Hu. cbn [bind].
    apply bind_ok in Hr as (rs' & Hr & E). injection E as <-. rewrite Hr. reflexivity.
Qed.
Lemma map_fn_cons2 {A B} (f : list (pyval A) -> res (pyval B)) x a y b z c r :
  map_fn f (Tup (x :: a)) [Tup (y :: b); Tup (z :: c)] = Ok r <->
  exists u rs, map_fn f x [y; z] = Ok u /\ map_fn f (Tup a) [Tup b; Tup c] = Ok (Tup rs) /\ r = Tup (u :: rs).
Proof.
  cbn [map_fn mapM iter bind heads]. split.
  - intros H. apply bind_ok in H as (rs & H & E). injection E as <-.
    apply bind_ok in H as (u & Hu & H). apply bind_ok in H as (rs' & Hr & H). injection H as <-.
    exists u, rs'. rewrite Hr. auto.
  - intros (u & rs & Hu & Hr & ->). rewrite Hu. cbn [bind].
    apply bind_ok in Hr as (rs' & Hr & E). injection E as <-. rewrite Hr. reflexivity.
Qed.

Lemma pv_eqb_cons {A B} (e : A -> B -> bool) x a y b :
  pv_eqb e (Tup (x :: a)) (Tup (y :: b)) = pv_eqb e x y && pv_eqb e (Tup a) (Tup b).
Proof. reflexivity. Qed.

Lemma ta_new_cons x a n r :
  ta_new_all (Tup (x :: a)) n = Ok r <->
  exists u rs, ta_new_all x n = Ok u /\ ta_new_all (Tup a) n = Ok (Tup rs) /\ r = Tup (u :: rs).
Proof. apply map_fn_cons1. Qed.
Lemma ta_stack_cons x a r :
  ta_stack_all (Tup (x :: a)) = Ok r <->
  exists u rs, ta_stack_all x = Ok u /\ ta_stack_all (Tup a) = Ok (Tup rs) /\ r = Tup (u :: rs).
Proof. apply map_fn_cons1. Qed.
Lemma ta_write_tup i o ts r : ta_write_all i o (Tup ts) = Ok r -> exists rs, r = Tup rs.
Proof.
  unfold ta_write_all. intros H. apply bind_ok in H as (w & _ & H).
  destruct (pv_eqb _ _ w) eqn:E; [|discriminate]. injection H as <-.
  destruct w; try discriminate. eauto.
Qed.
Lemma ta_write_cons i x a t ts r :
  ta_write_all i (Tup (x :: a)) (Tup (t :: ts)) = Ok r <->
  exists u rs, ta_write_all i x t = Ok u /\ ta_write_all i (Tup a) (Tup ts) = Ok (Tup rs) /\ r = Tup (u :: rs).
Proof.
  unfold ta_write_all. cbn [vmap map]. split.
  - intros H. apply bind_ok in H as (w & H & E). apply map_fn_cons2 in H as (u & rs & Hu & Hr & ->).
    rewrite pv_eqb_cons in E. destruct (pv_eqb _ t u) eqn:E1; [|discriminate].
    destruct (pv_eqb _ (Tup ts) (Tup rs)) eqn:E2; [|discriminate]. injection E as <-.
    exists u, rs. rewrite Hu. cbn [bind]. rewrite E1. split; [reflexivity|].
    cbn [map] in Hr. rewrite Hr. cbn [bind]. rewrite E2. auto.
  - intros (u & rs & Hu & Hr & ->). apply bind_ok in Hu as (u' & Hu & Eu). apply bind_ok in Hr as (r' & Hr & Er).
    destruct (pv_eqb _ t u') eqn:E1; [|discriminate]. injection Eu as ->.
    destruct (pv_eqb _ (Tup ts) r') eqn:E2; [|discriminate]. injection Er as ->.
    apply bind_ok. exists (Tup (u :: rs)). split; [|now rewrite (pv_eqb_cons _ t ts u rs), E1, E2].
    apply map_fn_cons2. exists u, rs. auto.
Qed.
Definition tcons (p : val * list val) : val := Tup (fst p :: snd p).
Definition trest (p : val * list val) : val := Tup (snd p).
Lemma write_tup os : forall i ts r, write_from i os (Tup ts) = Ok r -> exists rs, r = Tup rs.
Proof.
  induction os as [|o os IH]; intros i ts r H; cbn [write_from] in H.
  - injection H as <-. eauto.
  - apply bind_ok in H as (t' & Ht & H). destruct (ta_write_tup _ _ _ _ Ht) as (rs & ->). eauto.
Qed.
Lemma write_cons l : forall i t ts r,
  write_from i (map tcons l) (Tup (t :: ts)) = Ok r <->
  exists u rs, write_from i (map fst l) t = Ok u /\ write_from i (map trest l) (Tup ts) = Ok (Tup rs) /\
    r = Tup (u :: rs).
Proof.
  induction l as [|[o os] l IH]; intros i t ts r; cbn [map write_from].
  - split; [intros H; injection H as <-; eauto 6|]. intros (u & rs & H1 & H2 & ->). injection H1 as ->. injection H2 as ->. reflexivity.
  - unfold tcons, trest; cbn [fst snd]. split.
    + intros H. apply bind_ok in H as (t' & Ht & H). apply ta_write_cons in Ht as (u & rs & Hu & Hr & ->).
      apply IH in H as (u' & rs' & Hu' & Hr' & ->). exists u', rs'.
      rewrite Hu, Hr. cbn [bind]. auto.
    + intros (u & rs & Hu & Hr & ->). apply bind_ok in Hu as (t' & Ht & Hu). apply bind_ok in Hr as (ts' & Hts & Hr).
      destruct (ta_write_tup _ _ _ _ Hts) as (ts2 & ->).
      apply bind_ok. exists (Tup (t' :: ts2)). split; [apply ta_write_cons; eauto 6|].
      apply IH. eauto 6.
Qed.
Lemma arr_cons n x a l outs :
  arr n (Tup (x :: a)) (map tcons l) outs <->
  exists u us, arr n x (map fst l) u /\ arr n (Tup a) (map trest l) (Tup us) /\ outs = Tup (u :: us).
Proof.
  unfold arr. split.
  - intros (tas & tasf & H1 & H2 & H3). apply ta_new_cons in H1 as (t & ts & Ht & Hts & ->).
    apply write_cons in H2 as (u & us & Hu & Hus & ->). apply ta_stack_cons in H3 as (o & os & Ho & Hos & ->).
    exists o, os. split; [exists t, u; auto|]. split; [exists (Tup ts), (Tup us); auto|reflexivity].
  - intros (o & os & (t & u & H1 & H2 & H3) & (ts & us & H4 & H5 & H6) & ->).
    destruct (map_fn_tup_ok _ _ _ _ H4) as (ts' & ->). destruct (write_tup _ _ _ _ H5) as (us' & ->).
    exists (Tup (t :: ts')), (Tup (u :: us')).
    rewrite ta_new_cons, write_cons, ta_stack_cons.
    split; [exists t, ts'; auto|]. split; [exists u, us'; auto|exists o, os; auto].
Qed.
Lemma arr_tup n a os outs : arr n (Tup a) os outs -> exists us, outs = Tup us.
Proof.
  intros (tas & tasf & H1 & H2 & H3). destruct (map_fn_tup_ok _ _ _ _ H1) as (ts' & ->).
  destruct (write_tup _ _ _ _ H2) as (us' & ->). eapply map_fn_tup_ok; exact H3.
Qed.
Lemma arr_nil n k : arr n (Tup []) (repeat (Tup []) k) (Tup []).
Proof.
  exists (Tup []), (Tup []). split; [reflexivity|]. split; [|reflexivity].
  generalize 0. induction k as [|k IH]; intros i; cbn; [reflexivity|]. apply IH.
Qed.

(** ** The check of the state *)
Lemma check_shapes_cons s ss s' ss' :
  check_shapes (Tup (s :: ss)) (Tup (s' :: ss')) = Ok tt <->
  check_shapes s s' = Ok tt /\ check_shapes (Tup ss) (Tup ss') = Ok tt.
Proof.
  unfold check_shapes. split.
  - intros H. apply bind_ok in H as (w & H & _). apply map_fn_cons2 in H as (u & rs & Hu & Hr & ->).
    split; apply bind_ok; eexists; (split; [eassumption|reflexivity]).
  - intros [H1 H2]. apply bind_ok in H1 as (u & H1 & _). apply bind_ok in H2 as (w & H2 & _).
    destruct (map_fn_tup_ok _ _ _ _ H2) as (rs & ->).
    apply bind_ok. exists (Tup (u :: rs)). split; [|reflexivity]. apply map_fn_cons2. eauto 6.
Qed.
Lemma state_check_ok s s' : pyok s -> pyok s' ->
  state_check s s' = Ok tt <-> same_types s s' = true /\ check_shapes s s' = Ok tt.
Proof.
  intros H1 H2. unfold state_check. rewrite !to_type_ok by assumption. cbn [bind].
  unfold check_types_equality, same_types. destruct (pv_eqb _ _ _); cbn [bind]; [tauto|].
  split; [discriminate|]. now intros [].
Qed.
Lemma state_check_tup s s' : pyok s -> pyok s' -> state_check s s' = Ok tt ->
  forall ss, s = Tup ss -> exists ss', s' = Tup ss' /\ length ss' = length ss.
Proof.
  intros H1 H2 H ss ->. apply state_check_ok in H as [H _]; auto. unfold same_types in H.
  destruct s' as [|l|?|?|?]; try discriminate. exists l. split; [reflexivity|].
  cbn [vmap] in H. revert l H H1 H2. induction ss as [|x ss IH]; intros [|y l] H H1 H2; try discriminate; auto.
  cbn [map] in H. rewrite pv_eqb_cons in H. apply andb_true_iff in H as [_ H]. simpl. f_equal. apply IH; auto.
  - apply pyok_tup. apply pyok_tup in H1. now inversion H1.
  - apply pyok_tup. apply pyok_tup in H2. now inversion H2.
Qed.
Lemma state_check_cons s ss s' ss' : genuine (Tup (s :: ss)) -> genuine (Tup (s' :: ss')) ->
  state_check (Tup (s :: ss)) (Tup (s' :: ss')) = Ok tt <->
  state_check s s' = Ok tt /\ state_check (Tup ss) (Tup ss') = Ok tt.
Proof.
  intros G G'. assert (Q := genuine_pyok _ G). assert (Q' := genuine_pyok _ G').
  assert (P := Q). assert (P' := Q'). apply pyok_tup in P, P'. inversion P; subst. inversion P'; subst.
  rewrite !state_check_ok by (auto; now apply pyok_tup). rewrite check_shapes_cons.
  unfold same_types. cbn [vmap map]. rewrite pv_eqb_cons, andb_true_iff. tauto.
Qed.

(** ** Runs with an arbitrary check *)
Section Check.
Variable chk : val -> val -> res unit.
Fixpoint stepsG (op : operator) (s : val) (xs : list val) : res (list val * val) :=
  match xs with
  | [] => Ok ([], s)
  | x :: r =>
      let* (o, s', _) := forward_step op x (Some s) in
      let* _ := chk s s' in
      let* (os, sf) := stepsG op s' r in
      Ok (o :: os, sf)
  end.
Lemma stepsG_cons op s x xs os sf :
  stepsG op s (x :: xs) = Ok (os, sf) <->
  exists o s' i os', forward_step op x (Some s) = Ok (o, s', i) /\ chk s s' = Ok tt /\
    stepsG op s' xs = Ok (os', sf) /\ os = o :: os'.
Proof.
  cbn [stepsG]. split.
  - intros H. apply bind_ok in H as ([[o s'] i] & H1 & H). apply bind_ok in H as ([] & H2 & H).
    apply bind_ok in H as ([os' sf'] & H3 & H). injection H as <- <-. eauto 10.
  - intros (o & s' & i & os' & H1 & H2 & H3 & ->). rewrite H1. cbn [bind]. rewrite H2. cbn [bind].
    now rewrite H3.
Qed.
Lemma stepsG_genuine op : genuine_op op -> forall xs s os sf,
  genuine s -> Forall genuine xs -> stepsG op s xs = Ok (os, sf) ->
  Forall genuine os /\ genuine sf /\ length os = length xs.
Proof.
  intros Gop. induction xs as [|x xs IH]; intros s os sf Gs Gx H.
  - injection H as <- <-. auto.
  - apply stepsG_cons in H as (o & s' & i & os' & H1 & _ & H2 & ->). inversion Gx; subst.
    destruct (Gop _ (Some s) _ _ _ H3 Gs H1) as (Go & Gs' & _).
    destruct (IH _ _ _ Gs' H4 H2) as (? & ? & ?). simpl. auto.
Qed.
End Check.
Lemma stepsC_G op xs : forall s, stepsC op s xs = stepsG state_check op s xs.
Proof.
  induction xs as [|x xs IH]; intros s; [reflexivity|]. cbn [stepsC stepsG].
  destruct (forward_step op x (Some s)) as [[[o s'] i]|]; cbn [bind]; [|reflexivity].
  destruct (state_check s s') as [[]|]; cbn [bind]; [|reflexivity]. now rewrite IH.
Qed.
Definition no_check (_ _ : val) : res unit := Ok tt.
Lemma steps_G op : genuine_op op -> forall xs s, genuine s -> Forall genuine xs ->
  steps op s xs = stepsG no_check op s xs.
Proof.
  intros Gop. induction xs as [|x xs IH]; intros s Gs Gx; [reflexivity|]. cbn [steps stepsG].
  inversion Gx; subst. rewrite call_false_g by assumption.
  destruct (forward_step op x (Some s)) as [[[o s'] i]|] eqn:E; cbn [bind no_check]; [|reflexivity].
  destruct (Gop _ (Some s) _ _ _ H1 Gs E) as (_ & Gs' & _). now rewrite IH.
Qed.
(** A check of tuples is a check of the components. *)
Definition splits (chk : val -> val -> res unit) : Prop :=
  (forall s ss s' ss', genuine (Tup (s :: ss)) -> genuine (Tup (s' :: ss')) ->
     chk (Tup (s :: ss)) (Tup (s' :: ss')) = Ok tt <->
     chk s s' = Ok tt /\ chk (Tup ss) (Tup ss') = Ok tt) /\
  chk (Tup []) (Tup []) = Ok tt.
Lemma splits_state : splits state_check.
Proof. split; [apply state_check_cons|reflexivity]. Qed.
Lemma splits_no : splits no_check.
Proof. split; [|reflexivity]. unfold no_check. tauto. Qed.
End RunFacts.
