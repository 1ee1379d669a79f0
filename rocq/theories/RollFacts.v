(** * RollFacts: proofs for C72. *)
From Coq Require Import List ZArith Bool Lia.
From Verif Require Import Num Py PyFacts Tensor Streamable Meta Common Spec SpecHelpers Roll WfFacts StreamFacts GenuineBase.
Import ListNotations.

Section RollFacts.
Context {N : FOps}.

Lemma rows_of {A} P n (v t : list A) : length v = P -> length t = n * P -> forall k, k < n - 1 ->
  lslice (S k * P) P (v ++ lslice 0 ((n - 1) * P) t) = lslice (k * P) P t.
Proof.
  intros V T k K. unfold lslice. cbn [skipn]. replace (S k * P) with (length v + k * P) by lia. rewrite skipn_app, skipn_all2 by lia.
  replace (length v + k * P - length v) with (k * P) by lia. cbn [app]. rewrite skipn_firstn_comm, firstn_firstn. f_equal. nia.
Qed.
Lemma row_zero {A} P (v t : list A) : length v = P -> lslice 0 P (v ++ t) = v.
Proof. intros V. unfold lslice. cbn [skipn]. rewrite firstn_app, firstn_all2, V, Nat.sub_diag by lia. apply app_nil_r. Qed.
Lemma shape_same s : shape_eqb s s = true.
Proof. induction s; cbn; [reflexivity|]. now rewrite Nat.eqb_refl. Qed.
Theorem roll_law s d n v t : tensor_of s d v -> tensor_of (S n :: s) d t ->
  exists r, roll v t = Ok r /\ tensor_of (S n :: s) d r /\ row_is r 0 v /\ forall k, k < n -> exists x, row_is r (S k) x /\ row_is t k x.
Proof.
  intros (Wv & Sv & Dv) (Wt & St & Dt).
  assert (E : exists r, roll v t = Ok r /\ sh r = S n :: s /\ dtype_of r = d /\ dslice 0 (prod s) (dat r) = dat v /\
            forall k, k < n -> dslice (S k * prod s) (prod s) (dat r) = dslice (k * prod s) (prod s) (dat t)).
  { unfold roll, droplast0, slice0. rewrite St. cbn [bind]. unfold concat0, expand0. cbn [sh dat]. rewrite Sv, shape_same.
    change (Z.ltb 0 0) with false. change (Z.ltb (-1) 0) with true. cbn [bind].
    replace (Z.to_nat (Z.min 0 (Z.of_nat (S n)))) with 0 by lia. replace (Z.to_nat (Z.max 0 (-1 + Z.of_nat (S n)))) with (S n - 1) by lia. rewrite Nat.sub_0_r, Nat.mul_0_l.
    unfold wf in *. rewrite Sv in Wv. rewrite St in Wt. cbn [prod] in Wt. unfold dtype_of in *.
    destruct (dat v) as [a|a|a], (dat t) as [b|b|b]; cbn in Dv, Dt, Wv, Wt; try congruence; cbn [dslice dapp bind]; eexists; (split; [reflexivity|]); cbn [sh dat dslice];
      (split; [f_equal; lia|]); (split; [exact Dv|]); (split; [now rewrite row_zero|]); intros k K; idtac; (f_equal; apply (rows_of (prod s) (S n)); [exact Wv| |lia]; rewrite Wt; reflexivity). }
  destruct E as (r & E & Sr & Dr & R0 & Rk). exists r. split; [exact E|]. split; [split; [exact (wf_roll _ _ _ Wv Wt E)|split; assumption]|]. unfold row_is, index0. rewrite Sr. split.
  - replace (Z.ltb (Z.of_nat 0) 0) with false by (symmetry; apply Z.ltb_ge; lia).
    replace (Z.leb 0 (Z.of_nat 0) && Z.ltb (Z.of_nat 0) (Z.of_nat (S n)))%bool with true by (symmetry; apply andb_true_iff; split; [apply Z.leb_le|apply Z.ltb_lt]; lia).
    rewrite Nat2Z.id, Nat.mul_0_l, R0. destruct v; cbn in *. now subst.
  - intros k K. eexists. rewrite St.
    replace (Z.ltb (Z.of_nat (S k)) 0) with false by (symmetry; apply Z.ltb_ge; lia). replace (Z.ltb (Z.of_nat k) 0) with false by (symmetry; apply Z.ltb_ge; lia).
    replace (Z.leb 0 (Z.of_nat (S k)) && Z.ltb (Z.of_nat (S k)) (Z.of_nat (S n)))%bool with true by (symmetry; apply andb_true_iff; split; [apply Z.leb_le|apply Z.ltb_lt]; lia).
    replace (Z.leb 0 (Z.of_nat k) && Z.ltb (Z.of_nat k) (Z.of_nat (S n)))%bool with true by (symmetry; apply andb_true_iff; split; [apply Z.leb_le|apply Z.ltb_lt]; lia).
    rewrite !Nat2Z.id, Rk by lia. split; reflexivity.
Qed.
(** An empty window grows to one row. *)
Theorem roll_empty s d v t : tensor_of s d v -> tensor_of (0 :: s) d t -> exists r, roll v t = Ok r /\ tensor_of (1 :: s) d r /\ row_is r 0 v.
Proof.
  intros (Wv & Sv & Dv) (Wt & St & Dt).
  assert (E : exists r, roll v t = Ok r /\ sh r = 1 :: s /\ dat r = dat v).
  { unfold roll, droplast0, slice0. rewrite St. cbn [bind]. unfold concat0, expand0. cbn [sh dat]. rewrite Sv, shape_same. cbn [bind].
    unfold wf in *. rewrite St in Wt. cbn [prod] in Wt. unfold dtype_of in *.
    destruct (dat v) as [a|a|a], (dat t) as [b|b|b]; cbn in Dv, Dt, Wt; try congruence; destruct b; try discriminate Wt; cbn; eexists; (split; [reflexivity|]); cbn; (split; [reflexivity|]);
      now rewrite ?firstn_nil, ?app_nil_r. }
  destruct E as (r & E & Sr & Er). exists r. split; [exact E|]. assert (Dr : dtype_of r = d) by (unfold dtype_of in *; now rewrite Er).
  split; [split; [exact (wf_roll _ _ _ Wv Wt E)|split; assumption]|]. unfold row_is, index0. rewrite Sr, Er. cbn [Z.of_nat Z.ltb Z.leb Z.compare andb Z.to_nat Nat.mul]. destruct v as [sv dv]; cbn [sh dat] in *. subst sv. do 2 f_equal.
  unfold wf in Wv. cbn [sh dat] in Wv. destruct dv; cbn [dlen] in Wv; cbn [dslice]; f_equal; unfold lslice; cbn [skipn]; apply firstn_all2; rewrite Wv; cbn; lia.
Qed.
Lemma shape_eqb_eq a : forall b, shape_eqb a b = true -> a = b.
Proof. induction a as [|x a IH]; intros [|y b]; cbn; try discriminate; [reflexivity|]. intros H. apply andb_true_iff in H as [H1 H2]. apply Nat.eqb_eq in H1. f_equal; auto. Qed.
(** Values of another shape or dtype are not taken. *)
Theorem roll_rejects v t n s d : tensor_of (n :: s) d t -> sh v <> s \/ dtype_of v <> d -> exists e, roll v t = Err e.
Proof.
  intros (Wt & St & Dt) H. destruct (roll v t) as [r|e] eqn:E; [exfalso|eauto].
  unfold roll, droplast0, slice0 in E. rewrite St in E. cbn [bind] in E. unfold concat0, expand0 in E. cbn [sh dat] in E.
  destruct (shape_eqb (sh v) s) eqn:S; [|discriminate E]. apply shape_eqb_eq in S. destruct H as [H|H]; [now apply H|]. apply H. subst d. unfold dtype_of in *.
  destruct (dat v), (dat t); cbn in E; try discriminate E; reflexivity.
Qed.
Theorem roll_scalar v t : sh t = [] -> exists e, roll v t = Err e.
Proof. intros E. unfold roll, droplast0, slice0. rewrite E. cbn. eauto. Qed.
(** [shift] is [roll] on vectors, and takes nothing else. *)
Theorem shift_is_roll v t n d : tensor_of [n] d t -> shift v t = roll v t.
Proof.
  intros (Wt & St & Dt). unfold shift, roll, droplast0, slice0. rewrite St. cbn [bind]. f_equal. change (Z.ltb 0 0) with false. change (Z.ltb (-1) 0) with true. cbv iota.
  replace (Z.to_nat (Z.min 0 (Z.of_nat n))) with 0 by lia. replace (Z.to_nat (Z.max 0 (-1 + Z.of_nat n))) with (pred n) by lia. change (prod []) with 1. rewrite Nat.sub_0_r, !Nat.mul_1_r. reflexivity.
Qed.
Theorem shift_vectors_only v t : length (sh t) <> 1 -> exists e, shift v t = Err e.
Proof. intros H. unfold shift. destruct (sh t) as [|? [|? ?]]; cbn in H; eauto; lia. Qed.
(** The window after any number of values. *)
Theorem push_law s d n vs : forall t, Forall (tensor_of s d) vs -> tensor_of (S n :: s) d t ->
  exists r, push_all roll vs t = Ok r /\ tensor_of (S n :: s) d r /\
    (forall k v, k <= n -> nth_error (rev vs) k = Some v -> row_is r k v) /\
    (forall k, length vs + k <= n -> exists x, row_is r (length vs + k) x /\ row_is t k x).
Proof.
  induction vs as [|v vs IH] using rev_ind; intros t H T.
  - exists t. split; [reflexivity|]. split; [exact T|]. split; [intros [|k]; discriminate|]. intros k K. cbn in *.
    destruct T as (Wt & St & Dt). unfold row_is, index0. rewrite St.
    replace (Z.ltb (Z.of_nat k) 0) with false by (symmetry; apply Z.ltb_ge; lia).
    replace (Z.leb 0 (Z.of_nat k) && Z.ltb (Z.of_nat k) (Z.of_nat (S n)))%bool with true by (symmetry; apply andb_true_iff; split; [apply Z.leb_le|apply Z.ltb_lt]; lia). eauto.
  - apply Forall_app in H as [H1 H2]. apply Forall_inv in H2. destruct (IH t H1 T) as (w & E & Tw & New & Old).
    destruct (roll_law s d n v w H2 Tw) as (r & R & Tr & R0 & Rk). exists r. split.
    { clear -E R. revert t E. induction vs as [|u vs IH]; intros t E; cbn in *.
      - apply ok_inj in E. subst. now rewrite R.
      - apply bind_ok in E as (x & -> & E). cbn. now apply IH. }
    split; [exact Tr|]. rewrite rev_app_distr, app_length. cbn [rev app length]. split.
    + intros [|k] u K U; cbn in U; [injection U as <-; exact R0|]. destruct (Rk k ltac:(lia)) as (x & X1 & X2). specialize (New k u ltac:(lia) U). unfold row_is in *. rewrite X1. congruence.
    + intros k K. destruct (Rk (length vs + k) ltac:(lia)) as (x & X1 & X2). destruct (Old k ltac:(lia)) as (y & Y1 & Y2). exists y.
      replace (length vs + 1 + k) with (S (length vs + k)) by lia. split; [|exact Y2]. unfold row_is in *. congruence.
Qed.
(** ** any_value and any_nan of anything but floats *)
Lemma any_leaf_inv f v r : pyok v -> any_leaf f v = Ok r -> forall t, In t (leaves v) -> exists y, f t = Ok y.
Proof.
  intros P E t Ht. unfold any_leaf in E. apply bind_ok in E as (m & E & _). pose proof (eq_trans (eq_sym (map_fn1 f v P)) E) as E'. destruct (vmapM_inv _ _ _ E' t Ht) as (y & Y).
  eauto.
Qed.
Theorem any_floats_only v : genuine v -> ~ all_floats v -> (forall x, exists e, any_value v x = Err e) /\ (exists e, any_nan v = Err e).
Proof.
  intros [P W] H. split; [intros x; destruct (any_value v x) as [r|e] eqn:E|destruct (any_nan v) as [r|e] eqn:E]; eauto; exfalso; apply H; apply Forall_forall; intros t Ht;
    destruct (any_leaf_inv _ _ _ P E t Ht) as (y & Y).
  - unfold tensor_has_value in Y. apply bind_ok in Y as (u & U & Y). apply bind_ok in Y as (z & Y & _). cbn in U. apply ok_inj in U. subst u. unfold tequal, tcmp in Y. unfold dtype_of. cbn [dat] in Y.
    destruct (dat t); [reflexivity|discriminate Y..].
  - unfold tensor_has_nan in Y. apply bind_ok in Y as (z & Y & _). unfold tis_nan in Y. unfold dtype_of. destruct (dat t); [reflexivity|discriminate Y..].
Qed.
End RollFacts.
