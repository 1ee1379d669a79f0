(** * VectorErrors: operators that make a decision on their input reject tensors of rank 1 and more. *)
From Coq Require Import String List ZArith Bool Lia.
From Verif Require Import Num Py PyFacts Tensor Streamable Spec SpecMeta StreamFacts TensorFacts StreamProofs
  WfFacts Meta Common Finance Library GenuineBase Genuine GenuineLib InitFacts InitLib MapFacts Shapes ShapeFacts ShapeOps ShapeProofs ShapeInit Vectors.
Import ListNotations.

Ltac inv_all := repeat match goal with
  | H : Forall2 vhas _ (_ :: _) |- _ => inversion H; clear H; subst
  | H : Forall2 vhas _ [] |- _ => inversion H; clear H; subst
  end.
Ltac leafy := repeat match goal with
  | H : vhas ?v _ |- _ => is_var v; let t := fresh "t" in let Ht := fresh "Ht" in
      destruct (vhas_leaf_inv v _ _ H) as (t & -> & Ht); clear H
  end.
Section VectorErrors.
Context {N : FOps}.
Notation ranked t := (sh t <> []).
Lemma bshape_length s1 s2 s : length s1 = length s2 -> bshape s1 s2 = Some s -> length s = length s1.
Proof.
  revert s2 s. induction s1 as [|a s1 IH]; intros [|b s2] s L E; try discriminate; cbn in *; [now injection E as <-|].
  destruct (bshape s1 s2) eqn:B; [|discriminate]. injection L as L. apply IH in B; [|exact L].
  destruct (_ =? _); [|destruct (_ =? _); [|destruct (_ =? _); [|discriminate]]]; injection E as <-; cbn; now f_equal.
Qed.
Lemma pad_length r s : length s <= r -> length (pad_shape r s) = r.
Proof. intros H. unfold pad_shape. rewrite app_length, repeat_length. lia. Qed.
Lemma bop_rank {A B C} (f : A -> B -> C) s1 s2 l1 l2 s l : bop f s1 s2 l1 l2 = Ok (s, l) -> s1 <> [] \/ s2 <> [] -> s <> [].
Proof.
  unfold bop. destruct (shape_eqb s1 s2) eqn:E.
  - intros H K. injection H as <- _. apply shape_eqb_eq in E. subst. tauto.
  - destruct (bshape _ _) eqn:BS; [|discriminate]. intros H K. injection H as <- _. intros ->.
    apply bshape_length in BS; rewrite !pad_length in * by lia; [|reflexivity]. cbn in BS.
    destruct K as [K|K]; apply K; apply length_zero_iff_nil; lia.
Qed.
Lemma tbin_rank ff fi t u r : tbin ff fi t u = Ok r -> ranked t \/ ranked u -> ranked r.
Proof.
  unfold tbin. destruct (dat t), (dat u); try discriminate; [|destruct fi; [|discriminate]]; intros H K; apply bind_ok in H as ([sx lx] & E & H);
    injection H as <-; exact (bop_rank _ _ _ _ _ _ _ E K).
Qed.
Lemma tcmp_rank ff fi t u r : tcmp ff fi t u = Ok r -> ranked t \/ ranked u -> ranked r.
Proof.
  unfold tcmp. destruct (dat t), (dat u); try discriminate; intros H K; apply bind_ok in H as ([sx lx] & E & H);
    injection H as <-; exact (bop_rank _ _ _ _ _ _ _ E K).
Qed.
Lemma tbool2_rank f t u r : tbool2 f t u = Ok r -> ranked t \/ ranked u -> ranked r.
Proof.
  unfold tbool2. destruct (dat t), (dat u); try discriminate; intros H K; apply bind_ok in H as ([sx lx] & E & H);
    injection H as <-; exact (bop_rank _ _ _ _ _ _ _ E K).
Qed.
Lemma tun_rank f t r : tun f t = Ok r -> ranked t -> ranked r.
Proof. unfold tun. destruct (dat t); try discriminate. intros H. now injection H as <-. Qed.
Lemma cond_rank p a b r : tf_cond p a b = Ok r -> sh p = [].
Proof. unfold tf_cond, as_pred. destruct (sh p); [reflexivity|]. intros H. discriminate H. Qed.
Lemma tcond_rank p a b r : tcond p a b = Ok r -> sh p = [].
Proof. unfold tcond. intros H. apply bind_ok in H as (v & E & _). exact (cond_rank _ _ _ _ E). Qed.
Lemma zb_rank p v b : zeros_buffer p v = Ok b -> sh b = Z.to_nat p :: sh v.
Proof. unfold zeros_buffer. destruct (p <? 0)%Z; [discriminate|]. intros H. injection H as <-. unfold zeros. destruct (dtype_of v); reflexivity. Qed.
Lemma index0_shape t n s i r : sh t = n :: s -> index0 t i = Ok r -> sh r = s.
Proof. unfold index0. intros ->. destruct (_ && _); [|discriminate]. intros H. now injection H as <-. Qed.
Lemma slice0_shape t n s a b r : sh t = n :: s -> slice0 t a b = Ok r -> exists k, sh r = k :: s.
Proof. unfold slice0. intros ->. intros H. injection H as <-. eexists. reflexivity. Qed.
Lemma roll_shape v t r : roll v t = Ok r -> exists k, sh r = k :: sh v.
Proof.
  unfold roll. intros H. apply bind_ok in H as (u & _ & H). unfold concat0, expand0 in H. cbn [sh] in H.
  destruct (sh u); [discriminate|]. destruct (shape_eqb _ _); [|discriminate]. apply bind_ok in H as (d & _ & H). injection H as <-. eexists. reflexivity.
Qed.
Lemma reduce0_shape f t n s r : sh t = n :: s -> treduce0 f t = Ok r -> sh r = s.
Proof. unfold treduce0. intros ->. destruct (dat t); try discriminate. intros H. now injection H as <-. Qed.

Lemma global_fails c t r : (forall u v w, c u v = Ok w -> ranked u -> ranked w) -> ranked t -> global_step c [Leaf t] <> Ok r.
Proof.
  intros HC R E. unfold global_step in E. tailed. binv E. tailed.
  repeat match goal with H : tf_cond _ _ _ = Ok _ |- _ => apply cond_rank in H end.
  match goal with H : c _ _ = Ok _ |- _ => apply HC in H; [|assumption] end.
  match goal with H : tlogical_or _ ?l = Ok ?p, K : sh ?p = [], L : ranked ?l |- _ => exact (tbool2_rank _ _ _ _ H (or_intror L) K) end.
Qed.
Lemma local_fails f g p t r : ranked t -> local_step f g p [Leaf t] <> Ok r.
Proof.
  intros R E. unfold local_step in E. tailed. binv E. tailed.
  match goal with H : zeros_buffer _ _ = Ok _ |- _ => apply zb_rank in H; rename H into Z end.
  match goal with H : shift _ _ = Ok _ |- _ => unfold shift in H; rewrite Z in H end.
  match type of R with ranked ?x => destruct (sh x); [now apply R|] end. destruct (Z.to_nat p); discriminate.
Qed.
Lemma return_fails f p t r : ranked t -> return_step f p [Leaf t] <> Ok r.
Proof.
  intros R E. unfold return_step in E. tailed. binv E. tailed.
  match goal with H : zeros_buffer _ _ = Ok _ |- _ => apply zb_rank in H; rename H into Z end.
  match goal with H : index0 _ _ = Ok _ |- _ => apply (index0_shape _ _ _ _ _ Z) in H; rename H into I end.
  match goal with H : tcond _ _ _ = Ok _ |- _ => apply tcond_rank in H; revert H end.
  match goal with H : tlogical_or _ _ = Ok _ |- _ => apply (tbool2_rank _ _ _ _ H) end. right.
  match goal with H : tequal _ _ = Ok ?c |- sh ?c <> [] => apply (tcmp_rank _ _ _ _ _ H) end. left. congruence.
Qed.
Lemma heikin_fails a b c d r : ranked a -> heikin_ashi_step [Leaf a; Leaf b; Leaf c; Leaf d] <> Ok r.
Proof.
  intros R E. unfold heikin_ashi_step in E. tailed. binv E. tailed.
  match goal with H : tequal _ _ = Ok _ |- _ => rename H into Q end.
  match goal with H : tequal _ _ = Ok ?c, H' : tcond ?c _ _ = Ok _ |- _ => apply tcond_rank in H'; revert H' end.
  apply (tcmp_rank _ _ _ _ _ Q). left. unfold zeros_like, zeros. match goal with |- context [dtype_of ?x] => destruct (dtype_of x) end; exact R.
Qed.
Lemma drawdown_fails t r : ranked t -> drawdown_step [Leaf t] <> Ok r.
Proof.
  intros R E. unfold drawdown_step in E. tailed. binv E. tailed.
  match goal with H : tmaximum _ _ = Ok _ |- _ => apply tbin_rank in H; [|now left] end.
  match goal with H : tsub _ _ = Ok _ |- _ => apply tbin_rank in H; [|now left] end.
  match goal with H : tabs ?d = Ok _, K : ranked ?d |- _ => apply tun_rank in H; [|exact K] end.
  match goal with H : tgreater ?d _ = Ok ?c, K : ranked ?d |- _ => apply tcmp_rank in H; [|now left] end.
  match goal with H : tcond ?c _ _ = Ok _, K : ranked ?c |- _ => apply tcond_rank in H; now apply K end.
Qed.
Lemma sharpe_ratio_fails t n s r : sh t = n :: s -> s <> [] -> compute_sharpe_ratio t <> Ok r.
Proof.
  intros S R E. unfold compute_sharpe_ratio, tmoments0 in E. binv E.
  repeat match goal with H : treduce0 _ t = Ok _ |- _ => apply (reduce0_shape _ _ _ _ _ S) in H end. subst.
  match goal with H : tsqrt _ = Ok _ |- _ => apply tun_rank in H; [|congruence] end.
  match goal with H : tequal _ _ = Ok _ |- _ => apply tcmp_rank in H; [|now left] end.
  match goal with H : tcond ?c _ _ = Ok _, K : ranked ?c |- _ => apply tcond_rank in H; now apply K end.
Qed.
Lemma skewness_fails t n s r : sh t = n :: s -> s <> [] -> compute_skewness t <> Ok r.
Proof.
  intros S R E. unfold compute_skewness, tmoments0 in E. binv E.
  repeat match goal with H : treduce0 _ t = Ok _ |- _ => apply (reduce0_shape _ _ _ _ _ S) in H end. subst.
  match goal with H : tsqrt _ = Ok _ |- _ => apply tun_rank in H; [|congruence] end.
  match goal with H : tequal _ _ = Ok _ |- _ => apply tcmp_rank in H; [|now left] end.
  match goal with H : tcond ?c _ _ = Ok _, K : ranked ?c |- _ => apply tcond_rank in H; now apply K end.
Qed.
Lemma cond_some p a b r : tcond p a b = Ok r -> (exists x, a = Ok x) \/ (exists x, b = Ok x).
Proof.
  destruct a as [x|e]; [eauto|]. destruct b as [x|e']; [eauto|]. unfold tcond. intros H. exfalso. cbn [leaf bind] in H.
  apply bind_ok in H as (v & H & _). unfold tf_cond in H. apply bind_ok in H as (c & _ & H).
  destruct e, e', c; discriminate.
Qed.
Lemma first_slice_shape t n s it r : sh t = n :: s -> first_slice t it = Ok r -> exists k, sh r = k :: s.
Proof.
  intros S H. unfold first_slice in H. binv H. unfold slice_to in *. destruct (sh v); [|discriminate]. destruct (dat v) as [|[|z [|? ?]]|]; try discriminate.
  eapply slice0_shape; eauto.
Qed.
Lemma sharpe_fails p t u r : ranked t \/ ranked u -> sharpe_step p [Leaf t; Leaf u] <> Ok r.
Proof.
  intros R E. unfold sharpe_step in E. tailed. binv E. tailed.
  match goal with H : tsub _ _ = Ok _ |- _ => apply tbin_rank in H; [|exact R] end.
  match goal with H : roll _ _ = Ok _ |- _ => apply roll_shape in H as (k & S) end.
  match goal with H : tcond _ _ _ = Ok _ |- _ => apply cond_some in H as [(y & K)|(y & K)] end.
  - apply bind_ok in K as (w & E & K). apply (first_slice_shape _ _ _ _ _ S) in E as (m & S'). revert K. eapply sharpe_ratio_fails; eauto.
  - revert K. eapply sharpe_ratio_fails; eauto.
Qed.
Lemma skewed_fails p t r : ranked t -> skewness_step p [Leaf t] <> Ok r.
Proof.
  intros R E. unfold skewness_step in E. tailed. binv E. tailed.
  match goal with H : roll _ _ = Ok _ |- _ => apply roll_shape in H as (k & S) end.
  match goal with H : tcond _ _ _ = Ok _ |- _ => apply cond_some in H as [(y & K)|(y & K)] end.
  - apply bind_ok in K as (w & E & K). apply (first_slice_shape _ _ _ _ _ S) in E as (m & S'). revert K. eapply skewness_fails; eauto.
  - revert K. eapply skewness_fails; eauto.
Qed.
Lemma rejects_intro op zx : leaves zx <> [] -> (forall x r, vhas x zx -> forward_step op x None <> Ok r) -> rejects op zx.
Proof.
  intros L H. split.
  - intros x G E. rewrite call_false_g by (auto; exact I). destruct (forward_step op x None) as [r|e] eqn:F; [|eauto].
    exfalso. apply (H x r); [split; auto|exact F].
  - intros n v Hn G E. assert (V : vhas v (wide n zx)) by now split.
    destruct (forward_step op (row 0 v) None) as [r|e] eqn:F; [exfalso; apply (H (row 0 v) r); [now apply (row_vhas n)|exact F]|].
    exists e. apply (first_error op v None n e); auto; [exact I|now apply (wide_series n v zx)].
Qed.
Lemma ranked_has t s d : has t s d -> s <> [] -> ranked t.
Proof. intros (_ & -> & _). auto. Qed.
Ltac fails lem := apply rejects_intro; [discriminate|]; intros x r H; destruct (vhas_leaf_inv _ _ _ H) as (t & -> & Ht);
  cbn [forward_step app]; apply lem; eapply ranked_has; eassumption.
Lemma log_return_rejects s d p : s <> [] -> rejects (LogarithmicReturn p) (Leaf (s, d)).
Proof. intros R. fails return_fails. Qed.
Theorem numbers_only s d p m : s <> [] ->
  rejects GlobalMinimum (Leaf (s, d)) /\ rejects GlobalMaximum (Leaf (s, d)) /\
  rejects (LocalMinimum p) (Leaf (s, d)) /\ rejects (LocalMaximum p) (Leaf (s, d)) /\
  rejects (Return p) (Leaf (s, d)) /\ rejects (LogarithmicReturn p) (Leaf (s, d)) /\ rejects (Volatility m p) (Leaf (s, d)) /\
  rejects Drawdown (Leaf (s, d)) /\ rejects (Skewness p) (Leaf (s, d)) /\
  rejects (SharpeRatio p) (Tup [Leaf (s, d); Leaf (s, d)]) /\
  rejects HeikinAshi (Tup [Leaf (s, d); Leaf (s, d); Leaf (s, d); Leaf (s, d)]).
Proof.
  intros R. repeat match goal with |- _ /\ _ => split end.
  1-2: apply rejects_intro; [discriminate|]; intros x r H; destruct (vhas_leaf_inv _ _ _ H) as (t & -> & Ht);
    cbn [forward_step app]; apply global_fails; [intros u v w E K; eapply tcmp_rank; eauto|eapply ranked_has; eassumption].
  1-2: fails local_fails.
  - fails return_fails.
  - now apply log_return_rejects.
  - apply rejects_intro; [discriminate|]. intros x r H E. cbn [forward_step Volatility Compose rev app] in E. unfold compose_step in E.
    cbn [repeat length combine bind compose_loop] in E. apply bind_ok in E as ([[o nx] ini] & E & _). apply bind_ok in E as ([[o' nx'] ini'] & E & _).
    destruct H as [G S]. destruct (log_return_rejects s d p R) as [K _]. destruct (K x G S) as (e & K'). discriminate (eq_trans (eq_sym E) K').
  - fails drawdown_fails.
  - fails skewed_fails.
  - apply rejects_intro; [discriminate|]. intros x r H. destruct (vhas_tup_inv _ _ H) as (vs & -> & K). inv_all. leafy.
    cbn [forward_step app]. apply sharpe_fails. left. eapply ranked_has; eassumption.
  - apply rejects_intro; [discriminate|]. intros x r H. destruct (vhas_tup_inv _ _ H) as (vs & -> & K). inv_all. leafy.
    cbn [forward_step app]. apply heikin_fails. eapply ranked_has; eassumption.
Qed.
End VectorErrors.
