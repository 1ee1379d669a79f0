(** * ShapeFacts: tensor operations succeed on tensors of the right shapes and dtypes. *)
From Coq Require Import String List ZArith Bool Lia.
From Verif Require Import Num Py PyFacts Tensor Streamable Spec SpecMeta StreamFacts TensorFacts StreamProofs
  WfFacts EvalFacts ImplCorr Meta Common Finance Library GenuineBase Shapes.
Import ListNotations.

Section ShapeFacts.
Context {N : FOps}.

(** [r] succeeds with a result meeting [Q]. *)
Definition wp {A} (r : res A) (Q : A -> Prop) : Prop := exists a, r = Ok a /\ Q a.
Lemma wp_ok {A} (a : A) (Q : A -> Prop) : Q a -> wp (Ok a) Q.
Proof. intros H. exists a. auto. Qed.
Lemma wp_bind {A B} (e : res A) (k : A -> res B) Q : wp e (fun a => wp (k a) Q) -> wp (bind e k) Q.
Proof. intros (a & -> & H). exact H. Qed.
Lemma wp_impl {A} (r : res A) (P Q : A -> Prop) : wp r P -> (forall a, P a -> Q a) -> wp r Q.
Proof. intros (a & E & H) K. exists a. auto. Qed.

(** A tensor of the shape [s] and dtype [d]; a value with [z]. *)
Definition has (t : tensor) (s : list nat) (d : dtype) : Prop := wf t /\ sh t = s /\ dtype_of t = d.
Definition vhas (v : val) (z : ztype) : Prop := genuine v /\ sig v = z.
Lemma vhas_leaf t s d : has t s d <-> vhas (Leaf t) (Leaf (s, d)).
Proof.
  unfold vhas. rewrite genuine_leaf. split.
  - intros (W & <- & <-). auto.
  - intros [W E]. injection E as <- <-. split; auto.
Qed.
Lemma vhas_leaf_inv v s d : vhas v (Leaf (s, d)) -> exists t, v = Leaf t /\ has t s d.
Proof.
  intros H. destruct v; try (destruct H as [_ H]; discriminate). eexists. split; [reflexivity|]. now apply vhas_leaf.
Qed.
Lemma vhas_tup vs zs : Forall2 vhas vs zs -> vhas (Tup vs) (Tup zs).
Proof.
  intros H. split.
  - apply genuine_tup. induction H as [|v z vs zs [G _] _ IH]; auto.
  - change (Tup (map sig vs) = Tup zs). f_equal. induction H as [|v z vs zs [_ E] _ IH]; [reflexivity|]. change (sig v :: map sig vs = z :: zs). now rewrite E, IH.
Qed.
Lemma vhas_tup_inv v zs : vhas v (Tup zs) -> exists vs, v = Tup vs /\ Forall2 vhas vs zs.
Proof.
  intros [G E]. destruct v as [|vs|?|?|?]; try discriminate. exists vs. split; [reflexivity|].
  apply genuine_tup in G. change (Tup (map sig vs) = Tup zs) in E. injection E as <-.
  induction G; cbn; constructor; auto. split; auto.
Qed.
Lemma vhas_lst_inv v zs : vhas v (Lst zs) -> exists vs, v = Lst vs /\ Forall2 vhas vs zs.
Proof.
  intros [G E]. destruct v as [|?|vs|?|?]; try discriminate. exists vs. split; [reflexivity|].
  apply genuine_lst in G. change (Lst (map sig vs) = Lst zs) in E. injection E as <-.
  induction G; cbn; constructor; auto. split; auto.
Qed.
Lemma vhas_nil : vhas (Tup []) (Tup []).
Proof. apply vhas_tup. constructor. Qed.

(** ** Literals *)
Lemma has_fsc x : has (fsc x) [] F32. Proof. repeat split. Qed.
Lemma has_isc x : has (isc x) [] I32. Proof. repeat split. Qed.
Lemma has_bsc x : has (bsc x) [] BOOL. Proof. repeat split. Qed.
Lemma has_zeros s d : has (zeros s d) s d.
Proof. split; [apply wf_zeros|]. destruct d; split; reflexivity. Qed.
Lemma has_ones s d : has (ones s d) s d.
Proof. split; [apply wf_ones|]. destruct d; split; reflexivity. Qed.
Lemma has_zeros_like t s d : has t s d -> has (zeros_like t) s d.
Proof. intros (_ & <- & <-). apply has_zeros. Qed.
Lemma has_int z : has z [] I32 -> exists k, z = isc k.
Proof.
  destruct z as [s d]. intros (W & E & D). cbn in E. subst s. unfold dtype_of in D. unfold wf in W. cbn in *.
  destruct d as [l|l|l]; try discriminate. destruct l as [|k [|? ?]]; try discriminate. now exists k.
Qed.
Lemma has_bool z : has z [] BOOL -> exists k, z = bsc k.
Proof.
  destruct z as [s d]. intros (W & E & D). cbn in E. subst s. unfold dtype_of in D. unfold wf in W. cbn in *.
  destruct d as [l|l|l]; try discriminate. destruct l as [|k [|? ?]]; try discriminate. now exists k.
Qed.
Lemma has_num z : has z [] F32 -> exists k, z = fsc k.
Proof.
  destruct z as [s d]. intros (W & E & D). cbn in E. subst s. unfold dtype_of in D. unfold wf in W. cbn in *.
  destruct d as [l|l|l]; try discriminate. destruct l as [|k [|? ?]]; try discriminate. now exists k.
Qed.
Lemma wp_pyint t s d z (Q : tensor -> Prop) : has t s d -> d <> BOOL -> (forall r, has r [] d -> Q r) -> wp (pyint_like t z) Q.
Proof.
  intros (_ & _ & D) H K. unfold pyint_like. unfold dtype_of in D.
  destruct (dat t); subst d; [| |congruence]; apply wp_ok, K; [apply has_fsc|apply has_isc].
Qed.
Lemma wp_pyfloat t s z (Q : tensor -> Prop) : has t s F32 -> (forall r, has r [] F32 -> Q r) -> wp (pyfloat_like t z) Q.
Proof.
  intros (_ & _ & D) K. unfold pyfloat_like. unfold dtype_of in D.
  destruct (dat t); try discriminate. apply wp_ok, K, has_fsc.
Qed.
Lemma wp_pynum t s z (Q : tensor -> Prop) : has t s F32 -> (forall r, has r [] F32 -> Q r) -> wp (pynum_like t z) Q.
Proof.
  intros H K. destruct z; cbn [pynum_like]; [eapply wp_pyint; eauto; discriminate|eapply wp_pyfloat; eauto].
Qed.
Lemma wp_fill s v d (Q : tensor -> Prop) : has v [] d -> (forall r, has r s d -> Q r) -> wp (fill s v) Q.
Proof.
  intros H K. assert (E : exists u, fill s v = Ok u).
  { destruct d; [destruct (has_num _ H) as (k & ->)|destruct (has_int _ H) as (k & ->)|destruct (has_bool _ H) as (k & ->)]; eexists; reflexivity. }
  destruct E as (u & E). exists u. split; [exact E|]. apply K. split; [exact (wf_fill _ _ _ E)|].
  destruct H as (_ & E1 & E2). unfold fill in E. rewrite E1 in E. unfold dtype_of in *.
  destruct (dat v) as [[|? [|? ?]]|[|? [|? ?]]|[|? [|? ?]]]; try discriminate; apply ok_inj in E; subst u; cbn; auto.
Qed.
Lemma wp_zeros_buffer p v s d (Q : tensor -> Prop) : has v s d -> (1 <= p)%Z ->
  (forall r, has r (Z.to_nat p :: s) d -> Q r) -> wp (zeros_buffer p v) Q.
Proof.
  intros (W & <- & <-) Hp K. unfold zeros_buffer. destruct (Z.ltb_spec p 0); [lia|]. apply wp_ok, K, has_zeros.
Qed.

(** ** Elementwise operations *)
(** Same shapes, or one of the two is a scalar or a row of the other. *)
Inductive bc : list nat -> list nat -> list nat -> Prop :=
| bc_same s : bc s s s
| bc_r s : bc s [] s
| bc_l s : bc [] s s
| bc_row n s : bc (n :: s) s (n :: s).
Lemma bop_bc {A B C} (f : A -> B -> C) s1 s2 s l1 l2 : bc s1 s2 s -> length l1 = prod s1 -> length l2 = prod s2 ->
  exists l, bop f s1 s2 l1 l2 = Ok (s, l) /\ length l = prod s.
Proof.
  intros H E1 E2. destruct H.
  - exists (map2 f l1 l2). split; [apply bop_same|]. rewrite map2_length; congruence.
  - destruct l2 as [|x [|? ?]]; try discriminate. eexists. split; [now apply bop_scalar_r|]. now rewrite map_length.
  - destruct l1 as [|x [|? ?]]; try discriminate. eexists. split; [now apply bop_scalar_l|]. now rewrite map_length.
  - destruct (bop f (n :: s) s l1 l2) as [[s' l]|] eqn:E; [|now rewrite bop_row in E].
    pose proof (bop_length _ _ _ _ _ _ _ E1 E2 E) as L. rewrite bop_row in E by assumption. apply ok_inj in E. injection E as <- _. eauto.
Qed.
Lemma wp_tbin ff fi a b s1 s2 s d (Q : tensor -> Prop) :
  has a s1 d -> has b s2 d -> bc s1 s2 s -> d = F32 \/ d = I32 /\ fi <> None ->
  (forall r, has r s d -> Q r) -> wp (tbin ff fi a b) Q.
Proof.
  intros (Wa & Sa & Da) (Wb & Sb & Db) B D K. unfold tbin, wf, dtype_of in *.
  destruct (dat a) as [la|la|la]; destruct (dat b) as [lb|lb|lb]; cbn [dlen] in *; try congruence.
  - rewrite Sa, Sb in *. destruct (bop_bc ff _ _ _ la lb B Wa Wb) as (l & -> & L). apply wp_ok, K.
    split; [exact L|]. split; [reflexivity|exact Da].
  - destruct D as [D|[_ D]]; [congruence|]. destruct fi as [g|]; [|congruence].
    rewrite Sa, Sb in *. destruct (bop_bc g _ _ _ la lb B Wa Wb) as (l & -> & L). apply wp_ok, K.
    split; [exact L|]. split; [reflexivity|exact Da].
  - destruct D as [D|[D _]]; congruence.
Qed.
Lemma wp_tcmp ff fi a b s1 s2 s d (Q : tensor -> Prop) :
  has a s1 d -> has b s2 d -> bc s1 s2 s -> d <> BOOL ->
  (forall r, has r s BOOL -> Q r) -> wp (tcmp ff fi a b) Q.
Proof.
  intros (Wa & Sa & Da) (Wb & Sb & Db) B D K. unfold tcmp, wf, dtype_of in *.
  destruct (dat a) as [la|la|la]; destruct (dat b) as [lb|lb|lb]; cbn [dlen] in *; try congruence.
  - rewrite Sa, Sb in *. destruct (bop_bc ff _ _ _ la lb B Wa Wb) as (l & -> & L). apply wp_ok, K. split; [exact L|]. split; reflexivity.
  - rewrite Sa, Sb in *. destruct (bop_bc fi _ _ _ la lb B Wa Wb) as (l & -> & L). apply wp_ok, K. split; [exact L|]. split; reflexivity.
Qed.
Lemma wp_tbool2 f a b s1 s2 s (Q : tensor -> Prop) :
  has a s1 BOOL -> has b s2 BOOL -> bc s1 s2 s -> (forall r, has r s BOOL -> Q r) -> wp (tbool2 f a b) Q.
Proof.
  intros (Wa & Sa & Da) (Wb & Sb & Db) B K. unfold tbool2, wf, dtype_of in *.
  destruct (dat a) as [la|la|la]; destruct (dat b) as [lb|lb|lb]; cbn [dlen] in *; try congruence.
  rewrite Sa, Sb in *. destruct (bop_bc f _ _ _ la lb B Wa Wb) as (l & -> & L). apply wp_ok, K. split; [exact L|]. split; reflexivity.
Qed.
Lemma wp_tun f a s (Q : tensor -> Prop) : has a s F32 -> (forall r, has r s F32 -> Q r) -> wp (tun f a) Q.
Proof.
  intros (Wa & Sa & Da) K. unfold tun, wf, dtype_of in *. destruct (dat a); try discriminate.
  apply wp_ok, K. split; [|split; [exact Sa|reflexivity]]. unfold wf; cbn in *. now rewrite map_length.
Qed.
Lemma wp_tnot a s (Q : tensor -> Prop) : has a s BOOL -> (forall r, has r s BOOL -> Q r) -> wp (tlogical_not a) Q.
Proof.
  intros (Wa & Sa & Da) K. unfold tlogical_not, wf, dtype_of in *. destruct (dat a); try discriminate.
  apply wp_ok, K. split; [|split; [exact Sa|reflexivity]]. unfold wf; cbn in *. now rewrite map_length.
Qed.
Lemma wp_tcast a s d (Q : tensor -> Prop) : has a s d -> (forall r, has r s I32 -> Q r) -> wp (tcast_i32 a) Q.
Proof.
  intros (Wa & Sa & Da) K. unfold tcast_i32, wf, dtype_of in *.
  destruct (dat a) eqn:E; apply wp_ok, K; (split; [unfold wf; cbn [dat sh dlen] in *; rewrite ?map_length, ?E; auto|split; [exact Sa|unfold dtype_of; cbn; rewrite ?E; reflexivity]]).
Qed.
Lemma wp_twhere c x y s d (Q : tensor -> Prop) : has c s BOOL -> has x s d -> has y s d -> (forall r, has r s d -> Q r) -> wp (twhere c x y) Q.
Proof.
  intros (Wc & Sc & Dc) (Wx & Sx & Dx) (Wy & Sy & Dy) K.
  assert (E : exists r, twhere c x y = Ok r /\ sh r = s /\ dtype_of r = d).
  { unfold twhere. rewrite Sc, Sx, Sy, EvalFacts.shape_eqb_refl. cbn [andb]. unfold dtype_of in *.
    destruct (dat c); try discriminate. destruct (dat x), (dat y); try congruence; eexists; (split; [reflexivity|]); cbn; split; auto. }
  destruct E as (r & E & S1 & D1). exists r. split; [exact E|]. apply K. split; [|auto]. exact (wf_twhere _ _ _ _ Wc Wx Wy E).
Qed.

(** ** Slices and reductions *)
Lemma wp_index0 t n s d i (Q : tensor -> Prop) : has t (n :: s) d -> (- Z.of_nat n <= i < Z.of_nat n)%Z ->
  (forall r, has r s d -> Q r) -> wp (index0 t i) Q.
Proof.
  intros (W & S1 & D) Hi K. assert (E : exists r, index0 t i = Ok r /\ sh r = s /\ dtype_of r = d).
  { unfold index0. rewrite S1. destruct (Z.ltb_spec i 0).
    - destruct (Z.leb_spec 0 (i + Z.of_nat n)); [|lia]. destruct (Z.ltb_spec (i + Z.of_nat n) (Z.of_nat n)); [|lia].
      eexists. split; [reflexivity|]. split; [reflexivity|]. unfold dtype_of in *. cbn. destruct (dat t); exact D.
    - destruct (Z.leb_spec 0 i); [|lia]. destruct (Z.ltb_spec i (Z.of_nat n)); [|lia].
      eexists. split; [reflexivity|]. split; [reflexivity|]. unfold dtype_of in *. cbn. destruct (dat t); exact D. }
  destruct E as (r & E & S2 & D2). exists r. split; [exact E|]. apply K. split; [exact (wf_index0 _ _ _ W E)|auto].
Qed.
Lemma slice0_has t n s d a b r : has t (n :: s) d -> slice0 t a b = Ok r -> exists k, has r (k :: s) d.
Proof.
  intros (W & S1 & D) E. pose proof (wf_slice0 _ _ _ _ W E) as Wr. unfold slice0 in E. rewrite S1 in E.
  apply ok_inj in E. subst r. eexists. split; [exact Wr|]. split; [reflexivity|]. unfold dtype_of in *. cbn. destruct (dat t); exact D.
Qed.
Lemma wp_slice0 t n s d a b (Q : tensor -> Prop) : has t (n :: s) d -> (forall k r, has r (k :: s) d -> Q r) -> wp (slice0 t a b) Q.
Proof.
  intros H K. assert (E : exists r, slice0 t a b = Ok r).
  { destruct H as (_ & S1 & _). unfold slice0. rewrite S1. eexists. reflexivity. }
  destruct E as (r & E). exists r. split; [exact E|]. destruct (slice0_has _ _ _ _ _ _ _ H E) as (k & Hk). exact (K k r Hk).
Qed.
Lemma wp_slice_exact t n s d a b m (Q : tensor -> Prop) : has t (n :: s) d -> (0 <= a)%Z -> (0 <= b <= Z.of_nat n)%Z \/ b = (-1)%Z ->
  m = (if Z.ltb b 0 then n - 1 else Z.to_nat b) - Nat.min (Z.to_nat a) n ->
  (forall r, has r (m :: s) d -> Q r) -> wp (slice0 t a b) Q.
Proof.
  intros H Ha Hb Hm K. assert (E : exists r, slice0 t a b = Ok r /\ sh r = m :: s).
  { destruct H as (_ & S1 & _). unfold slice0. rewrite S1. eexists. split; [reflexivity|]. cbn [sh]. apply (f_equal (fun k => k :: s)).
    subst m. destruct (Z.ltb_spec a 0), (Z.ltb_spec b 0); lia. }
  destruct E as (r & E & S2). exists r. split; [exact E|]. destruct (slice0_has _ _ _ _ _ _ _ H E) as (k & W & S3 & D).
  apply K. split; [exact W|auto].
Qed.
Lemma wp_roll v t n s d (Q : tensor -> Prop) : has v s d -> has t (n :: s) d -> n >= 1 -> (forall r, has r (n :: s) d -> Q r) -> wp (roll v t) Q.
Proof.
  intros (Wv & Sv & Dv) (W & S1 & D) Hn K.
  assert (E : exists r, roll v t = Ok r /\ sh r = n :: s /\ dtype_of r = d).
  { unfold roll, droplast0, slice0, concat0, expand0. rewrite S1. cbn [bind sh dat Z.ltb]. rewrite Sv, EvalFacts.shape_eqb_refl.
    unfold dtype_of in *. destruct (dat t), (dat v); cbn [dslice dapp bind]; try congruence;
      eexists; (split; [reflexivity|]); (split; [|exact Dv]); cbn [sh]; apply (f_equal (fun k => k :: s)); change (Z.ltb (-1) 0) with true; cbn [Z.ltb Z.compare]; cbv iota; lia. }
  destruct E as (r & E & S2 & D2). exists r. split; [exact E|]. apply K. split; [exact (wf_roll _ _ _ Wv W E)|auto].
Qed.
Lemma wp_shift v t n d (Q : tensor -> Prop) : has v [] d -> has t [n] d -> n >= 1 -> (forall r, has r [n] d -> Q r) -> wp (shift v t) Q.
Proof.
  intros (Wv & Sv & Dv) (W & S1 & D) Hn K. destruct n as [|n]; [lia|].
  assert (E : exists r, shift v t = Ok r /\ sh r = [S n] /\ dtype_of r = d).
  { unfold shift, concat0, expand0. rewrite S1. cbn [bind sh dat]. rewrite Sv. cbn [shape_eqb].
    unfold dtype_of in *. destruct (dat t), (dat v); cbn [dslice dapp bind]; try congruence;
      eexists; (split; [reflexivity|]); (split; [reflexivity|exact Dv]). }
  destruct E as (r & E & S2 & D2). exists r. split; [exact E|]. apply K. split; [exact (wf_shift _ _ _ Wv W E)|auto].
Qed.
Lemma wp_slice_to t n s d k (Q : tensor -> Prop) : has t (n :: s) d -> has k [] I32 -> (forall m r, has r (m :: s) d -> Q r) -> wp (slice_to t k) Q.
Proof. intros H Hk K. destruct (has_int _ Hk) as (z & ->). eapply wp_slice0; eauto. Qed.
Lemma wp_concat0 t u n m s d (Q : tensor -> Prop) : has t (n :: s) d -> has u (m :: s) d -> (forall r, has r ((n + m) :: s) d -> Q r) -> wp (concat0 t u) Q.
Proof.
  intros (W & S1 & D) (Wu & Su & Du) K.
  assert (E : exists r, concat0 t u = Ok r /\ sh r = (n + m) :: s /\ dtype_of r = d).
  { unfold concat0. rewrite S1, Su, EvalFacts.shape_eqb_refl. unfold dtype_of in *.
    destruct (dat t), (dat u); cbn [dapp bind]; try congruence; eexists; (split; [reflexivity|]); (split; [reflexivity|exact D]). }
  destruct E as (r & E & S2 & D2). exists r. split; [exact E|]. apply K. split; [exact (wf_concat0 _ _ _ W Wu E)|auto].
Qed.
Lemma has_expand0 t s d : has t s d -> has (expand0 t) (1 :: s) d.
Proof. intros (W & <- & <-). split; [now apply wf_expand0|]. split; reflexivity. Qed.
Lemma wp_reduce0 f t n s (Q : tensor -> Prop) : has t (n :: s) F32 -> (forall r, has r s F32 -> Q r) -> wp (treduce0 f t) Q.
Proof.
  intros (W & S1 & D) K. assert (E : exists r, treduce0 f t = Ok r /\ sh r = s /\ dtype_of r = F32).
  { unfold treduce0. rewrite S1. unfold dtype_of in *. destruct (dat t); try discriminate. eexists. split; [reflexivity|]. split; reflexivity. }
  destruct E as (r & E & S2 & D2). exists r. split; [exact E|]. apply K. split; [exact (wf_treduce0 _ _ _ E)|auto].
Qed.
Lemma wp_moments t n s (Q : tensor * tensor -> Prop) : has t (n :: s) F32 ->
  (forall a b, has a s F32 -> has b s F32 -> Q (a, b)) -> wp (tmoments0 t) Q.
Proof.
  intros H K. unfold tmoments0. apply wp_bind. eapply wp_reduce0; [exact H|]. intros a Ha. apply wp_bind.
  eapply wp_reduce0; [exact H|]. intros b Hb. apply wp_ok. auto.
Qed.
Lemma wp_reduce_num f g t s (Q : tensor -> Prop) : has t s F32 -> (forall r, has r [] F32 -> Q r) -> wp (treduce_num f g t) Q.
Proof.
  intros (W & S1 & D) K. unfold treduce_num, dtype_of in *. destruct (dat t); try discriminate. apply wp_ok, K, has_fsc.
Qed.
Lemma wp_reduce_all f t s (Q : tensor -> Prop) : has t s F32 -> (forall r, has r [] F32 -> Q r) -> wp (treduce_all f t) Q.
Proof.
  intros (W & S1 & D) K. unfold treduce_all, dtype_of in *. destruct (dat t); try discriminate. apply wp_ok, K, has_fsc.
Qed.
Lemma wp_reduce_any t s (Q : tensor -> Prop) : has t s BOOL -> (forall r, has r [] BOOL -> Q r) -> wp (treduce_any t) Q.
Proof.
  intros (W & S1 & D) K. unfold treduce_any, dtype_of in *. destruct (dat t); try discriminate. apply wp_ok, K, has_bsc.
Qed.
Lemma wp_tstack ts s d (Q : tensor -> Prop) : ts <> [] -> Forall (fun t => has t s d) ts ->
  (forall r, has r (length ts :: s) d -> Q r) -> wp (tstack ts) Q.
Proof.
  intros Hn H K. destruct ts as [|t ts]; [congruence|].
  assert (Hd : forall l e, Forall (fun t => has t s d) l -> (match e with DF _ => F32 | DI _ => I32 | DB _ => BOOL end) = d ->
    exists e', dconcat e l = Ok e' /\ (match e' with DF _ => F32 | DI _ => I32 | DB _ => BOOL end) = d).
  { induction l as [|u l IH]; intros e Hl He; cbn [dconcat]; [eauto|]. inversion Hl as [|? ? (_ & _ & Du) Hl']; subst.
    unfold dtype_of in Du. destruct e, (dat u); try congruence; cbn [dapp bind]; apply IH; auto. }
  inversion H as [|? ? (W & S1 & D1) Hts]; subst.
  destruct (Hd ts (dat t) Hts eq_refl) as (e & Ee & De).
  assert (E : tstack (t :: ts) = Ok (mkT (length (t :: ts) :: sh t) e)).
  { cbn [tstack]. replace (forallb _ ts) with true; [now rewrite Ee|]. symmetry. apply forallb_forall. intros u Hu.
    rewrite Forall_forall in Hts. destruct (Hts u Hu) as (_ & -> & _). apply EvalFacts.shape_eqb_refl. }
  exists (mkT (length (t :: ts) :: sh t) e). split; [exact E|]. apply K. split; [|split; [reflexivity|exact De]].
  eapply wf_tstack; [|exact E]. eapply Forall_impl; [|exact H]. now intros ? [].
Qed.
Lemma wp_size0 t n s d (Q : nat -> Prop) : has t (n :: s) d -> Q n -> wp (size0 t) Q.
Proof. intros (_ & S1 & _) K. unfold size0. rewrite S1. now apply wp_ok. Qed.

(** ** Control flow *)
Lemma plural_solid v z : vhas v z -> plural z -> nonempty_result v = true /\ unpack_singleton v = v.
Proof.
  intros [_ <-] [H1 H2]. destruct v as [?|[|? [|? ?]]|[|? [|? ?]]|?|?]; cbn in *; try contradiction; auto; exfalso; auto.
Qed.
Lemma wp_cond p a b z (Q : val -> Prop) : has p [] BOOL -> plural z -> wp a (fun v => vhas v z) -> wp b (fun v => vhas v z) ->
  (forall v, vhas v z -> Q v) -> wp (tf_cond p a b) Q.
Proof.
  intros Hp Hz (t & -> & Ht) (f & -> & Hf) K. destruct (has_bool _ Hp) as (c & ->).
  destruct (plural_solid _ _ Ht Hz) as [Nt Ut]. destruct (plural_solid _ _ Hf Hz) as [Nf Uf].
  unfold tf_cond. cbn [as_pred bsc sh dat bind]. rewrite Nt, Nf, Ut, Uf. cbn [andb negb].
  destruct Ht as [Gt St], Hf as [Gf Sf]. rewrite (to_type_ok t), (to_type_ok f) by (apply Gt || apply Gf). cbn [bind].
  assert (E : same_types t f = true) by (apply same_types_sig; [apply Gt|congruence]).
  unfold same_types in E. rewrite E. apply wp_ok. destruct c; [rewrite Ut|rewrite Uf]; apply K; split; auto.
Qed.
Lemma plural_leaf x : plural (Leaf x). Proof. split; cbn; auto. Qed.
Lemma plural_pair a b l : plural (Tup (a :: b :: l)). Proof. split; cbn; auto. Qed.
Lemma wp_tcond p a b s d (Q : tensor -> Prop) : has p [] BOOL -> wp a (fun t => has t s d) -> wp b (fun t => has t s d) ->
  (forall t, has t s d -> Q t) -> wp (tcond p a b) Q.
Proof.
  intros Hp Ha Hb K. unfold tcond. apply wp_bind. eapply wp_cond; [exact Hp|apply (plural_leaf (s, d))| | |].
  - unfold leaf. apply wp_bind. eapply wp_impl; [exact Ha|]. intros t Ht. apply wp_ok. now apply vhas_leaf.
  - unfold leaf. apply wp_bind. eapply wp_impl; [exact Hb|]. intros t Ht. apply wp_ok. now apply vhas_leaf.
  - intros v Hv. destruct (vhas_leaf_inv _ _ _ Hv) as (t & -> & Ht). apply wp_ok, K, Ht.
Qed.
Lemma wp_case_nested cases d z : plural z -> Forall (fun c => has (fst c) [] BOOL /\ wp (snd c) (fun v => vhas v z)) cases ->
  wp d (fun v => vhas v z) -> wp (tf_case_nested cases d) (fun v => vhas v z).
Proof.
  intros Hz H Hd. induction H as [|[p v] cases [Hp Hv] _ IH]; cbn [tf_case_nested]; [exact Hd|].
  eapply wp_cond; [exact Hp|exact Hz|exact Hv|exact IH|auto].
Qed.
Lemma wp_case cases d z (Q : val -> Prop) : plural z -> Forall (fun c => has (fst c) [] BOOL /\ wp (snd c) (fun v => vhas v z)) cases ->
  wp d (fun v => vhas v z) -> (forall v, vhas v z -> Q v) -> wp (tf_case cases d false) Q.
Proof.
  intros Hz H Hd K. unfold tf_case. apply wp_bind. assert (E : wp (mapM (fun pv => as_pred (fst pv)) cases) (fun _ => True)).
  { clear Hd K. induction H as [|[p v] cases [Hp Hv] _ IH]; cbn [mapM fst]; [now apply wp_ok|].
    destruct (has_bool p Hp) as (b & ->). cbn [as_pred bsc sh dat bind]. destruct IH as (l & -> & _). now apply wp_ok. }
  eapply wp_impl; [exact E|]. intros bs _. cbn [andb]. eapply wp_impl; [exact (wp_case_nested cases d z Hz H Hd)|exact K].
Qed.
Lemma wp_case_exclusive b1 b2 x y d z (Q : val -> Prop) : b1 && b2 = false -> plural z ->
  wp x (fun v => vhas v z) -> wp y (fun v => vhas v z) -> wp d (fun v => vhas v z) ->
  (forall v, vhas v z -> Q v) -> wp (tf_case [(bsc b1, x); (bsc b2, y)] d true) Q.
Proof.
  intros Hb Hz Hx Hy Hd K. unfold tf_case. cbn [mapM fst as_pred bsc sh dat bind andb filter].
  assert (E : Nat.ltb 1 (length (if b1 then b1 :: (if b2 then [b2] else []) else if b2 then [b2] else [])) = false)
    by (destruct b1, b2; try discriminate; reflexivity).
  rewrite E. eapply wp_impl; [|exact K]. apply wp_case_nested; auto.
  repeat constructor; auto.
Qed.
Lemma wp_as_t v s d (Q : tensor -> Prop) : vhas v (Leaf (s, d)) -> (forall t, has t s d -> Q t) -> wp (as_t v) Q.
Proof. intros H K. destruct (vhas_leaf_inv _ _ _ H) as (t & -> & Ht). apply wp_ok, K, Ht. Qed.
Lemma wp_item v zs k z (Q : val -> Prop) : vhas v (Tup zs) -> nth_error zs k = Some z -> (forall x, vhas x z -> Q x) -> wp (item v k) Q.
Proof.
  intros H E K. destruct (vhas_tup_inv _ _ H) as (vs & -> & Hv). cbn [item].
  revert k E. induction Hv as [|x y vs zs Hx _ IH]; intros [|k] E; try discriminate; cbn [nth_error] in *.
  - injection E as ->. apply wp_ok, K, Hx.
  - apply IH, E. apply vhas_tup_inv in H as (? & E' & H). injection E' as <-. inversion H; subst. now apply vhas_tup.
Qed.

(** ** Operators *)
Definition safe (op : operator) (zx zo zs : ztype) : Prop :=
  forall x st, vhas x zx -> state_shaped st zs ->
    wp (forward_step op x st) (fun r => vhas (fst (fst r)) zo /\ vhas (snd (fst r)) zs /\ vhas (snd r) zs).
Lemma wp_call op zx zo zs x st (Q : out3 -> Prop) : safe op zx zo zs -> vhas x zx -> state_shaped st zs ->
  (forall o s i, vhas o zo -> vhas s zs -> vhas i zs -> Q (o, s, i)) -> wp (call op x st false) Q.
Proof.
  intros H Hx Hs K. rewrite call_false_g; [|apply Hx|destruct st; cbn; [apply Hs|auto]].
  eapply wp_impl; [apply H; eauto|]. intros [[o s] i] (H1 & H2 & H3). apply K; auto.
Qed.
Lemma wp_arity lo hi args (Q : unit -> Prop) : Nat.leb lo (length args) && Nat.leb (length args) hi = true -> Q tt -> wp (arity lo hi args) Q.
Proof. intros H K. unfold arity. rewrite H. now apply wp_ok. Qed.
(** Operators with positional arguments. *)
Definition step_safe (step : list val -> res out3) (zin : list ztype) (zo zs : ztype) : Prop :=
  forall ins sts, Forall2 vhas ins zin -> sts = [] \/ Forall2 vhas sts (parts zs) ->
    wp (step (ins ++ sts)) (fun r => vhas (fst (fst r)) zo /\ vhas (snd (fst r)) zs /\ vhas (snd r) zs).
Lemma vhas_parts v z : vhas v z -> Forall2 vhas (positional v) (parts z).
Proof.
  intros H. destruct z; cbn [parts].
  1: destruct a; destruct (vhas_leaf_inv _ _ _ H) as (t & -> & _); cbn; auto.
  - destruct (vhas_tup_inv _ _ H) as (vs & -> & Hv). exact Hv.
  - destruct (vhas_lst_inv _ _ H) as (vs & -> & Hv). exact Hv.
  - pose proof H as [_ E]. destruct v; try discriminate. cbn. auto.
  - pose proof H as [G E]. destruct v; try discriminate. now apply genuine_no_gen in G.
Qed.
Lemma plain_safe step zin zo zs zx : step_safe step zin zo zs -> parts zx = zin -> safe (Plain step) zx zo zs.
Proof.
  intros H <- x st Hx Hs. destruct st as [s|].
  - change (wp (step (positional x ++ positional s)) (fun r => vhas (fst (fst r)) zo /\ vhas (snd (fst r)) zs /\ vhas (snd r) zs)).
    apply H; [now apply vhas_parts|]. right. now apply vhas_parts.
  - change (wp (step (positional x ++ [])) (fun r => vhas (fst (fst r)) zo /\ vhas (snd (fst r)) zs /\ vhas (snd r) zs)).
    apply H; [now apply vhas_parts|]. now left.
Qed.
End ShapeFacts.
