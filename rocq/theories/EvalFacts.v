(** * EvalFacts: values of the tensor operations on tensors given by lists. *)
From Coq Require Import String List ZArith Bool Lia.
From Verif Require Import Num Py PyFacts Tensor Streamable Spec StreamFacts TensorFacts StreamProofs
  WfFacts Meta Common Finance Series.
Import ListNotations.

Section EvalFacts.
Context {N : FOps}.

(** ** Lists *)
Lemma map2_map {I A B C} (f : A -> B -> C) (a : I -> A) (b : I -> B) l :
  map2 f (map a l) (map b l) = map (fun j => f (a j) (b j)) l.
Proof. induction l; simpl; congruence. Qed.
Lemma nth_list {A} (d : A) l : l = map (fun j => nth j l d) (seq 0 (length l)).
Proof.
  induction l as [|x l IH]; [reflexivity|]. cbn [length seq map]. f_equal.
  rewrite <- seq_shift, map_map. exact IH.
Qed.
Lemma nth_list' {A} (d : A) l k : length l = k -> l = map (fun j => nth j l d) (seq 0 k).
Proof. intros <-. apply nth_list. Qed.
Lemma map2_repeat_r {A B C} (f : A -> B -> C) l x n : length l = n -> map2 f l (repeat x n) = map (fun a => f a x) l.
Proof. intros <-. induction l; simpl; congruence. Qed.
Lemma map2_repeat_l {A B C} (f : A -> B -> C) l x n : length l = n -> map2 f (repeat x n) l = map (fun a => f x a) l.
Proof. intros <-. induction l; simpl; congruence. Qed.
Lemma map_repeat {A B} (f : A -> B) x n : map f (repeat x n) = repeat (f x) n.
Proof. induction n; simpl; congruence. Qed.
Lemma repeat_map {A B} (x : B) (l : list A) : repeat x (length l) = map (fun _ => x) l.
Proof. induction l; simpl; congruence. Qed.
Lemma repeat_seq {B} (x : B) n : repeat x n = map (fun _ => x) (seq 0 n).
Proof. rewrite <- (seq_length n 0) at 1. apply repeat_map. Qed.
Lemma concat_repeat_repeat {A} (x : A) k n : concat (repeat (repeat x k) n) = repeat x (n * k).
Proof. induction n; simpl; [reflexivity|]. rewrite IHn. symmetry. apply repeat_app. Qed.
Lemma removelast_repeat {A} (x : A) n : removelast (repeat x (S n)) = repeat x n.
Proof. induction n; [reflexivity|]. cbn [repeat removelast] in *. rewrite IHn. reflexivity. Qed.
Lemma removelast_firstn_S {A} n (l : list A) : n < length l -> removelast (firstn (S n) l) = firstn n l.
Proof. intros H. apply removelast_firstn. exact H. Qed.
Lemma last_nth {A} (l : list A) d : last l d = nth (length l - 1) l d.
Proof.
  induction l as [|x [|y l] IH]; [reflexivity..|]. change (last (x :: y :: l) d) with (last (y :: l) d).
  rewrite IH. cbn [length]. replace (S (S (length l)) - 1) with (S (S (length l) - 1)) by lia. reflexivity.
Qed.

(** ** Windows: the last [p] rows, completed by [z] *)
Definition window {A} (p : nat) (z : A) (h : list A) : list A := firstn p (h ++ repeat z p).
Lemma window_length {A} p (z : A) h : length (window p z h) = p.
Proof. unfold window. rewrite firstn_length, app_length, repeat_length. lia. Qed.
Lemma window_nil {A} p (z : A) : window p z [] = repeat z p.
Proof. unfold window. simpl. rewrite <- (repeat_length z p) at 1. apply firstn_all. Qed.
Lemma window_cons {A} p (z : A) x h : p >= 1 -> x :: removelast (window p z h) = window p z (x :: h).
Proof.
  intros Hp. unfold window. destruct p as [|p]; [lia|].
  rewrite removelast_firstn_S by (rewrite app_length, repeat_length; lia).
  simpl. reflexivity.
Qed.
Lemma window_full {A} p (z : A) h : p <= length h -> window p z h = firstn p h.
Proof.
  intros H. unfold window. rewrite firstn_app. replace (p - length h) with 0 by lia. simpl. apply app_nil_r.
Qed.
Lemma window_Forall {A} (P : A -> Prop) p z h : P z -> Forall P h -> Forall P (window p z h).
Proof.
  intros Hz H. unfold window. apply Forall_forall. intros x Hx.
  assert (In x (h ++ repeat z p)).
  { rewrite <- (firstn_skipn p). apply in_or_app. auto. }
  apply in_app_or in H0 as [H0|H0]; [rewrite Forall_forall in H; auto|].
  apply repeat_spec in H0. now subst.
Qed.
Lemma window_nth {A} p (z : A) h i : i < p -> nth i (window p z h) z = nth i h z.
Proof.
  intros H. unfold window.
  assert (E : forall (l : list A) p i, i < p -> nth i (firstn p l) z = nth i l z).
  { clear. induction l as [|y l IH]; intros p i H; [now rewrite firstn_nil|].
    destruct p; [lia|]. destruct i; [reflexivity|]. simpl. apply IH. lia. }
  rewrite E by assumption. destruct (Nat.lt_ge_cases i (length h)).
  - now apply app_nth1.
  - rewrite app_nth2 by assumption. rewrite (nth_overflow h) by assumption. apply nth_repeat.
Qed.
Lemma window_map {A B} (f : A -> B) p z h : map f (window p z h) = window p (f z) (map f h).
Proof. unfold window. now rewrite <- firstn_map, map_app, map_repeat. Qed.

(** ** Shapes and broadcasting *)
Lemma shape_eqb_refl s : shape_eqb s s = true.
Proof. now apply shape_eqb_eq. Qed.
Lemma expand_same {A} s : forall (l : list A), length l = prod s -> expand s s l = l.
Proof.
  induction s as [|n s IH]; intros l H; [reflexivity|]. cbn [expand]. rewrite Nat.eqb_refl.
  rewrite (map_ext_in _ (fun c => c)), map_id.
  - unfold chunks. rewrite <- flat_map_concat_map. now apply flat_map_lslice.
  - intros c Hc. apply IH. pose proof (chunks_lengths n (prod s) l H) as C.
    rewrite Forall_forall in C. auto.
Qed.
Lemma expand_one {A} s : forall (x : A), expand s (repeat 1 (length s)) [x] = repeat x (prod s).
Proof.
  induction s as [|n s IH]; intros x; [reflexivity|].
  cbn [length repeat expand]. assert (P1 : prod (repeat 1 (length s)) = 1).
  { clear. induction s; simpl; lia. }
  rewrite P1. change (chunks 1 1 [x]) with [[x]]. cbn [map hd concat]. rewrite IH.
  change (prod (n :: s)) with (n * prod s). destruct (Nat.eqb_spec 1 n).
  - subst. rewrite app_nil_r. f_equal. lia.
  - apply concat_repeat_repeat.
Qed.
Lemma pad_shape_same s : pad_shape (length s) s = s.
Proof. unfold pad_shape. now rewrite Nat.sub_diag. Qed.
Lemma pad_shape_nil r : pad_shape r [] = repeat 1 r.
Proof. unfold pad_shape. simpl. rewrite Nat.sub_0_r. apply app_nil_r. Qed.
Lemma bshape_ones_r s : bshape s (repeat 1 (length s)) = Some s.
Proof.
  induction s as [|n s IH]; [reflexivity|]. simpl. rewrite IH.
  destruct (Nat.eqb_spec n 1); reflexivity.
Qed.
Lemma bshape_ones_l s : bshape (repeat 1 (length s)) s = Some s.
Proof.
  induction s as [|n s IH]; [reflexivity|]. simpl. rewrite IH.
  destruct n as [|[|n]]; reflexivity.
Qed.
Lemma bop_same {A B C} (f : A -> B -> C) s l m : bop f s s l m = Ok (s, map2 f l m).
Proof. unfold bop. now rewrite shape_eqb_refl. Qed.
Lemma bop_scalar_r {A B C} (f : A -> B -> C) s l x : length l = prod s ->
  bop f s [] l [x] = Ok (s, map (fun a => f a x) l).
Proof.
  intros H. unfold bop. destruct s as [|n s].
  - destruct l as [|a [|]]; try discriminate. reflexivity.
  - cbn [shape_eqb]. set (s' := n :: s) in *. cbn [length]. rewrite Nat.max_0_r.
    rewrite pad_shape_same, pad_shape_nil, bshape_ones_r, expand_same, expand_one by assumption.
    now rewrite map2_repeat_r.
Qed.
Lemma bop_scalar_l {A B C} (f : A -> B -> C) s x l : length l = prod s ->
  bop f [] s [x] l = Ok (s, map (fun a => f x a) l).
Proof.
  intros H. unfold bop. destruct s as [|n s].
  - destruct l as [|a [|]]; try discriminate. reflexivity.
  - cbn [shape_eqb]. set (s' := n :: s) in *. cbn [length]. rewrite Nat.max_0_l.
    rewrite pad_shape_same, pad_shape_nil, bshape_ones_l, expand_same, expand_one by assumption.
    now rewrite map2_repeat_l.
Qed.

(** ** Elementwise operations *)
Definition mkF (s : list nat) (l : list F) : tensor := mkT s (DF l).
Lemma tbin_same ff fi s a b : tbin ff fi (mkF s a) (mkF s b) = Ok (mkF s (map2 ff a b)).
Proof. unfold tbin, mkF. cbn [dat sh]. now rewrite bop_same. Qed.
Lemma tbin_scalar_r ff fi s a x : length a = prod s -> tbin ff fi (mkF s a) (fsc x) = Ok (mkF s (map (fun y => ff y x) a)).
Proof. intros H. unfold tbin, mkF, fsc. cbn [dat sh]. now rewrite bop_scalar_r. Qed.
Lemma tbin_scalar_l ff fi s a x : length a = prod s -> tbin ff fi (fsc x) (mkF s a) = Ok (mkF s (map (fun y => ff x y) a)).
Proof. intros H. unfold tbin, mkF, fsc. cbn [dat sh]. now rewrite bop_scalar_l. Qed.
Lemma tcmp_same ff fi s a b : tcmp ff fi (mkF s a) (mkF s b) = Ok (mkT s (DB (map2 ff a b))).
Proof. unfold tcmp, mkF. cbn [dat sh]. now rewrite bop_same. Qed.
Lemma tcmp_scalar_r ff fi s a x : length a = prod s -> tcmp ff fi (mkF s a) (fsc x) = Ok (mkT s (DB (map (fun y => ff y x) a))).
Proof. intros H. unfold tcmp, mkF, fsc. cbn [dat sh]. now rewrite bop_scalar_r. Qed.
(** scalars *)
Lemma tbin_ff ff fi a b : tbin ff fi (fsc a) (fsc b) = Ok (fsc (ff a b)). Proof. reflexivity. Qed.
Lemma tbin_ii ff g a b : tbin ff (Some g) (isc a) (isc b) = Ok (isc (g a b)). Proof. reflexivity. Qed.
Lemma tcmp_ff ff fi a b : tcmp ff fi (fsc a) (fsc b) = Ok (bsc (ff a b)). Proof. reflexivity. Qed.
Lemma tcmp_ii ff fi a b : tcmp ff fi (isc a) (isc b) = Ok (bsc (fi a b)). Proof. reflexivity. Qed.
Lemma tbool2_bb f a b : tbool2 f (bsc a) (bsc b) = Ok (bsc (f a b)). Proof. reflexivity. Qed.
Lemma tlogical_not_b a : tlogical_not (bsc a) = Ok (bsc (negb a)). Proof. reflexivity. Qed.
Lemma tun_f f a : tun f (fsc a) = Ok (fsc (f a)). Proof. reflexivity. Qed.
Lemma tun_F f s a : tun f (mkF s a) = Ok (mkF s (map f a)). Proof. reflexivity. Qed.
Lemma twhere_f b x y : twhere (bsc b) (fsc x) (fsc y) = Ok (fsc (if b then x else y)).
Proof. unfold twhere. cbn. now destruct b. Qed.
Lemma twhere_i b x y : twhere (bsc b) (isc x) (isc y) = Ok (isc (if b then x else y)).
Proof. unfold twhere. cbn. now destruct b. Qed.
Lemma zeros_like_f a : zeros_like (fsc a) = fsc f0. Proof. reflexivity. Qed.
Lemma zeros_like_F s a : zeros_like (mkF s a) = mkF s (repeat f0 (prod s)). Proof. reflexivity. Qed.
Lemma mkF_nil a : mkF [] [a] = fsc a. Proof. reflexivity. Qed.
Lemma pyint_like_F s a z : pyint_like (mkF s a) z = Ok (fsc (f_of_Z z)). Proof. reflexivity. Qed.
Lemma pyfloat_like_F s a x : pyfloat_like (mkF s a) x = Ok (fsc x). Proof. reflexivity. Qed.
Lemma pynum_like_F s a k : pynum_like (mkF s a) k = Ok (fsc (num k)). Proof. destruct k; reflexivity. Qed.
Lemma int_op_i op a z : int_op op (isc a) z = op (isc a) (isc z). Proof. reflexivity. Qed.
Lemma int_op_f op a z : int_op op (fsc a) z = op (fsc a) (fsc (f_of_Z z)). Proof. reflexivity. Qed.
Lemma int_op_F op s a z : int_op op (mkF s a) z = op (mkF s a) (fsc (f_of_Z z)). Proof. reflexivity. Qed.

(** ** tf.cond *)
Definition solid (v : val) : Prop :=
  pyok v /\ nonempty_result v = true /\ unpack_singleton v = v.
Lemma same_types_sig a b : pyok a -> sig a = sig b -> same_types a b = true.
Proof.
  intros Ha E. unfold same_types.
  assert (vmap dtype_of a = vmap dtype_of b) as <-.
  { transitivity (vmap snd (sig a)); [|rewrite E]; unfold sig; rewrite vmap_vmap; apply vmap_ext; reflexivity. }
  apply (same_types_refl a Ha).
Qed.
Lemma tf_cond_pick b t f : solid t -> solid f -> same_types t f = true ->
  tf_cond (bsc b) (Ok t) (Ok f) = Ok (if b then t else f).
Proof.
  intros (H1 & H2 & H3) (K1 & K2 & K3) E. unfold tf_cond. cbn [as_pred bsc sh dat bind].
  rewrite H2, K2. cbn [andb negb]. rewrite H3, K3. rewrite !to_type_ok by assumption. cbn [bind].
  unfold same_types in E. rewrite E. destruct b; congruence.
Qed.
Lemma tf_cond_pick' b (t f : pyval tensor) : solid t -> solid f -> same_types t f = true ->
  tf_cond (bsc b) (@Ok (pyval tensor) t) (@Ok (pyval tensor) f) = Ok (if b then t else f).
Proof. exact (tf_cond_pick b t f). Qed.
Lemma solid_leaf t : solid (Leaf t).
Proof. repeat split. Qed.
Lemma solid_pair a b l : Forall pyok (a :: b :: l) -> solid (Tup (a :: b :: l)).
Proof. intros H. split; [now apply pyok_tup|]. split; reflexivity. Qed.
Lemma tcond_pick b t f : dtype_of t = dtype_of f -> tcond (bsc b) (Ok t) (Ok f) = Ok (if b then t else f).
Proof.
  intros E. unfold tcond, leaf. cbn [bind]. rewrite tf_cond_pick; [now destruct b|apply solid_leaf..|].
  unfold same_types. simpl. rewrite E. now destruct (dtype_of f).
Qed.
Lemma tcond_F b s l m : tcond (bsc b) (Ok (mkF s l)) (Ok (mkF s m)) = Ok (mkF s (if b then l else m)).
Proof. rewrite tcond_pick by reflexivity. now destruct b. Qed.
Lemma tcond_f b x y : tcond (bsc b) (Ok (fsc x)) (Ok (fsc y)) = Ok (fsc (if b then x else y)).
Proof. rewrite tcond_pick by reflexivity. now destruct b. Qed.
Lemma tcond_i b x y : tcond (bsc b) (Ok (isc x)) (Ok (isc y)) = Ok (isc (if b then x else y)).
Proof. rewrite tcond_pick by reflexivity. now destruct b. Qed.

(** ** Buffers *)
Definition mkb (d : dtype) (p : nat) (s : list nat) (rows : list (list (elt d))) : tensor :=
  mkT (p :: s) (mkD d (concat rows)).
Lemma concat_removelast_len {A} k (rows : list (list A)) p :
  Forall (fun r => length r = k) rows -> length rows = S p ->
  firstn (p * k) (concat rows) = concat (removelast rows).
Proof.
  intros H. revert p. induction H as [|r rows Hr H IH]; intros p L; [discriminate|].
  destruct rows as [|r' rows]; [injection L as <-; reflexivity|].
  destruct p as [|p]; [discriminate|]. injection L as L.
  change (concat (r :: r' :: rows)) with (r ++ concat (r' :: rows)).
  change (removelast (r :: r' :: rows)) with (r :: removelast (r' :: rows)).
  cbn [concat]. cbn [Nat.mul]. rewrite firstn_app. rewrite firstn_all2 by lia. f_equal.
  replace (k + p * k - length r) with (p * k) by lia.
  change (r' ++ concat rows) with (concat (r' :: rows)). apply IH. simpl. congruence.
Qed.
Lemma roll_buf d p s x (rows : list (list (elt d))) :
  p >= 1 -> length rows = p -> shaped s rows -> length x = prod s ->
  roll (mkT s (mkD d x)) (mkb d p s rows) = Ok (mkb d p s (x :: removelast rows)).
Proof.
  intros Hp L H Hx. unfold roll, droplast0, slice0, mkb. cbn [sh dat bind].
  change ((0 <? 0)%Z) with false. change ((-1 <? 0)%Z) with true. cbv iota.
  replace (Z.to_nat (Z.min 0 (Z.of_nat p))) with 0 by lia.
  replace (Z.to_nat (Z.max 0 (-1 + Z.of_nat p))) with (p - 1) by lia.
  rewrite Nat.sub_0_r. unfold concat0, expand0. cbn [sh dat]. rewrite shape_eqb_refl.
  destruct p as [|p]; [lia|]. replace (S p - 1) with p by lia.
  assert (E : firstn (p * prod s) (concat rows) = concat (removelast rows))
    by (eapply concat_removelast_len; eauto).
  replace (1 + p) with (S p) by lia.
  destruct d; cbn [elt mkD dslice dapp bind] in *; unfold lslice; cbn [Nat.mul skipn]; rewrite E; reflexivity.
Qed.
Lemma zeros_buffer_buf d p s x :
  zeros_buffer (Z.of_nat p) (mkT s (mkD d x)) = Ok (mkb d p s (window p (repeat (zero_of d) (prod s)) [])).
Proof.
  unfold zeros_buffer. destruct (Z.ltb_spec (Z.of_nat p) 0); [lia|]. rewrite Nat2Z.id.
  unfold zeros, mkb. cbn [sh]. rewrite window_nil, concat_repeat_repeat.
  destruct d; reflexivity.
Qed.
Lemma lslice_concat {A} k (rows : list (list A)) i :
  Forall (fun r => length r = k) rows -> i < length rows ->
  lslice (i * k) k (concat rows) = nth i rows [].
Proof.
  intros H Hi.
  pose proof (lslice_flat_map (fun x : list A => x) k rows [] i H Hi) as E.
  rewrite flat_map_concat_map, map_id in E. exact E.
Qed.
Lemma index0_buf d p s rows i : length rows = p -> shaped s rows -> i < p ->
  index0 (mkb d p s rows) (Z.of_nat i) = Ok (mkT s (mkD d (nth i rows []))).
Proof.
  intros L H Hi. unfold index0, mkb. cbn [sh dat].
  destruct (Z.ltb_spec (Z.of_nat i) 0); [lia|]. cbv zeta.
  destruct (Z.leb_spec 0 (Z.of_nat i)); [|lia].
  destruct (Z.ltb_spec (Z.of_nat i) (Z.of_nat p)); [|lia]. cbn [andb].
  rewrite Nat2Z.id. subst p.
  destruct d; cbn [elt mkD dslice] in *; rewrite lslice_concat; auto.
Qed.
Lemma index0_last d p s rows : length rows = p -> shaped s rows -> p >= 1 ->
  index0 (mkb d p s rows) (-1) = Ok (mkT s (mkD d (nth (p - 1) rows []))).
Proof.
  intros L H Hp. rewrite <- (index0_buf d p s rows) by (auto; lia).
  unfold index0, mkb. cbn [sh dat]. change ((-1 <? 0)%Z) with true. cbv iota zeta.
  destruct (Z.ltb_spec (Z.of_nat (p - 1)) 0); [lia|].
  replace (-1 + Z.of_nat p)%Z with (Z.of_nat (p - 1)) by lia. reflexivity.
Qed.
Lemma col_concat {A} (d : A) k j rows : j < k -> Forall (fun r => length r = k) rows ->
  col d (length rows) k j (concat rows) = map (fun r => nth j r d) rows.
Proof.
  intros Hj H. unfold col.
  assert (K : forall i, i < length rows -> nth (i * k + j) (concat rows) d = nth j (nth i rows []) d).
  { induction H as [|r rows Hr H IH]; intros i Hi; simpl in Hi; [lia|].
    destruct i as [|i]; cbn [concat nth].
    - apply app_nth1. lia.
    - rewrite app_nth2 by (simpl; lia). rewrite <- IH by lia. f_equal. simpl. lia. }
  rewrite (nth_list [] rows) at 2. rewrite map_map. apply map_ext_in. intros i Hi. apply in_seq in Hi.
  apply K. lia.
Qed.
Lemma treduce0_buf r p s rows : length rows = p -> shaped s rows ->
  treduce0 r (mkb F32 p s rows) = Ok (mkF s (each s r rows)).
Proof.
  intros L H. unfold treduce0, mkb. cbn [sh dat mkD]. subst p. f_equal. unfold mkF. do 2 f_equal.
  unfold each. apply map_ext_in. intros j Hj. apply in_seq in Hj.
  f_equal. apply col_concat; [lia|exact H].
Qed.
Lemma each_length {B} s (f : list F -> B) h : length (each s f h) = prod s.
Proof. unfold each. now rewrite map_length, seq_length. Qed.
Lemma each_ext {B} s (f g : list F -> B) h h' :
  (forall j, j < prod s -> f (column f0 j h) = g (column f0 j h')) -> each s f h = each s g h'.
Proof. intros H. unfold each. apply map_ext_in. intros j Hj. apply in_seq in Hj. apply H. lia. Qed.
Lemma each_hd s x h : length x = prod s -> each s (fun h => hd f0 h) (x :: h) = x.
Proof. intros H. unfold each. simpl. symmetry. now apply nth_list'. Qed.
Lemma map2_each {A B C} (f : A -> B -> C) s u v h h' :
  map2 f (each s u h) (each s v h') = map (fun j => f (u (column f0 j h)) (v (column f0 j h'))) (seq 0 (prod s)).
Proof. unfold each. apply map2_map. Qed.
Lemma map_each {B C} (f : B -> C) s u h : map f (each s u h) = each s (fun h => f (u h)) h.
Proof. unfold each. apply map_map. Qed.
Lemma column_length {A} (d : A) j h : length (column d j h) = length h.
Proof. apply map_length. Qed.
Lemma each_const {B} s (b : B) h : each s (fun _ => b) h = repeat b (prod s).
Proof. unfold each. symmetry. apply repeat_seq. Qed.

(** ** Counters *)
Definition cnt {X} (h : list X) : tensor := isc (wrap32 (Z.of_nat (length h))).
Lemma wrap32_small z : (-2147483648 <= z < 2147483648)%Z -> wrap32 z = z.
Proof. intros H. unfold wrap32. rewrite Z.mod_small; lia. Qed.
Lemma wrap32_succ z : iadd (wrap32 z) 1 = wrap32 (z + 1).
Proof.
  unfold iadd, wrap32.
  replace ((z + 2147483648) mod 4294967296 - 2147483648 + 1 + 2147483648)%Z
    with ((z + 2147483648) mod 4294967296 + 1)%Z by lia.
  rewrite Zplus_mod_idemp_l. f_equal. f_equal. lia.
Qed.
Lemma cnt_next {X} (x : X) h : int_op tadd (cnt h) 1 = Ok (cnt (x :: h)).
Proof.
  unfold cnt. rewrite int_op_i. unfold tadd. rewrite tbin_ii, wrap32_succ.
  do 3 f_equal. cbn [length]. lia.
Qed.
Lemma cnt_small {X} (x : X) h : short (x :: h) -> cnt h = isc (Z.of_nat (length h)).
Proof. unfold short, cnt. cbn [length]. intros H. rewrite wrap32_small; [reflexivity|lia]. Qed.
Lemma short_tl {X} (x : X) h : short (x :: h) -> short h.
Proof. unfold short. cbn [length]. lia. Qed.
Lemma short_le {X Y} (h : list X) (g : list Y) : short h -> length g <= length h -> short g.
Proof. unfold short. lia. Qed.
Lemma short_nil {X} : short (@nil X).
Proof. unfold short. simpl. lia. Qed.
Lemma ltb_nat a b : (Z.of_nat a <? Z.of_nat b)%Z = (a <? b).
Proof. destruct (Z.ltb_spec (Z.of_nat a) (Z.of_nat b)), (Nat.ltb_spec a b); auto; lia. Qed.
Lemma eqb_nat a b : (Z.of_nat a =? Z.of_nat b)%Z = (a =? b).
Proof. destruct (Z.eqb_spec (Z.of_nat a) (Z.of_nat b)), (Nat.eqb_spec a b); auto; lia. Qed.
Lemma cnt_ltb {X} (x : X) h z b : short (x :: h) -> ((Z.of_nat (length h) <? z)%Z = b) ->
  int_op tless (cnt h) z = Ok (bsc b).
Proof. intros H <-. rewrite (cnt_small x h H), int_op_i. apply tcmp_ii. Qed.
Lemma cnt_nil {X} : @cnt X [] = isc 0. Proof. reflexivity. Qed.
Lemma ok_rows_tl s x h : ok_rows s (x :: h) -> ok_rows s h.
Proof. intros [H1 H2]. split; [now inversion H1|]. now apply short_tl in H2. Qed.
Lemma ok_rows_nil s : ok_rows s [].
Proof. split; [constructor|apply short_nil]. Qed.

(** ** Stacking lists of tensors *)
Lemma stack_mkD d s (g : list (list (elt d))) : g <> [] ->
  stackT (map (fun r => mkT s (mkD d r)) g) = mkT (length g :: s) (mkD d (concat g)).
Proof.
  intros H. unfold stackT. rewrite map_length. destruct g as [|r g]; [easy|]. cbn [map hd sh].
  change (mkT s (mkD d r) :: map (fun r => mkT s (mkD d r)) g) with (map (fun r => mkT s (mkD d r)) (r :: g)).
  rewrite !flat_map_map. f_equal. clear H. set (g' := r :: g). clearbody g'. clear.
  destruct d; cbn [mkD dtype_of dat fdata idata bdata]; f_equal; rewrite flat_map_concat_map, map_id; reflexivity.
Qed.
Lemma stack_mkF s g : g <> [] -> stackT (map (mkF s) g) = mkT (length g :: s) (DF (concat g)).
Proof. exact (stack_mkD F32 s g). Qed.
Lemma concat_singletons {A} (l : list A) : concat (map (fun x => [x]) l) = l.
Proof. induction l; simpl; congruence. Qed.
Lemma stack_fsc l : l <> [] -> stackT (map fsc l) = mkT [length l] (DF l).
Proof.
  intros H. rewrite <- (concat_singletons l) at 3. rewrite <- (map_length (fun x => [x]) l).
  rewrite <- stack_mkF by (destruct l; [easy|discriminate]). rewrite map_map. reflexivity.
Qed.
Lemma stack_isc l : l <> [] -> stackT (map isc l) = mkT [length l] (DI l).
Proof.
  intros H. rewrite <- (concat_singletons l) at 3. rewrite <- (map_length (fun x => [x]) l).
  rewrite <- (stack_mkD I32 []) by (destruct l; [easy|discriminate]). rewrite map_map. reflexivity.
Qed.
End EvalFacts.
