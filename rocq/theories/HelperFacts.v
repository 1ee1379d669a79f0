(** * HelperFacts: map_fn, flatten, any_value, any_nan, filter_with_mask, map_consecutive_fn. *)
From Coq Require Import String List ZArith Bool Lia.
From Verif Require Import Num Py PyFacts Tensor Streamable Spec StreamFacts TensorFacts WfFacts EvalFacts
  Meta Common SpecHelpers.
Import ListNotations.

(** ** map_fn and flatten *)
Lemma lookup_vmap {A B} (f : A -> B) v : forall p, lookup p (vmap f v) = option_map f (lookup p v).
Proof.
  induction v as [a|l IH|l IH|l IH|l IH] using pyval_ind'; intros [|[i|k] p]; try reflexivity.
  - cbn [vmap lookup]. rewrite nth_error_map. destruct (nth_error l i) as [w|] eqn:E; [|reflexivity].
    cbn [option_map]. rewrite Forall_forall in IH. apply IH. now apply nth_error_In in E.
  - cbn [vmap lookup]. rewrite nth_error_map. destruct (nth_error l i) as [w|] eqn:E; [|reflexivity].
    cbn [option_map]. rewrite Forall_forall in IH. apply IH. now apply nth_error_In in E.
  - cbn [vmap lookup]. rewrite assoc_map. induction IH as [|[k' x] l Hx _ IHl]; [reflexivity|].
    cbn [assoc]. destruct (String.eqb k k'); auto. apply Hx.
Qed.
Lemma map_one {A B} (f : A -> B) (g : list (pyval A) -> res (pyval B)) v :
  pyok v -> (forall a, g [Leaf a] = Ok (Leaf (f a))) -> map_fn g v [v] = Ok (vmap f v).
Proof.
  intros P Hg. assert (E := map_fn_vmap g v P (fun a => a) [fun a => a]). cbn [map] in E. rewrite !vmap_id in E.
  rewrite E. rewrite (vmapM_ext _ (fun a => let* y := Ok (f a) in Ok (Leaf y))).
  - now apply (vmapM_ok (fun a => Ok (f a)) f).
  - intros a _. apply Hg.
Qed.
Theorem map_fn_law {A B} (f : A -> B) (g : list (pyval A) -> res (pyval B)) v :
  pyok v -> (forall a, g [Leaf a] = Ok (Leaf (f a))) ->
  exists w, map_fn g v [v] = Ok w /\ sk w = sk v /\ (forall p, lookup p w = option_map f (lookup p v)) /\
    positions w = positions v.
Proof.
  intros P Hg. exists (vmap f v). split; [now apply map_one|]. split; [apply sk_vmap|].
  split; [intros p; apply lookup_vmap|].
  clear. induction v as [a|l IH|l IH|l IH|l IH] using pyval_ind'; try reflexivity.
  - cbn [vmap positions]. generalize 0. induction IH as [|x l Hx _ IHl]; intros n; [reflexivity|].
    cbn [map]. now rewrite Hx, IHl.
  - cbn [vmap positions]. generalize 0. induction IH as [|x l Hx _ IHl]; intros n; [reflexivity|].
    cbn [map]. now rewrite Hx, IHl.
  - cbn [vmap positions]. induction IH as [|[k x] l Hx _ IHl]; [reflexivity|].
    cbn [map fst snd] in *. now rewrite Hx, IHl.
Qed.
(** Two values of the same structure are the projections of one. *)
Lemma zip_list {A B} (l : list (pyval A)) :
  Forall (fun v => forall w : pyval B, sk v = sk w -> exists s : pyval (A * B), vmap fst s = v /\ vmap snd s = w) l ->
  forall m : list (pyval B), map (vmap (fun _ => tt)) l = map (vmap (fun _ => tt)) m ->
  exists ss : list (pyval (A * B)), map (vmap fst) ss = l /\ map (vmap snd) ss = m.
Proof.
  induction 1 as [|x l Hx _ IH]; intros [|y m] E; try discriminate.
  - now exists [].
  - injection E as E1 E2. destruct (Hx y E1) as (s & <- & <-). destruct (IH m E2) as (ss & <- & <-).
    now exists (s :: ss).
Qed.
Lemma zip_vals {A B} (v : pyval A) : forall w : pyval B, sk v = sk w ->
  exists s : pyval (A * B), vmap fst s = v /\ vmap snd s = w.
Proof.
  induction v as [a|l IH|l IH|l IH|l IH] using pyval_ind'; intros [b|m|m|m|m] E; try discriminate.
  - now exists (Leaf (a, b)).
  - injection E as E. destruct (zip_list l IH m E) as (ss & <- & <-). now exists (Tup ss).
  - injection E as E. destruct (zip_list l IH m E) as (ss & <- & <-). now exists (Lst ss).
  - injection E as E. enough (K : exists ss : list (string * pyval (A * B)),
      map (fun kv => (fst kv, vmap fst (snd kv))) ss = l /\ map (fun kv => (fst kv, vmap snd (snd kv))) ss = m).
    { destruct K as (ss & <- & <-). now exists (Dct ss). }
    revert m E. induction IH as [|[k x] l Hx _ IH']; intros [|[k' y] m] E; try discriminate.
    + now exists [].
    + cbn [map fst snd] in *. injection E as -> E1 E2. destruct (Hx y E1) as (s & <- & <-).
      destruct (IH' m E2) as (ss & <- & <-). now exists ((k', s) :: ss).
  - injection E as E. destruct (zip_list l IH m E) as (ss & <- & <-). now exists (Gen ss).
Qed.
Theorem map_fn_law2 {A B} (f : A -> A -> B) (g : list (pyval A) -> res (pyval B)) v1 v2 :
  pyok v1 -> sk v1 = sk v2 -> (forall a b, g [Leaf a; Leaf b] = Ok (Leaf (f a b))) ->
  exists w, map_fn g v1 [v1; v2] = Ok w /\ sk w = sk v1 /\
    forall p, lookup p w = match lookup p v1, lookup p v2 with Some a, Some b => Some (f a b) | _, _ => None end.
Proof.
  intros P E Hg. destruct (zip_vals v1 v2 E) as (s & <- & <-). apply pyok_vmap in P.
  exists (vmap (fun ab => f (fst ab) (snd ab)) s).
  assert (K := map_fn_vmap g s P fst [fst; snd]). cbn [map] in K. rewrite K.
  split; [|split; [now rewrite !sk_vmap|]].
  - rewrite (vmapM_ext _ (fun a => let* y := Ok (f (fst a) (snd a)) in Ok (Leaf y))).
    + now apply (vmapM_ok (fun a => Ok (f (fst a) (snd a))) (fun a => f (fst a) (snd a))).
    + intros a _. apply Hg.
  - intros p. rewrite !lookup_vmap. now destruct (lookup p s) as [[a b]|].
Qed.
Theorem map_fn_id {A} (g : list (pyval A) -> res (pyval A)) v :
  pyok v -> (forall a, g [Leaf a] = Ok (Leaf a)) -> map_fn g v [v] = Ok v.
Proof. intros P Hg. rewrite (map_one (fun a => a) g v P Hg). now rewrite vmap_id. Qed.

(** The positions are those at which there is a leaf, without repetition. *)
Definition pos_l {A} := fix go (i : nat) (l : list (pyval A)) : list (list key) :=
  match l with [] => [] | x :: r => map (cons (At i)) (positions x) ++ go (S i) r end.
Definition pos_d {A} := fix go (l : list (string * pyval A)) : list (list key) :=
  match l with [] => [] | (k, x) :: r => map (cons (Key k)) (positions x) ++ go r end.
Lemma pos_l_in {A} (l : list (pyval A)) : forall i p, In p (pos_l i l) <->
  exists j w q, nth_error l j = Some w /\ p = At (i + j) :: q /\ In q (positions w).
Proof.
  induction l as [|x l IH]; intros i p; cbn [pos_l].
  - split; [easy|]. intros ([|j] & w & q & H & _); discriminate.
  - rewrite in_app_iff, in_map_iff, IH. split.
    + intros [(q & <- & H)|(j & w & q & H & -> & K)].
      * exists 0, x, q. now rewrite Nat.add_0_r.
      * exists (S j), w, q. now rewrite Nat.add_succ_r.
    + intros ([|j] & w & q & H & -> & K).
      * injection H as ->. left. exists q. now rewrite Nat.add_0_r.
      * right. exists j, w, q. now rewrite Nat.add_succ_r.
Qed.
Lemma nodup_app {A} (l m : list A) : NoDup l -> NoDup m -> (forall x, In x l -> In x m -> False) -> NoDup (l ++ m).
Proof.
  induction 1 as [|x l Hx _ IH]; intros Hm D; cbn [app]; auto. constructor.
  - rewrite in_app_iff. intros [H|H]; [easy|]. apply (D x); [now left|easy].
  - apply IH; auto. intros y H1 H2. apply (D y); [now right|easy].
Qed.
Lemma nodup_map_cons {A} (k : A) l : NoDup l -> NoDup (map (cons k) l).
Proof.
  induction 1 as [|x l Hx _ IH]; cbn [map]; constructor; auto.
  rewrite in_map_iff. intros (y & E & H). injection E as ->. easy.
Qed.
Lemma pos_l_nodup {A} (l : list (pyval A)) : Forall (fun v => NoDup (positions v)) l -> forall i, NoDup (pos_l i l).
Proof.
  induction 1 as [|x l Hx _ IH]; intros i; cbn [pos_l]; [constructor|].
  apply nodup_app; auto using nodup_map_cons.
  intros p H1 H2. apply in_map_iff in H1 as (q & <- & _). apply pos_l_in in H2 as (j & w & q' & _ & E & _).
  injection E as E _. lia.
Qed.
Lemma pos_d_in {A} (l : list (string * pyval A)) p : In p (pos_d l) <->
  exists k w q, In (k, w) l /\ p = Key k :: q /\ In q (positions w).
Proof.
  induction l as [|[k x] l IH]; cbn [pos_d].
  - split; [easy|]. intros (k & w & q & [] & _).
  - rewrite in_app_iff, in_map_iff, IH. split.
    + intros [(q & <- & H)|(k' & w & q & H & -> & K)].
      * exists k, x, q. split; [now left|auto].
      * exists k', w, q. split; [now right|auto].
    + intros (k' & w & q & [E|H] & -> & K).
      * injection E as -> ->. eauto.
      * right. eauto 6.
Qed.
Lemma pos_d_nodup {A} (l : list (string * pyval A)) : NoDup (map fst l) ->
  Forall (fun kv => NoDup (positions (snd kv))) l -> NoDup (pos_d l).
Proof.
  intros ND. induction 1 as [|[k x] l Hx _ IH]; cbn [pos_d]; [constructor|].
  cbn [map fst snd] in *. inversion ND; subst.
  apply nodup_app; auto using nodup_map_cons.
  intros p H3 H4. apply in_map_iff in H3 as (q & <- & _). apply pos_d_in in H4 as (j & w & q' & H5 & E & _).
  injection E as <- _. apply H1. apply in_map_iff. now exists (k, w).
Qed.
Theorem positions_spec {A} (v : pyval A) : pyok v ->
  NoDup (positions v) /\ forall p, In p (positions v) <-> exists a, lookup p v = Some a.
Proof.
  induction v as [a|l IH|l IH|l IH|l IH] using pyval_ind'; intros P.
  - split; [repeat constructor; easy|]. intros [|k p]; cbn; split; intros H; eauto.
    + now destruct H as [H|[]].
    + destruct H; now destruct k.
  - apply pyok_tup in P. change (positions (Tup l)) with (pos_l 0 l). split.
    + apply pos_l_nodup. rewrite Forall_forall in *. intros v Hv. now apply IH; auto.
    + intros p. rewrite pos_l_in. rewrite Forall_forall in *. split.
      * intros (j & w & q & H & -> & K). cbn [lookup Nat.add]. rewrite H.
        apply nth_error_In in H. now apply (proj2 (IH w H (P w H))).
      * intros (a & H). destruct p as [|[i|k] p]; try discriminate. cbn [lookup] in H.
        destruct (nth_error l i) as [w|] eqn:E; [|discriminate]. exists i, w, p.
        assert (In w l) by now apply nth_error_In in E. split; auto. split; auto. apply (proj2 (IH w H0 (P w H0))). eauto.
  - apply pyok_lst in P. change (positions (Lst l)) with (pos_l 0 l). split.
    + apply pos_l_nodup. rewrite Forall_forall in *. intros v Hv. now apply IH; auto.
    + intros p. rewrite pos_l_in. rewrite Forall_forall in *. split.
      * intros (j & w & q & H & -> & K). cbn [lookup Nat.add]. rewrite H.
        apply nth_error_In in H. now apply (proj2 (IH w H (P w H))).
      * intros (a & H). destruct p as [|[i|k] p]; try discriminate. cbn [lookup] in H.
        destruct (nth_error l i) as [w|] eqn:E; [|discriminate]. exists i, w, p.
        assert (In w l) by now apply nth_error_In in E. split; auto. split; auto. apply (proj2 (IH w H0 (P w H0))). eauto.
  - apply pyok_dct in P as [ND P]. change (positions (Dct l)) with (pos_d l). split.
    + apply pos_d_nodup; auto. rewrite Forall_forall in *. intros v Hv. now apply IH; auto.
    + intros p. rewrite pos_d_in. rewrite Forall_forall in *. split.
      * intros (k & w & q & H & -> & K). cbn [lookup]. rewrite (assoc_in _ _ _ ND H).
        now apply (proj2 (IH _ H (P _ H))).
      * intros (a & H). destruct p as [|[i|k] p]; try discriminate. cbn [lookup] in H.
        destruct (assoc k l) as [w|] eqn:E; [|discriminate]. exists k, w, p.
        assert (In (k, w) l).
        { clear -E. induction l as [|[k' y] l IHl]; [discriminate|]. cbn [assoc] in E.
          destruct (String.eqb_spec k k') as [->|]; [injection E as ->; now left|right; auto]. }
        split; auto. split; auto. apply (proj2 (IH _ H0 (P _ H0))). eauto.
  - destruct P.
Qed.
(** flatten lists what is found at the positions. *)
Lemma leaves_positions {A} (v : pyval A) : pyok v -> map Some (leaves v) = map (fun p => lookup p v) (positions v).
Proof.
  induction v as [a|l IH|l IH|l IH|l IH] using pyval_ind'; intros P; try reflexivity.
  - apply pyok_tup in P. change (positions (Tup l)) with (pos_l 0 l). cbn [leaves].
    assert (K : forall pre, map Some (flat_map leaves l) = map (fun p => lookup p (Tup (pre ++ l))) (pos_l (length pre) l)).
    { induction IH as [|x l Hx _ IHl]; intros pre; [reflexivity|]. inversion P; subst. cbn [flat_map pos_l].
      rewrite !map_app, map_map, Hx by assumption. f_equal.
      - apply map_ext. intros p. cbn [lookup]. rewrite nth_error_app2, Nat.sub_diag by lia. reflexivity.
      - rewrite (IHl ltac:(assumption) (pre ++ [x])), app_length, <- app_assoc. cbn [length app]. now rewrite Nat.add_1_r. }
    apply (K []).
  - apply pyok_lst in P. change (positions (Lst l)) with (pos_l 0 l). cbn [leaves].
    assert (K : forall pre, map Some (flat_map leaves l) = map (fun p => lookup p (Lst (pre ++ l))) (pos_l (length pre) l)).
    { induction IH as [|x l Hx _ IHl]; intros pre; [reflexivity|]. inversion P; subst. cbn [flat_map pos_l].
      rewrite !map_app, map_map, Hx by assumption. f_equal.
      - apply map_ext. intros p. cbn [lookup]. rewrite nth_error_app2, Nat.sub_diag by lia. reflexivity.
      - rewrite (IHl ltac:(assumption) (pre ++ [x])), app_length, <- app_assoc. cbn [length app]. now rewrite Nat.add_1_r. }
    apply (K []).
  - apply pyok_dct in P as [ND P]. change (positions (Dct l)) with (pos_d l). cbn [leaves].
    assert (K : forall m, (forall k w, In (k, w) l -> assoc k m = Some w) ->
      map Some (flat_map (fun kv => leaves (snd kv)) l) = map (fun p => lookup p (Dct m)) (pos_d l)).
    { clear ND. induction IH as [|[k x] l Hx _ IHl]; intros m Hm; [reflexivity|]. inversion P; subst. cbn [flat_map pos_d snd] in *.
      rewrite !map_app, map_map, Hx by assumption. f_equal.
      - apply map_ext. intros p. cbn [lookup]. now rewrite (Hm k x) by now left.
      - apply IHl; auto. intros k' w' H'. apply Hm. now right. }
    apply K. intros k w H. now apply assoc_in.
  - destruct P.
Qed.
Theorem flatten_law {A} (v : pyval A) : pyok v ->
  map Some (flatten v) = map (fun p => option_map Leaf (lookup p v)) (positions v).
Proof.
  intros P. rewrite flatten_ok by assumption. rewrite map_map.
  rewrite <- (map_map (fun p => lookup p v) (option_map Leaf)), <- leaves_positions by assumption. now rewrite map_map.
Qed.
Theorem flatten_map {A B} (f : A -> B) (g : list (pyval A) -> res (pyval B)) v w :
  pyok v -> (forall a, g [Leaf a] = Ok (Leaf (f a))) -> map_fn g v [v] = Ok w ->
  mapM (fun x => g [x]) (flatten v) = Ok (flatten w).
Proof.
  intros P Hg H. rewrite (map_one f g v P Hg) in H. injection H as <-.
  rewrite !flatten_ok by (auto; now apply pyok_vmap). rewrite leaves_vmap, mapM_map, map_map.
  rewrite (mapM_ext _ (fun a => Ok (Leaf (f a)))) by (intros; apply Hg). apply (mapM_Ok (fun a => Leaf (f a))).
Qed.

Section HelperFacts.
Context {N : FOps}.
(** ** any_value and any_nan *)
Lemma reduce_or_ok (h : tensor -> bool) l : forall acc,
  reduce_or (bsc acc) (map (fun t => Leaf (bsc (h t))) l) = Ok (bsc (acc || existsb h l)).
Proof.
  induction l as [|t l IH]; intros acc; cbn [map reduce_or as_t existsb bind].
  - now rewrite orb_false_r.
  - unfold tlogical_or. rewrite tbool2_bb. cbn [bind]. rewrite IH. now rewrite orb_assoc.
Qed.
Lemma any_leaf_ok f (h : tensor -> bool) v : pyok v -> (forall t, In t (leaves v) -> f t = Ok (bsc (h t))) ->
  any_leaf f v = Ok (bsc (existsb h (leaves v))).
Proof.
  intros P H. unfold any_leaf.
  match goal with |- context [map_fn ?g v ?l] => assert (E : map_fn g v l = Ok (vmap (fun t => bsc (h t)) v)) end.
  { assert (E := map_fn_vmap (fun l => match l with [Leaf x] => let* y := f x in Ok (Leaf y) | _ => Err EType end) v P
      (fun a => a) [fun a => a]). cbn [map] in E. rewrite !vmap_id in E. etransitivity; [exact E|]. clear E.
    rewrite (vmapM_ext _ (fun t => let* y := Ok (bsc (h t)) in Ok (Leaf y))).
    2:{ intros t Ht. now rewrite H. }
    now rewrite (vmapM_ok (fun t => Ok (bsc (h t))) (fun t => bsc (h t))) by auto. }
  rewrite E. cbn [bind].
  rewrite flatten_ok by now apply pyok_vmap. rewrite leaves_vmap, map_map.
  apply (reduce_or_ok h (leaves v) false).
Qed.
Lemma has_value x t : wf t -> dtype_of t = F32 -> tensor_has_value x t = Ok (bsc (existsb (fun y => feq y x) (elements t))).
Proof.
  destruct t as [s [l|l|l]]; try discriminate. intros W _. unfold wf in W. cbn in W.
  unfold tensor_has_value, elements. cbn [sh dat fill fsc bind].
  change (@mkT N s (DF l)) with (mkF s l). change (@mkT N s (DF (repeat x (prod s)))) with (mkF s (repeat x (prod s))).
  unfold tequal. rewrite (tcmp_same feq Z.eqb s l (repeat x (prod s))). cbn [bind treduce_any dat].
  rewrite map2_repeat_r by assumption. f_equal. f_equal. clear. induction l; cbn; congruence.
Qed.
Lemma has_nan t : dtype_of t = F32 -> tensor_has_nan t = Ok (bsc (existsb fisnan (elements t))).
Proof.
  destruct t as [s [l|l|l]]; try discriminate. intros _. unfold tensor_has_nan, elements. cbn.
  f_equal. f_equal. induction l; cbn; congruence.
Qed.
Lemma exists_in (h : tensor -> list F) (q : F -> bool) l :
  existsb (fun t => existsb q (h t)) l = true <-> exists t y, In t l /\ In y (h t) /\ q y = true.
Proof.
  rewrite existsb_exists. split.
  - intros (t & Ht & H). apply existsb_exists in H as (y & Hy & Hq). eauto 6.
  - intros (t & y & Ht & Hy & Hq). exists t. split; auto. apply existsb_exists. eauto.
Qed.
Theorem any_value_law v x : genuine v -> all_floats v ->
  exists b, any_value v x = Ok (bsc b) /\
    (b = true <-> exists t y, In t (leaves v) /\ In y (elements t) /\ feq y x = true).
Proof.
  intros [P W] AF. exists (existsb (fun t => existsb (fun y => feq y x) (elements t)) (leaves v)).
  split; [|apply exists_in]. apply any_leaf_ok; auto.
  intros t Ht. unfold all_floats in AF. rewrite Forall_forall in W, AF. apply has_value; auto.
Qed.
Theorem any_nan_law v : genuine v -> all_floats v ->
  exists b, any_nan v = Ok (bsc b) /\
    (b = true <-> exists t y, In t (leaves v) /\ In y (elements t) /\ fisnan y = true).
Proof.
  intros [P W] AF. exists (existsb (fun t => existsb fisnan (elements t)) (leaves v)).
  split; [|apply exists_in]. apply any_leaf_ok; auto.
  intros t Ht. unfold all_floats in AF. rewrite Forall_forall in W, AF. apply has_nan; auto.
Qed.
End HelperFacts.

(** ** filter_with_mask and map_consecutive_fn *)
Definition pick {A} (mask : list bool) (values : list A) : list A :=
  map snd (filter fst (combine mask values)).
Lemma set_nth_mid {A} (a : list A) x y b : set_nth (length a) x (a ++ y :: b) = a ++ x :: b.
Proof. induction a; cbn; congruence. Qed.
Lemma skipn_nth_error {A} n (l : list A) x : nth_error l n = Some x -> skipn n l = x :: skipn (S n) l.
Proof. revert l; induction n as [|n IH]; intros [|y l] H; try discriminate; cbn in *; [congruence|]. now apply IH. Qed.
Lemma skipn_tl {A} n (l : list A) : skipn (S n) l = tl (skipn n l).
Proof. revert l; induction n as [|n IH]; intros [|y l]; try reflexivity. cbn [skipn] in *. now rewrite <- IH. Qed.
Lemma fwm_loop {A} (mask : list bool) (values : list A) :
  (forall i, nth_error mask i = Some true -> i < length values) ->
  forall rest done got, mask = done ++ rest ->
  tf_while (length rest) (fun v : nat * nat * list (option A) => Nat.ltb (fst (fst v)) (length mask)) (fwm_body mask values)
    (length done, length got, map Some got ++ repeat None (count_true rest))
  = Ok (length mask, length got + count_true rest, map Some (got ++ pick rest (skipn (length done) values))).
Proof.
  intros Hv. induction rest as [|b rest IH]; intros done got E.
  - rewrite app_nil_r in E. subst done. cbn [length tf_while fst]. rewrite Nat.ltb_irrefl.
    change (count_true []) with 0. change (pick [] (skipn (length mask) values)) with (@nil A).
    cbn [repeat]. now rewrite !app_nil_r, Nat.add_0_r.
  - assert (L : length done < length mask) by (rewrite E, app_length; cbn; lia).
    cbn [length tf_while fst]. apply Nat.ltb_lt in L. rewrite L. unfold fwm_body at 1.
    assert (Nb : nth_error mask (length done) = Some b).
    { rewrite E, nth_error_app2, Nat.sub_diag by lia. reflexivity. }
    rewrite Nb.
    assert (E' : mask = (done ++ [b]) ++ rest) by (rewrite <- app_assoc; exact E).
    destruct b.
    + destruct (nth_error values (length done)) as [x|] eqn:Ex.
      2:{ apply nth_error_None in Ex. specialize (Hv _ Nb). lia. }
      change (count_true (true :: rest)) with (S (count_true rest)). cbn [repeat].
      rewrite nth_error_app2 by (rewrite map_length; lia). rewrite map_length, Nat.sub_diag. cbn [nth_error bind].
      assert (Es : set_nth (length got) (Some x) (map Some got ++ None :: repeat None (count_true rest))
         = map Some (got ++ [x]) ++ repeat None (count_true rest)).
      { rewrite <- (map_length Some got) at 1. rewrite set_nth_mid, map_app, <- app_assoc. reflexivity. }
      rewrite Es. specialize (IH (done ++ [true]) (got ++ [x]) E').
      rewrite !app_length in IH. cbn [length] in IH. rewrite !Nat.add_1_r in IH. rewrite IH.
      rewrite (skipn_nth_error _ _ _ Ex). unfold pick. cbn [combine filter fst map snd].
      rewrite <- app_assoc. cbn [app]. now rewrite Nat.add_succ_r.
    + cbn [bind]. specialize (IH (done ++ [false]) got E').
      rewrite app_length in IH. cbn [length] in IH. rewrite Nat.add_1_r in IH.
      change (count_true (false :: rest)) with (count_true rest). rewrite IH. rewrite skipn_tl.
      unfold pick. destruct (skipn (length done) values); cbn; [now rewrite combine_nil|reflexivity].
Qed.
Theorem filter_law {A} (mask : list bool) (values : list A) :
  (forall i, nth_error mask i = Some true -> i < length values) ->
  filter_with_mask mask values = Ok (map snd (filter fst (combine mask values))).
Proof.
  intros Hv. unfold filter_with_mask.
  assert (K := fwm_loop mask values Hv mask [] [] eq_refl). cbn [length map app skipn] in K. rewrite K. cbn [bind].
  rewrite mapM_map. rewrite (mapM_Ok (fun x : A => x)). now rewrite map_id.
Qed.
Lemma pick_loop_none {A} (mask : list bool) (values : list A) i : nth_error mask i = Some true -> length values <= i ->
  forall rest done out k r, mask = done ++ rest -> length done <= i ->
  tf_while (length rest) (fun v : nat * nat * list (option A) => Nat.ltb (fst (fst v)) (length mask)) (fwm_body mask values)
    (length done, k, out) <> Ok r.
Proof.
  intros Hi Hv. induction rest as [|b rest IH]; intros done out k r E Hd.
  - rewrite app_nil_r in E. subst done. assert (i < length mask) by (apply nth_error_Some; congruence). lia.
  - assert (L : length done < length mask) by (rewrite E, app_length; cbn; lia).
    cbn [length tf_while fst]. apply Nat.ltb_lt in L. rewrite L. unfold fwm_body at 1.
    assert (Nb : nth_error mask (length done) = Some b) by (rewrite E, nth_error_app2, Nat.sub_diag by lia; reflexivity).
    rewrite Nb. assert (E' : mask = (done ++ [b]) ++ rest) by (rewrite <- app_assoc; exact E).
    assert (Ld : length (done ++ [b]) = S (length done)) by (rewrite app_length; cbn; lia).
    destruct b.
    + destruct (nth_error values (length done)) as [x|] eqn:Ex; [|cbn [bind]; discriminate].
      assert (length done < length values) by (apply nth_error_Some; congruence).
      destruct (nth_error out k) as [[y|]|]; cbn [bind]; try discriminate. rewrite <- Ld. apply IH; [exact E'|lia].
    + cbn [bind]. rewrite <- Ld. apply IH; [exact E'|]. assert (length done <> i) by congruence. lia.
Qed.
Theorem filter_fails {A} (mask : list bool) (values : list A) i :
  nth_error mask i = Some true -> length values <= i -> exists e, filter_with_mask mask values = Err e.
Proof.
  intros Hi Hv. destruct (filter_with_mask mask values) as [r|e] eqn:E; [|eauto]. exfalso.
  unfold filter_with_mask in E. apply bind_ok in E as (w & H & _). revert H. apply (pick_loop_none mask values i Hi Hv mask []); [reflexivity|cbn; lia].
Qed.
Lemma combine_nth_len {A} (l : list A) : length (combine (tl l) (removelast l)) = length l - 1.
Proof.
  rewrite combine_length. replace (length (removelast l)) with (length l - 1); [destruct l; cbn; lia|].
  induction l as [|x [|y l] IH]; cbn in *; lia.
Qed.
Lemma nth_removelast {A} (l : list A) i d : i < length l - 1 -> nth i (removelast l) d = nth i l d.
Proof.
  revert i; induction l as [|x l IH]; intros i H; [cbn in H; lia|]. destruct l as [|y l]; [cbn in H; lia|].
  destruct i as [|i]; [reflexivity|]. change (removelast (x :: y :: l)) with (x :: removelast (y :: l)).
  cbn [nth]. apply IH. cbn [length] in *. lia.
Qed.
Lemma nth_tl {A} (l : list A) i d : nth i (tl l) d = nth (S i) l d.
Proof. destruct l; [now destruct i|reflexivity]. Qed.
Theorem consecutive_law {A B} (f : A -> A -> B) l d e :
  length (map_consecutive_fn f l) = length l - 1 /\
  forall i, S i < length l -> nth i (map_consecutive_fn f l) e = f (nth (S i) l d) (nth i l d).
Proof.
  unfold map_consecutive_fn. split; [now rewrite map_length, combine_nth_len|].
  intros i Hi. rewrite (nth_indep _ e (f d d)) by (rewrite map_length, combine_nth_len; lia).
  change (f d d) with ((fun x => f (fst x) (snd x)) (d, d)). rewrite map_nth. 
  assert (L : length (tl l) = length (removelast l)).
  { assert (K := combine_nth_len l). rewrite combine_length in K.
    assert (K1 : length (tl l) = length l - 1) by (destruct l; cbn; lia).
    assert (K2 : length (removelast l) = length l - 1).
    { clear. induction l as [|x [|y l] IH]; cbn in *; lia. } lia. }
  rewrite combine_nth by assumption. cbn [fst snd]. rewrite nth_tl, nth_removelast by lia. reflexivity.
Qed.
