(** * PyFacts: lemmas about nested values, [map_fn], [flatten], [pv_eqb]. *)
From Coq Require Import String List ZArith Bool Lia.
From Verif Require Import Num Py.
Import ListNotations.

(** ** Error monad *)
Lemma bind_ok {A B} (r : res A) (k : A -> res B) b :
  bind r k = Ok b <-> exists a, r = Ok a /\ k a = Ok b.
Proof.
  destruct r; simpl; split; intros H; eauto; try discriminate.
  - destruct H as (a' & E & H). now injection E as <-.
  - destruct H as (a' & E & H). discriminate.
Qed.

Lemma mapM_cons {A B} (f : A -> res B) x l :
  mapM f (x :: l) = let* y := f x in let* ys := mapM f l in Ok (y :: ys).
Proof. reflexivity. Qed.

Lemma mapM_ok_iff {A B} (f : A -> res B) l l' :
  mapM f l = Ok l' <-> Forall2 (fun x y => f x = Ok y) l l'.
Proof.
  revert l'; induction l as [|x l IH]; intros l'; simpl.
  - split; intros H; [injection H as <-; constructor|inversion H; reflexivity].
  - split; intros H.
    + apply bind_ok in H as (y & Hy & H). apply bind_ok in H as (ys & Hys & H).
      injection H as <-. constructor; auto. now apply IH.
    + inversion H as [|? y ? ys Hy Hys]; subst. simpl in *. rewrite Hy. simpl.
      apply IH in Hys. rewrite Hys. reflexivity.
Qed.

Lemma mapM_ext {A B} (f g : A -> res B) l :
  (forall x, In x l -> f x = g x) -> mapM f l = mapM g l.
Proof.
  induction l as [|x l IH]; intros H; [reflexivity|].
  rewrite !mapM_cons, (H x), IH; simpl; auto. intros y Hy. apply H. now right.
Qed.

Lemma mapM_Ok {A B} (f : A -> B) l : mapM (fun x => Ok (f x)) l = Ok (map f l).
Proof. induction l as [|x l IH]; simpl; [reflexivity|]. now rewrite IH. Qed.

Lemma mapM_length {A B} (f : A -> res B) l l' : mapM f l = Ok l' -> length l' = length l.
Proof. intros H. apply mapM_ok_iff in H. induction H; simpl; congruence. Qed.

Lemma mapM_map {A B C} (f : A -> B) (g : B -> res C) l :
  mapM g (map f l) = mapM (fun x => g (f x)) l.
Proof. induction l as [|x l IH]; simpl; [reflexivity|]. now rewrite IH. Qed.

(** ** Induction on nested values *)
Section Ind.
Context {A : Type} (P : pyval A -> Prop).
Hypothesis Hleaf : forall a, P (Leaf a).
Hypothesis Htup : forall l, Forall P l -> P (Tup l).
Hypothesis Hlst : forall l, Forall P l -> P (Lst l).
Hypothesis Hdct : forall l, Forall (fun kv => P (snd kv)) l -> P (Dct l).
Hypothesis Hgen : forall l, Forall P l -> P (Gen l).
Fixpoint pyval_ind' (v : pyval A) : P v :=
  let go := fix go (l : list (pyval A)) : Forall P l :=
    match l with [] => Forall_nil _ | x :: r => Forall_cons _ (pyval_ind' x) (go r) end in
  match v with
  | Leaf a => Hleaf a
  | Tup l => Htup l (go l)
  | Lst l => Hlst l (go l)
  | Dct l => Hdct l ((fix god (l : list (string * pyval A)) : Forall (fun kv => P (snd kv)) l :=
      match l with
      | [] => Forall_nil _
      | x :: r => Forall_cons _ (pyval_ind' (snd x)) (god r)
      end) l)
  | Gen l => Hgen l (go l)
  end.
End Ind.

(** ** Python values proper: dict keys are distinct and there is no generator. *)
Fixpoint pyok {A} (v : pyval A) : Prop :=
  match v with
  | Leaf _ => True
  | Tup l | Lst l => fold_right (fun x p => pyok x /\ p) True l
  | Dct l => NoDup (map fst l) /\ fold_right (fun kv p => pyok (snd kv) /\ p) True l
  | Gen _ => False
  end.

Lemma fold_and_Forall {A} (P : A -> Prop) l :
  fold_right (fun x p => P x /\ p) True l <-> Forall P l.
Proof.
  induction l; simpl; split; intros H; auto.
  - destruct H. constructor; auto. now apply IHl.
  - inversion H; subst. split; auto. now apply IHl.
Qed.

Lemma pyok_tup {A} (l : list (pyval A)) : pyok (Tup l) <-> Forall pyok l.
Proof. apply fold_and_Forall. Qed.
Lemma pyok_lst {A} (l : list (pyval A)) : pyok (Lst l) <-> Forall pyok l.
Proof. apply fold_and_Forall. Qed.
Lemma pyok_dct {A} (l : list (string * pyval A)) :
  pyok (Dct l) <-> NoDup (map fst l) /\ Forall (fun kv => pyok (snd kv)) l.
Proof. simpl. rewrite (fold_and_Forall (fun kv => pyok (snd kv))). reflexivity. Qed.

(** Leaves in order. *)
Fixpoint leaves {A} (v : pyval A) : list A :=
  match v with
  | Leaf a => [a]
  | Tup l | Lst l | Gen l => flat_map leaves l
  | Dct l => flat_map (fun kv => leaves (snd kv)) l
  end.

Lemma vmap_ext {A B} (f g : A -> B) v :
  (forall a, In a (leaves v) -> f a = g a) -> vmap f v = vmap g v.
Proof.
  induction v as [a|l IH|l IH|l IH|l IH] using pyval_ind'; simpl; intros H;
    try (f_equal; apply H; now left).
  1,2,4: f_equal; induction IH as [|x l Hx _ IHl]; simpl; [reflexivity|];
    simpl in H; f_equal; [apply Hx|apply IHl]; intros a Ha; apply H; apply in_or_app; auto.
  f_equal. induction IH as [|x l Hx _ IHl]; simpl; [reflexivity|].
  simpl in H. f_equal; [f_equal; apply Hx|apply IHl]; intros a Ha; apply H; apply in_or_app; auto.
Qed.

Lemma vmap_vmap {A B C} (f : A -> B) (g : B -> C) v : vmap g (vmap f v) = vmap (fun a => g (f a)) v.
Proof.
  induction v as [a|l IH|l IH|l IH|l IH] using pyval_ind'; simpl; auto.
  1,2,4: f_equal; rewrite map_map; induction IH; simpl; congruence.
  f_equal. rewrite map_map. simpl. induction IH; simpl; congruence.
Qed.

Lemma vmap_id {A} (v : pyval A) : vmap (fun a => a) v = v.
Proof.
  induction v as [a|l IH|l IH|l IH|l IH] using pyval_ind'; simpl; auto.
  1,2,4: f_equal; induction IH; simpl; congruence.
  f_equal. induction IH as [|[k x] l Hx _ IHl]; simpl in *; congruence.
Qed.

Lemma leaves_vmap {A B} (f : A -> B) v : leaves (vmap f v) = map f (leaves v).
Proof.
  induction v as [a|l IH|l IH|l IH|l IH] using pyval_ind'; simpl; auto.
  1,2,4: induction IH; simpl; auto; rewrite map_app; congruence.
  induction IH as [|x l Hx _ IHl]; simpl; auto; rewrite map_app; congruence.
Qed.

Lemma pyok_vmap {A B} (f : A -> B) v : pyok (vmap f v) <-> pyok v.
Proof.
  induction v as [a|l IH|l IH|l IH|l IH] using pyval_ind'; cbn [vmap]; try tauto.
  - rewrite !pyok_tup, Forall_map. induction IH; [split; constructor|].
    rewrite !Forall_cons_iff. tauto.
  - rewrite !pyok_lst, Forall_map. induction IH; [split; constructor|].
    rewrite !Forall_cons_iff. tauto.
  - rewrite !pyok_dct, map_map, Forall_map. simpl.
    assert (Forall (fun x => pyok (vmap f (snd x))) l <-> Forall (fun kv => pyok (snd kv)) l).
    { induction IH; [split; constructor|]. rewrite !Forall_cons_iff. tauto. }
    tauto.
Qed.

(** Structure without leaves. *)
Definition sk {A} (v : pyval A) : pyval unit := vmap (fun _ => tt) v.
Lemma sk_vmap {A B} (f : A -> B) v : sk (vmap f v) = sk v.
Proof. unfold sk. now rewrite vmap_vmap. Qed.
Lemma pyok_sk {A} (v : pyval A) : pyok (sk v) <-> pyok v.
Proof. apply pyok_vmap. Qed.

(** ** Canonical numbering: a value is its structure filled with its leaves. *)
Fixpoint number {A} (k : nat) (v : pyval A) : pyval nat :=
  let go := fix go (k : nat) (l : list (pyval A)) : list (pyval nat) :=
    match l with [] => [] | x :: r => number k x :: go (k + length (leaves x)) r end in
  match v with
  | Leaf _ => Leaf k
  | Tup l => Tup (go k l)
  | Lst l => Lst (go k l)
  | Gen l => Gen (go k l)
  | Dct l => Dct ((fix god (k : nat) (l : list (string * pyval A)) :=
      match l with
      | [] => []
      | (n, x) :: r => (n, number k x) :: god (k + length (leaves x)) r
      end) k l)
  end.
Definition number_l {A} := fix go (k : nat) (l : list (pyval A)) : list (pyval nat) :=
    match l with [] => [] | x :: r => number k x :: go (k + length (leaves x)) r end.
Definition number_d {A} := fix god (k : nat) (l : list (string * pyval A)) :=
      match l with
      | [] => []
      | (n, x) :: r => (n, number k x) :: god (k + length (leaves x)) r
      end.

Lemma number_sk {A B} (v : pyval A) : forall (w : pyval B) k, sk v = sk w -> number k v = number k w.
Proof.
  assert (HL : forall (v : pyval A), (forall (w : pyval B) k, sk v = sk w -> number k v = number k w
                /\ length (leaves v) = length (leaves w))).
  2:{ intros w k H. now apply HL. }
  clear v. intros v.
  induction v as [a|l IH|l IH|l IH|l IH] using pyval_ind'; intros w k H;
    destruct w as [b|m|m|m|m]; try discriminate H.
  - split; reflexivity.
  - change (number k (Tup l)) with (Tup (number_l k l)).
    change (number k (Tup m)) with (Tup (number_l k m)).
    injection H as H. simpl. 
    assert (G : number_l k l = number_l k m /\ length (flat_map leaves l) = length (flat_map leaves m)).
    { revert k m H. induction IH as [|x l Hx _ IHl]; intros k m H; destruct m as [|y m]; try discriminate H.
      - auto.
      - injection H as H1 H2. simpl. destruct (Hx y k H1) as [E1 E2].
        rewrite E2. destruct (IHl (k + length (leaves y)) m H2) as [E3 E4].
        rewrite E1, !app_length, E2. split; congruence. }
    destruct G; split; congruence.
  - change (number k (Lst l)) with (Lst (number_l k l)).
    change (number k (Lst m)) with (Lst (number_l k m)).
    injection H as H. simpl. 
    assert (G : number_l k l = number_l k m /\ length (flat_map leaves l) = length (flat_map leaves m)).
    { revert k m H. induction IH as [|x l Hx _ IHl]; intros k m H; destruct m as [|y m]; try discriminate H.
      - auto.
      - injection H as H1 H2. simpl. destruct (Hx y k H1) as [E1 E2].
        rewrite E2. destruct (IHl (k + length (leaves y)) m H2) as [E3 E4].
        rewrite E1, !app_length, E2. split; congruence. }
    destruct G; split; congruence.
  - change (number k (Dct l)) with (Dct (number_d k l)).
    change (number k (Dct m)) with (Dct (number_d k m)).
    injection H as H. simpl. 
    assert (G : number_d k l = number_d k m /\
       length (flat_map (fun kv => leaves (snd kv)) l) = length (flat_map (fun kv => leaves (snd kv)) m)).
    { revert k m H. induction IH as [|[n x] l Hx _ IHl]; intros k m H; destruct m as [|[n' y] m]; try discriminate H.
      - auto.
      - injection H as H0 H1 H2. simpl in *. destruct (Hx y k H1) as [E1 E2].
        rewrite E2. destruct (IHl (k + length (leaves y)) m H2) as [E3 E4].
        rewrite E1, !app_length, E2. split; congruence. }
    destruct G; split; congruence.
  - change (number k (Gen l)) with (Gen (number_l k l)).
    change (number k (Gen m)) with (Gen (number_l k m)).
    injection H as H. simpl. 
    assert (G : number_l k l = number_l k m /\ length (flat_map leaves l) = length (flat_map leaves m)).
    { revert k m H. induction IH as [|x l Hx _ IHl]; intros k m H; destruct m as [|y m]; try discriminate H.
      - auto.
      - injection H as H1 H2. simpl. destruct (Hx y k H1) as [E1 E2].
        rewrite E2. destruct (IHl (k + length (leaves y)) m H2) as [E3 E4].
        rewrite E1, !app_length, E2. split; congruence. }
    destruct G; split; congruence.
Qed.

Lemma vmap_number {A} (d : A) (v : pyval A) : forall k (pre post : list A),
  length pre = k -> vmap (fun j => nth j (pre ++ leaves v ++ post) d) (number k v) = v.
Proof.
  induction v as [a|l IH|l IH|l IH|l IH] using pyval_ind'; intros k pre post Hk.
  - simpl. f_equal. rewrite app_nth2, Hk, Nat.sub_diag; [reflexivity|lia].
  - change (number k (Tup l)) with (Tup (number_l k l)). simpl. f_equal.
    revert k pre Hk. induction IH as [|x l Hx _ IHl]; intros k pre Hk; [reflexivity|].
    simpl. f_equal.
    + rewrite <- app_assoc. apply Hx, Hk.
    + specialize (IHl (k + length (leaves x)) (pre ++ leaves x)).
      rewrite !app_length, Hk in IHl. specialize (IHl eq_refl).
      rewrite <- !app_assoc in *. exact IHl.
  - change (number k (Lst l)) with (Lst (number_l k l)). simpl. f_equal.
    revert k pre Hk. induction IH as [|x l Hx _ IHl]; intros k pre Hk; [reflexivity|].
    simpl. f_equal.
    + rewrite <- app_assoc. apply Hx, Hk.
    + specialize (IHl (k + length (leaves x)) (pre ++ leaves x)).
      rewrite !app_length, Hk in IHl. specialize (IHl eq_refl).
      rewrite <- !app_assoc in *. exact IHl.
  - change (number k (Dct l)) with (Dct (number_d k l)). simpl. f_equal.
    revert k pre Hk. induction IH as [|[n x] l Hx _ IHl]; intros k pre Hk; [reflexivity|].
    simpl in *. f_equal; [f_equal|].
    + rewrite <- app_assoc. apply Hx, Hk.
    + specialize (IHl (k + length (leaves x)) (pre ++ leaves x)).
      rewrite !app_length, Hk in IHl. specialize (IHl eq_refl).
      rewrite <- !app_assoc in *. exact IHl.
  - change (number k (Gen l)) with (Gen (number_l k l)). simpl. f_equal.
    revert k pre Hk. induction IH as [|x l Hx _ IHl]; intros k pre Hk; [reflexivity|].
    simpl. f_equal.
    + rewrite <- app_assoc. apply Hx, Hk.
    + specialize (IHl (k + length (leaves x)) (pre ++ leaves x)).
      rewrite !app_length, Hk in IHl. specialize (IHl eq_refl).
      rewrite <- !app_assoc in *. exact IHl.
Qed.

(** Every value is its numbered structure filled with its leaves; values of equal
    structure have equal numbered structures. *)
Lemma fill_number {A} (d : A) v : vmap (fun j => nth j (leaves v) d) (number 0 v) = v.
Proof.
  transitivity (vmap (fun j => nth j ([] ++ leaves v ++ []) d) (number 0 v)).
  - apply vmap_ext. intros j _. simpl. now rewrite app_nil_r.
  - now apply vmap_number.
Qed.

Lemma sk_number {A} (v : pyval A) : forall k, sk (number k v) = sk v.
Proof.
  induction v as [a|l IH|l IH|l IH|l IH] using pyval_ind'; intros k; [reflexivity|..];
    cbn [number]; unfold sk; cbn [vmap]; f_equal.
  1,2,4: revert k; induction IH as [|x l0 Hx _ IHl]; intros k; [reflexivity|];
        simpl in *; f_equal; [now apply Hx|now apply IHl].
  revert k; induction IH as [|[n x] l0 Hx _ IHl]; intros k; [reflexivity|].
  simpl in *; f_equal; [f_equal; now apply Hx|now apply IHl].
Qed.

(** ** [map_fn] on values of equal structure *)
Fixpoint vmapM {A B} (g : A -> res (pyval B)) (v : pyval A) : res (pyval B) :=
  match v with
  | Leaf a => g a
  | Tup l => let* r := mapM (vmapM g) l in Ok (Tup r)
  | Lst l => let* r := mapM (vmapM g) l in Ok (Lst r)
  | Dct l => let* r := mapM (fun kv => let* y := vmapM g (snd kv) in Ok (fst kv, y)) l in Ok (Dct r)
  | Gen l => Err EType
  end.

Lemma heads_map {A B} (f : B -> A) (g : B -> list A) bs :
  heads (map (fun b => f b :: g b) bs) = Some (map f bs, map g bs).
Proof. induction bs as [|b bs IH]; simpl; [reflexivity|]. now rewrite IH. Qed.

Lemma assoc_in {A} k (x : A) l : NoDup (map fst l) -> In (k, x) l -> assoc k l = Some x.
Proof.
  induction l as [|[k' y] l IH]; simpl; intros ND H; [easy|].
  inversion ND as [|? ? Hk ND']; subst.
  destruct H as [E|H].
  - injection E as -> ->. now rewrite String.eqb_refl.
  - destruct (String.eqb_spec k k') as [->|NE]; [|now apply IH].
    exfalso. apply Hk. apply in_map_iff. now exists (k', x).
Qed.

Lemma assoc_map {A B} (f : A -> B) k (l : list (string * A)) :
  assoc k (map (fun kv => (fst kv, f (snd kv))) l) = option_map f (assoc k l).
Proof.
  induction l as [|[k' y] l IH]; simpl; [reflexivity|]. now destruct (String.eqb k k').
Qed.

Lemma map_fn_vmap {I A B} (f : list (pyval A) -> res (pyval B)) (s : pyval I) :
  pyok s -> forall (g0 : I -> A) (gs : list (I -> A)),
  map_fn f (vmap g0 s) (map (fun g => vmap g s) gs)
  = vmapM (fun i => f (map (fun g => Leaf (g i)) gs)) s.
Proof.
  induction s as [a|l IH|l IH|l IH|l IH] using pyval_ind'; intros Hok g0 gs.
  - reflexivity.
  - apply pyok_tup in Hok. cbn [vmap map_fn vmapM].
    assert (E : mapM iter (map (fun g : I -> A => Tup (map (vmap g) l)) gs)
                = Ok (map (fun g => map (vmap g) l) gs)).
    { rewrite mapM_map. apply (mapM_Ok (fun g : I -> A => map (vmap g) l)). }
    rewrite E. cbn [bind].
    match goal with |- bind ?a _ = bind ?b _ => assert (H : a = b) end;
      [clear E|now rewrite H].
    induction IH as [|x l Hx _ IHl]; [reflexivity|].
    inversion Hok; subst. cbn [map].
    rewrite (heads_map (fun g => vmap g x) (fun g => map (vmap g) l)).
    rewrite Hx by assumption. cbn [mapM]. rewrite IHl by assumption. reflexivity.
  - apply pyok_lst in Hok. cbn [vmap map_fn vmapM].
    assert (E : mapM iter (map (fun g : I -> A => Lst (map (vmap g) l)) gs)
                = Ok (map (fun g => map (vmap g) l) gs)).
    { rewrite mapM_map. apply (mapM_Ok (fun g : I -> A => map (vmap g) l)). }
    rewrite E. cbn [bind].
    match goal with |- bind ?a _ = bind ?b _ => assert (H : a = b) end;
      [clear E|now rewrite H].
    induction IH as [|x l Hx _ IHl]; [reflexivity|].
    inversion Hok; subst. cbn [map].
    rewrite (heads_map (fun g => vmap g x) (fun g => map (vmap g) l)).
    rewrite Hx by assumption. cbn [mapM]. rewrite IHl by assumption. reflexivity.
  - apply pyok_dct in Hok as [ND Hok]. cbn [vmap map_fn vmapM].
    match goal with |- bind ?a _ = bind ?b _ => assert (H : a = b) end;
      [|now rewrite H].
    assert (K : forall k x, In (k, x) l ->
      mapM (getkey k) (map (fun g : I -> A => Dct (map (fun kv => (fst kv, vmap g (snd kv))) l)) gs)
      = Ok (map (fun g => vmap g x) gs)).
    { intros k x Hin. rewrite mapM_map.
      rewrite (mapM_ext _ (fun g => Ok (vmap g x))); [apply mapM_Ok|].
      intros g _. simpl. now rewrite assoc_map, (assoc_in k x) by assumption. }
    clear ND. revert K.
    match goal with |- context [mapM (getkey _) ?os] => generalize os end. intros os K.
    induction IH as [|[k x] l Hx _ IHl]; [reflexivity|].
    inversion Hok; subst. cbn [map fst snd mapM] in *.
    rewrite (K k x) by now left. cbn [bind].
    rewrite Hx by assumption.
    destruct (vmapM _ x); cbn [bind]; [|reflexivity].
    rewrite IHl; auto. intros k' x' Hin. apply K. now right.
  - destruct Hok.
Qed.

Lemma vmapM_ok {A B} (h : A -> res B) (k : A -> B) s :
  pyok s -> (forall i, In i (leaves s) -> h i = Ok (k i)) ->
  vmapM (fun i => let* y := h i in Ok (Leaf y)) s = Ok (vmap k s).
Proof.
  induction s as [a|l IH|l IH|l IH|l IH] using pyval_ind'; intros Hok H.
  - simpl. rewrite H by now left. reflexivity.
  - apply pyok_tup in Hok. cbn [vmapM vmap].
    assert (E : mapM (vmapM (fun i => let* y := h i in Ok (Leaf y))) l = Ok (map (vmap k) l)).
    { simpl in H. induction IH as [|x l Hx _ IHl]; [reflexivity|].
      inversion Hok; subst. cbn [mapM map]. simpl in H.
      rewrite Hx; auto; [|intros i Hi; apply H; apply in_or_app; auto]. cbn [bind].
      rewrite IHl; auto. intros i Hi; apply H; apply in_or_app; auto. }
    rewrite E. reflexivity.
  - apply pyok_lst in Hok. cbn [vmapM vmap].
    assert (E : mapM (vmapM (fun i => let* y := h i in Ok (Leaf y))) l = Ok (map (vmap k) l)).
    { simpl in H. induction IH as [|x l Hx _ IHl]; [reflexivity|].
      inversion Hok; subst. cbn [mapM map]. simpl in H.
      rewrite Hx; auto; [|intros i Hi; apply H; apply in_or_app; auto]. cbn [bind].
      rewrite IHl; auto. intros i Hi; apply H; apply in_or_app; auto. }
    rewrite E. reflexivity.
  - apply pyok_dct in Hok as [_ Hok]. cbn [vmapM vmap].
    match goal with |- bind ?a _ = _ =>
      assert (E : a = Ok (map (fun kv => (fst kv, vmap k (snd kv))) l)) end.
    { simpl in H. induction IH as [|x l Hx _ IHl]; [reflexivity|].
      inversion Hok; subst. cbn [mapM map]. simpl in H.
      rewrite Hx; auto; [|intros i Hi; apply H; apply in_or_app; auto]. cbn [bind].
      rewrite IHl; auto. intros i Hi; apply H; apply in_or_app; auto. }
    rewrite E. reflexivity.
  - destruct Hok.
Qed.

Lemma vmapM_inv {A B} (h : A -> res B) s w :
  vmapM (fun i => let* y := h i in Ok (Leaf y)) s = Ok w ->
  forall i, In i (leaves s) -> exists y, h i = Ok y.
Proof.
  revert w; induction s as [a|l IH|l IH|l IH|l IH] using pyval_ind'; intros w H i Hi.
  - simpl in *. destruct Hi as [<-|[]]. apply bind_ok in H as (y & Hy & _). eauto.
  - cbn [vmapM] in H. apply bind_ok in H as (r & Hr & _). apply mapM_ok_iff in Hr.
    simpl in Hi. apply in_flat_map in Hi as (x & Hx & Hi).
    rewrite Forall_forall in IH.
    assert (exists y, In y r /\ vmapM (fun i => let* y := h i in Ok (Leaf y)) x = Ok y) as (y & _ & Hy).
    { clear -Hr Hx. induction Hr as [|a b l r Hab Hr IHr]; [destruct Hx|].
      destruct Hx as [<-|Hx]; [exists b; simpl; auto|]. destruct (IHr Hx) as (y & ? & ?). exists y; simpl; auto. }
    eapply IH; eauto.
  - cbn [vmapM] in H. apply bind_ok in H as (r & Hr & _). apply mapM_ok_iff in Hr.
    simpl in Hi. apply in_flat_map in Hi as (x & Hx & Hi).
    rewrite Forall_forall in IH.
    assert (exists y, In y r /\ vmapM (fun i => let* y := h i in Ok (Leaf y)) x = Ok y) as (y & _ & Hy).
    { clear -Hr Hx. induction Hr as [|a b l r Hab Hr IHr]; [destruct Hx|].
      destruct Hx as [<-|Hx]; [exists b; simpl; auto|]. destruct (IHr Hx) as (y & ? & ?). exists y; simpl; auto. }
    eapply IH; eauto.
  - cbn [vmapM] in H. apply bind_ok in H as (r & Hr & _). apply mapM_ok_iff in Hr.
    simpl in Hi. apply in_flat_map in Hi as (x & Hx & Hi).
    rewrite Forall_forall in IH.
    assert (exists y, vmapM (fun i => let* y := h i in Ok (Leaf y)) (snd x) = Ok y) as (y & Hy).
    { clear -Hr Hx. induction Hr as [|a b l r Hab Hr IHr]; [destruct Hx|].
      destruct Hx as [<-|Hx]; [|auto]. apply bind_ok in Hab as (y & Hy & _). eauto. }
    eapply IH; eauto.
  - discriminate H.
Qed.

Definition getok {A} (d : A) (r : res A) : A := match r with Ok a => a | Err _ => d end.

(** Both directions, with the result given as a map. *)
Lemma vmapM_iff {A B} (d : B) (h : A -> res B) s w :
  pyok s ->
  vmapM (fun i => let* y := h i in Ok (Leaf y)) s = Ok w <->
  (forall i, In i (leaves s) -> exists y, h i = Ok y) /\ w = vmap (fun i => getok d (h i)) s.
Proof.
  intros Hok.
  assert (K : (forall i, In i (leaves s) -> exists y, h i = Ok y) ->
     vmapM (fun i => let* y := h i in Ok (Leaf y)) s = Ok (vmap (fun i => getok d (h i)) s)).
  { intros H. apply vmapM_ok; auto. intros i Hi. destruct (H i Hi) as (y & ->). reflexivity. }
  split.
  - intros H. assert (G := vmapM_inv _ _ _ H). split; auto.
    specialize (K G). rewrite H in K. now injection K.
  - intros [H ->]. auto.
Qed.

(** [map_fn] with a function that only works on leaves never succeeds on a generator. *)
Lemma pv_eqb_vmap {I A B} (e : A -> B -> bool) (s : pyval I) (f : I -> A) (g : I -> B) :
  pyok s -> pv_eqb e (vmap f s) (vmap g s) = forallb (fun i => e (f i) (g i)) (leaves s).
Proof.
  induction s as [a|l IH|l IH|l IH|l IH] using pyval_ind'; intros Hok.
  - simpl. now rewrite andb_true_r.
  - apply pyok_tup in Hok. cbn [vmap pv_eqb leaves].
    induction IH as [|x l Hx _ IHl]; [reflexivity|].
    inversion Hok; subst. simpl. rewrite forallb_app, Hx, IHl by assumption. reflexivity.
  - apply pyok_lst in Hok. cbn [vmap pv_eqb leaves].
    induction IH as [|x l Hx _ IHl]; [reflexivity|].
    inversion Hok; subst. simpl. rewrite forallb_app, Hx, IHl by assumption. reflexivity.
  - apply pyok_dct in Hok as [ND Hok]. cbn [vmap pv_eqb leaves].
    rewrite !map_length, Nat.eqb_refl. cbn [andb].
    assert (K : forall k x, In (k, x) l ->
       assoc k (map (fun kv => (fst kv, vmap g (snd kv))) l) = Some (vmap g x)).
    { intros k x Hin. now rewrite assoc_map, (assoc_in k x). }
    clear ND. revert K.
    match goal with |- context [assoc _ ?os] => generalize os end. intros os K.
    induction IH as [|[k x] l Hx _ IHl]; [reflexivity|].
    inversion Hok; subst. cbn [map fst snd flat_map] in *.
    rewrite (K k x) by now left. rewrite forallb_app, Hx by assumption. f_equal.
    apply IHl; auto. intros k' x' Hin. apply K. now right.
  - destruct Hok.
Qed.

Lemma flatten_ok {A} (v : pyval A) : pyok v -> flatten v = map Leaf (leaves v).
Proof.
  induction v as [a|l IH|l IH|l IH|l IH] using pyval_ind'; intros Hok.
  - reflexivity.
  - apply pyok_tup in Hok. simpl. induction IH as [|x l Hx _ IHl]; [reflexivity|].
    inversion Hok; subst. simpl. rewrite map_app, Hx, IHl by assumption. reflexivity.
  - apply pyok_lst in Hok. simpl. induction IH as [|x l Hx _ IHl]; [reflexivity|].
    inversion Hok; subst. simpl. rewrite map_app, Hx, IHl by assumption. reflexivity.
  - apply pyok_dct in Hok as [_ Hok]. simpl. induction IH as [|[k x] l Hx _ IHl]; [reflexivity|].
    inversion Hok; subst. simpl in *. rewrite map_app, Hx, IHl by assumption. reflexivity.
  - destruct Hok.
Qed.

Lemma vmapM_ext {A B} (f g : A -> res (pyval B)) v :
  (forall a, In a (leaves v) -> f a = g a) -> vmapM f v = vmapM g v.
Proof.
  induction v as [a|l IH|l IH|l IH|l IH] using pyval_ind'; simpl; intros H.
  - apply H. now left.
  - replace (mapM (vmapM f) l) with (mapM (vmapM g) l); [reflexivity|].
    induction IH as [|x l Hx _ IHl]; simpl; [reflexivity|]. simpl in H.
    rewrite Hx, IHl; auto; intros a Ha; apply H; apply in_or_app; auto.
  - replace (mapM (vmapM f) l) with (mapM (vmapM g) l); [reflexivity|].
    induction IH as [|x l Hx _ IHl]; simpl; [reflexivity|]. simpl in H.
    rewrite Hx, IHl; auto; intros a Ha; apply H; apply in_or_app; auto.
  - match goal with |- bind ?a _ = bind ?b _ => assert (E : a = b) end; [|now rewrite E].
    induction IH as [|x l Hx _ IHl]; simpl; [reflexivity|]. simpl in H.
    rewrite Hx, IHl; auto; intros a Ha; apply H; apply in_or_app; auto.
  - reflexivity.
Qed.
