(** * TensorFacts: rows and stacks. *)
From Coq Require Import String List ZArith Bool Lia.
From Verif Require Import Num Py PyFacts Tensor Streamable Spec StreamFacts.
Import ListNotations.

Section TensorFacts.
Context {N : FOps}.

Definition fdata (t : tensor) : list F := match dat t with DF l => l | _ => [] end.
Definition idata (t : tensor) : list Z := match dat t with DI l => l | _ => [] end.
Definition bdata (t : tensor) : list bool := match dat t with DB l => l | _ => [] end.

(** Total version of [tstack]. *)
Definition stackT (ts : list tensor) : tensor :=
  mkT (length ts :: sh (hd dummy ts))
      (match dtype_of (hd dummy ts) with
       | F32 => DF (flat_map fdata ts)
       | I32 => DI (flat_map idata ts)
       | BOOL => DB (flat_map bdata ts)
       end).

Lemma dconcat_iff ts : forall d e,
  dconcat d ts = Ok e <->
  match d with
  | DF l => Forall (fun t => dtype_of t = F32) ts /\ e = DF (l ++ flat_map fdata ts)
  | DI l => Forall (fun t => dtype_of t = I32) ts /\ e = DI (l ++ flat_map idata ts)
  | DB l => Forall (fun t => dtype_of t = BOOL) ts /\ e = DB (l ++ flat_map bdata ts)
  end.
Proof.
  induction ts as [|t ts IH]; intros d e; simpl.
  - destruct d; simpl; rewrite ?app_nil_r; split; [intros H; injection H as <-; auto|intros [_ ->]; auto|..];
      try (intros H; injection H as <-; auto); intros [_ ->]; auto.
  - destruct d as [l|l|l]; unfold fdata, idata, bdata, dtype_of in *; destruct t as [s [m|m|m]]; simpl;
      rewrite ?IH; rewrite Forall_cons_iff; simpl; rewrite <- ?app_assoc; try tauto;
      (split; [discriminate|intros [[H _] _]; discriminate]).
Qed.

Lemma tstack_iff ts t :
  tstack ts = Ok t <->
  ts <> [] /\ Forall (fun u => sh u = sh (hd dummy ts) /\ dtype_of u = dtype_of (hd dummy ts)) ts /\
  t = stackT ts.
Proof.
  destruct ts as [|a ts]; simpl.
  - split; [discriminate|intros [H _]; easy].
  - destruct (forallb (fun u => shape_eqb (sh a) (sh u)) ts) eqn:E.
    + assert (ES : Forall (fun u => sh u = sh a) ts).
      { apply Forall_forall. intros u Hu. rewrite forallb_forall in E.
        specialize (E u Hu). apply shape_eqb_eq in E. auto. }
      unfold stackT. cbn [hd length flat_map].
      assert (K : forall d, Forall (fun t => dtype_of t = d) ts /\ d = dtype_of a ->
         Forall (fun u => sh u = sh a /\ dtype_of u = dtype_of a) (a :: ts)).
      { intros d [H ->]. constructor; auto. rewrite Forall_forall in *. auto. }
      assert (K' : Forall (fun u => sh u = sh a /\ dtype_of u = dtype_of a) (a :: ts) ->
         Forall (fun t => dtype_of t = dtype_of a) ts).
      { intros H. inversion H; subst. eapply Forall_impl; [|eassumption]. simpl; tauto. }
      rewrite bind_ok. split.
      * intros (d & Hd & Ht). injection Ht as <-. apply dconcat_iff in Hd.
        split; [discriminate|]. destruct (dat a) as [l|l|l] eqn:Da; destruct Hd as [Hd ->];
          (split; [eapply K; split; [exact Hd|unfold dtype_of; now rewrite Da]|]);
          destruct a as [sa da]; simpl in Da; subst da; reflexivity.
      * intros (_ & H & ->). apply K' in H.
        destruct a as [sa [l|l|l]]; simpl dat;
        (eexists; split; [apply dconcat_iff; split; [exact H|reflexivity]|]); reflexivity.
    + split; [discriminate|]. intros (_ & H & _). exfalso.
      assert (T : forallb (fun u => shape_eqb (sh a) (sh u)) ts = true); [|congruence].
      apply forallb_forall. intros u Hu. apply shape_eqb_eq.
      inversion H; subst. rewrite Forall_forall in *. symmetry. now apply H3.
Qed.

Lemma lslice_flat_map {A B} (g : A -> list B) k (l : list A) d i :
  Forall (fun a => length (g a) = k) l -> i < length l ->
  lslice (i * k) k (flat_map g l) = g (nth i l d).
Proof.
  intros H. revert i. induction H as [|a l Ha H IH]; intros i Hi; simpl in Hi; [lia|].
  unfold lslice in *. destruct i as [|i]; simpl.
  - rewrite <- Ha. rewrite firstn_app, Nat.sub_diag, firstn_O, app_nil_r. apply firstn_all.
  - rewrite skipn_app. rewrite skipn_all2 by lia. simpl.
    replace (k + i * k - length (g a)) with (i * k) by lia.
    apply IH. lia.
Qed.

Lemma flat_map_length_k {A B} (g : A -> list B) k (l : list A) :
  Forall (fun a => length (g a) = k) l -> length (flat_map g l) = length l * k.
Proof. induction 1; simpl; [reflexivity|]. rewrite app_length. lia. Qed.

Lemma tensor_eta (t : tensor) : mkT (sh t) (dat t) = t.
Proof. now destruct t. Qed.

Lemma wf_fdata t k : wf t -> dtype_of t = F32 -> prod (sh t) = k -> length (fdata t) = k.
Proof. destruct t as [s [l|l|l]]; unfold wf, dtype_of, fdata; simpl; congruence. Qed.
Lemma wf_idata t k : wf t -> dtype_of t = I32 -> prod (sh t) = k -> length (idata t) = k.
Proof. destruct t as [s [l|l|l]]; unfold wf, dtype_of, idata; simpl; congruence. Qed.
Lemma wf_bdata t k : wf t -> dtype_of t = BOOL -> prod (sh t) = k -> length (bdata t) = k.
Proof. destruct t as [s [l|l|l]]; unfold wf, dtype_of, bdata; simpl; congruence. Qed.

Lemma stackT_facts ts :
  ts <> [] -> Forall (fun u => sh u = sh (hd dummy ts) /\ dtype_of u = dtype_of (hd dummy ts)) ts ->
  Forall wf ts ->
  sh (stackT ts) = length ts :: sh (hd dummy ts) /\
  dtype_of (stackT ts) = dtype_of (hd dummy ts) /\
  wf (stackT ts) /\
  forall i, i < length ts -> trow i (stackT ts) = nth i ts dummy.
Proof.
  intros NE HS HW.
  set (a := hd dummy ts) in *.
  assert (HA : Forall (fun u => (sh u = sh a /\ dtype_of u = dtype_of a) /\ wf u) ts).
  { rewrite Forall_forall in *. auto. }
  clear HS HW.
  split; [reflexivity|]. unfold stackT. fold a.
  assert (Hnth : forall i, i < length ts -> sh (nth i ts dummy) = sh a /\ dtype_of (nth i ts dummy) = dtype_of a).
  { intros i Hi. rewrite Forall_forall in HA. apply HA. now apply nth_In. }
  destruct (dtype_of a) eqn:Da.
  - assert (L : Forall (fun t => length (fdata t) = prod (sh a)) ts).
    { eapply Forall_impl; [|exact HA]. intros t ((E1 & E2) & W). apply wf_fdata; congruence. }
    split; [reflexivity|]. split.
    + unfold wf. simpl. apply flat_map_length_k. exact L.
    + intros i Hi. unfold trow. simpl. rewrite (lslice_flat_map _ _ _ dummy) by assumption.
      destruct (Hnth i Hi) as [E1 E2]. destruct (nth i ts dummy) as [s [l|l|l]]; try discriminate E2.
      simpl in E1. subst. reflexivity.
  - assert (L : Forall (fun t => length (idata t) = prod (sh a)) ts).
    { eapply Forall_impl; [|exact HA]. intros t ((E1 & E2) & W). apply wf_idata; congruence. }
    split; [reflexivity|]. split.
    + unfold wf. simpl. apply flat_map_length_k. exact L.
    + intros i Hi. unfold trow. simpl. rewrite (lslice_flat_map _ _ _ dummy) by assumption.
      destruct (Hnth i Hi) as [E1 E2]. destruct (nth i ts dummy) as [s [l|l|l]]; try discriminate E2.
      simpl in E1. subst. reflexivity.
  - assert (L : Forall (fun t => length (bdata t) = prod (sh a)) ts).
    { eapply Forall_impl; [|exact HA]. intros t ((E1 & E2) & W). apply wf_bdata; congruence. }
    split; [reflexivity|]. split.
    + unfold wf. simpl. apply flat_map_length_k. exact L.
    + intros i Hi. unfold trow. simpl. rewrite (lslice_flat_map _ _ _ dummy) by assumption.
      destruct (Hnth i Hi) as [E1 E2]. destruct (nth i ts dummy) as [s [l|l|l]]; try discriminate E2.
      simpl in E1. subst. reflexivity.
Qed.

Lemma wf_trow n s t i : wf t -> sh t = n :: s -> i < n -> wf (trow i t).
Proof.
  intros W E Hi. unfold wf, trow in *. rewrite E in *. simpl in *.
  assert (K : forall A (l : list A), length l = n * prod s -> length (lslice (i * prod s) (prod s) l) = prod s).
  { intros A l HL. unfold lslice. rewrite firstn_length, skipn_length, HL.
    assert (i * prod s + prod s <= n * prod s) by nia. lia. }
  destruct (dat t); simpl in *; auto.
Qed.

Lemma genuine_row n v i : genuine v -> is_series n v -> i < n -> genuine (row i v).
Proof.
  intros [H1 H2] [_ H3] Hi. split; [now apply pyok_vmap|].
  unfold row. rewrite leaves_vmap, Forall_map. rewrite Forall_forall in *.
  intros t Ht. destruct (H3 t Ht) as (s & E). eapply wf_trow; eauto.
Qed.
Lemma genuine_rows n v : genuine v -> is_series n v -> Forall genuine (rows n v).
Proof.
  intros H1 H2. unfold rows. apply Forall_map, Forall_forall. intros i Hi.
  apply in_seq in Hi. apply (genuine_row n); auto. lia.
Qed.

(** A series tensor is the stack of its rows. *)
Lemma skipn_skipn' {A} a b (l : list A) : skipn a (skipn b l) = skipn (b + a) l.
Proof.
  revert l; induction b as [|b IH]; intros l; simpl; [reflexivity|].
  destruct l; simpl; [now rewrite skipn_nil|apply IH].
Qed.
Lemma flat_map_map {A B C} (f : A -> B) (g : B -> list C) l :
  flat_map g (map f l) = flat_map (fun a => g (f a)) l.
Proof. induction l; simpl; congruence. Qed.
Lemma flat_map_lslice {A} n k (l : list A) : length l = n * k ->
  flat_map (fun i => lslice (i * k) k l) (seq 0 n) = l.
Proof.
  intros H. revert l H. induction n as [|n IH]; intros l H.
  - simpl in *. destruct l; [reflexivity|discriminate].
  - rewrite <- cons_seq, <- seq_shift. cbn [flat_map].
    transitivity (firstn k l ++ skipn k l); [|apply firstn_skipn]. f_equal.
    rewrite flat_map_map.
    rewrite <- (IH (skipn k l)) by (rewrite skipn_length, H; simpl; lia).
    apply flat_map_ext. intros i. unfold lslice. rewrite skipn_skipn'.
    do 2 f_equal.
Qed.
Lemma stackT_rows n s t : n > 0 -> wf t -> sh t = n :: s ->
  stackT (map (fun i => trow i t) (seq 0 n)) = t.
Proof.
  intros Hn W E. unfold stackT. rewrite map_length, seq_length.
  destruct n as [|n]; [lia|]. cbn [seq map hd]. 
  change (trow 0 t :: map (fun i => trow i t) (seq 1 n)) with (map (fun i => trow i t) (seq 0 (S n))).
  rewrite !flat_map_map.
  unfold wf in W. rewrite E in W.
  unfold trow, fdata, idata, bdata, dtype_of. rewrite E. cbn [sh dat tl].
  destruct t as [st [l|l|l]]; cbn [dat sh dslice dlen] in *; subst st; f_equal; f_equal;
    now apply (flat_map_lslice (S n) (prod s)).
Qed.
Lemma rows_inj n s s' t u : n > 0 -> wf t -> wf u -> sh t = n :: s -> sh u = n :: s' ->
  (forall i, i < n -> trow i t = trow i u) -> t = u.
Proof.
  intros Hn Wt Wu Et Eu H.
  rewrite <- (stackT_rows n s t Hn Wt Et), <- (stackT_rows n s' u Hn Wu Eu).
  f_equal. apply map_ext_in. intros i Hi. apply in_seq in Hi. apply H. lia.
Qed.
End TensorFacts.
