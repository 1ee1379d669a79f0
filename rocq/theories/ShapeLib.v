(** * ShapeLib: the shapes and dtypes of the stateless operators and of the shipped compositions. *)
From Coq Require Import List ZArith Bool Lia.
From Verif Require Import Num Py PyFacts Tensor Streamable Spec SpecMeta StreamFacts TensorFacts StreamProofs
  WfFacts EvalFacts Meta Common Finance Library GenuineBase GenuineLib Shapes ShapeFacts ShapeOps ShapeProofs.
Import ListNotations.

Section ShapeLib.
Context {N : FOps}.

Lemma map_one {A B} (f : A -> B) l y : map f l = [y] -> exists x, l = [x] /\ f x = y.
Proof. destruct l as [|x [|? ?]]; cbn; try discriminate. intros E. injection E as E. eauto. Qed.
Lemma map_two {A B} (f : A -> B) l y z : map f l = [y; z] -> exists a b, l = [a; b] /\ f a = y /\ f b = z.
Proof. destruct l as [|a [|b [|? ?]]]; cbn; try discriminate. intros E. injection E as E1 E2. eauto 6. Qed.

Lemma bin_shaped ff fi s d : d = F32 \/ d = I32 /\ fi <> None -> fn_shaped (bin_fn (tbin ff fi)) [Leaf (s, d); Leaf (s, d)] (Leaf (s, d)).
Proof.
  intros Hd args G E. apply map_two in E as (a & b & -> & Ea & Eb).
  inversion G as [|? ? Ga G']; subst. inversion G' as [|? ? Gb _]; subst.
  destruct (vhas_leaf_inv a s d (conj Ga Ea)) as (t & -> & Ht), (vhas_leaf_inv b s d (conj Gb Eb)) as (u & -> & Hu).
  assert (K : wp (tbin ff fi t u) (fun r => has r s d)) by (eapply wp_tbin; [exact Ht|exact Hu|constructor|exact Hd|auto]).
  destruct K as (r & Er & Hr). exists (Leaf r). split; [|now apply vhas_leaf]. unfold bin_fn. cbn [arity length Nat.leb andb bind targ nth_error as_t].
  cbn. now rewrite Er.
Qed.
Lemma ws_sub s d : d <> BOOL -> well_shaped Sub (Tup [Leaf (s, d); Leaf (s, d)]) (Leaf (s, d)) (Tup []).
Proof. intros H. apply ws_stateless; [apply lib_basic, lib_sub|]. apply bin_shaped. destruct d; [now left|right; split; [auto|discriminate]|congruence]. Qed.
Lemma ws_add s d : d <> BOOL -> well_shaped Add (Tup [Leaf (s, d); Leaf (s, d)]) (Leaf (s, d)) (Tup []).
Proof. intros H. apply ws_stateless; [apply lib_basic, lib_add|]. apply bin_shaped. destruct d; [now left|right; split; [auto|discriminate]|congruence]. Qed.
Lemma ws_mul s d : d <> BOOL -> well_shaped Mul (Tup [Leaf (s, d); Leaf (s, d)]) (Leaf (s, d)) (Tup []).
Proof. intros H. apply ws_stateless; [apply lib_basic, lib_mul|]. apply bin_shaped. destruct d; [now left|right; split; [auto|discriminate]|congruence]. Qed.
Lemma sig_tup (l : list val) : sig (Tup l) = Tup (map sig l). Proof. reflexivity. Qed.
Lemma ws_fork k zx z : parts zx = [z] -> well_shaped (Fork k) zx (Tup (repeat z k)) (Tup []).
Proof.
  intros E. apply ws_stateless; [apply lib_basic, lib_fork|]. rewrite E. intros args G Ez. apply map_one in Ez as (x & -> & Ex).
  inversion G as [|? ? Gx _]; subst. eexists. split; [reflexivity|]. split.
  - apply genuine_tup. apply Forall_forall. intros y Hy. apply repeat_spec in Hy. now subst.
  - rewrite sig_tup. f_equal. clear. induction k; cbn; [reflexivity|]. now f_equal.
Qed.
Lemma ws_identity zx z : parts zx = [z] -> well_shaped Identity zx z (Tup []).
Proof.
  intros E. apply ws_stateless; [apply lib_basic, lib_identity|]. rewrite E. intros args G Ez. apply map_one in Ez as (x & -> & Ex).
  inversion G; subst. eauto.
Qed.
(** [i] counts from the end when negative. *)
Lemma py_nth_shaped zs i k z : (i = Z.of_nat k \/ i = Z.of_nat k - Z.of_nat (length zs))%Z -> nth_error zs k = Some z ->
  forall args, Forall genuine args -> map sig args = zs -> exists r, py_nth args i = Ok r /\ genuine r /\ sig r = z.
Proof.
  intros Hi Hk args G E. assert (L : length args = length zs) by (subst zs; now rewrite map_length).
  assert (Hl : k < length zs) by (apply nth_error_Some; congruence).
  assert (Q : exists x, nth_error args k = Some x /\ sig x = z).
  { subst zs. rewrite nth_error_map in Hk. destruct (nth_error args k) as [x|]; cbn in Hk; [|discriminate]. injection Hk as Hk. eauto. }
  destruct Q as (x & Ex & Sx). exists x. split; [|split; [|exact Sx]].
  - unfold py_nth. rewrite L. assert (J : (if Z.ltb i 0 then (i + Z.of_nat (length zs))%Z else i) = Z.of_nat k) by (destruct (Z.ltb_spec i 0); lia).
    rewrite J. destruct (Z.ltb_spec (Z.of_nat k) 0); [lia|]. now rewrite Nat2Z.id, Ex.
  - rewrite Forall_forall in G. apply G. eapply nth_error_In; eauto.
Qed.
Lemma ws_select zx i k z : (i = Z.of_nat k \/ i = Z.of_nat k - Z.of_nat (length (parts zx)))%Z -> nth_error (parts zx) k = Some z ->
  well_shaped (Select (IdxOne i)) zx z (Tup []).
Proof.
  intros Hi Hk. apply ws_stateless; [apply lib_basic, lib_select_one|]. exact (py_nth_shaped _ _ _ _ Hi Hk).
Qed.
Lemma sign_shaped cmp s d (Hd : d <> BOOL) :
  (forall a b (Q : tensor -> Prop), has a s d -> has b s d -> (forall r, has r s BOOL -> Q r) -> wp (cmp a b) Q) ->
  fn_shaped (fun args => let* _ := arity 1 1 args in let* x := targ args 0 in
    let* c := cmp x (zeros (sh x) (dtype_of x)) in
    let* r := twhere c (ones (sh x) (dtype_of x)) (zeros (sh x) (dtype_of x)) in Ok (Leaf r)) [Leaf (s, d)] (Leaf (s, d)).
Proof.
  intros Hc args G E. apply map_one in E as (a & -> & Ea). inversion G as [|? ? Ga _]; subst.
  destruct (vhas_leaf_inv a s d (conj Ga Ea)) as (t & -> & Ht). pose proof Ht as (_ & E1 & E2).
  cbn [arity length Nat.leb andb bind targ nth_error as_t]. rewrite E1, E2.
  assert (K : wp (let* c := cmp t (zeros s d) in let* r := twhere c (ones s d) (zeros s d) in Ok (Leaf r)) (fun r => vhas r (Leaf (s, d)))).
  { apply wp_bind. apply Hc; [exact Ht|apply has_zeros|]. intros c Hcc. apply wp_bind.
    eapply wp_twhere; [exact Hcc|apply has_ones|apply has_zeros|]. intros r Hr. apply wp_ok. now apply vhas_leaf. }
  destruct K as (r & -> & Hr). exists r. split; [reflexivity|exact Hr].
Qed.
Lemma ws_positive s d : d <> BOOL -> well_shaped Positive (Leaf (s, d)) (Leaf (s, d)) (Tup []).
Proof.
  intros Hd. apply ws_stateless; [apply lib_basic, lib_positive|]. apply (sign_shaped tgreater s d Hd).
  intros a b Q Ha Hb K. eapply wp_tcmp; [exact Ha|exact Hb|constructor|exact Hd|exact K].
Qed.
Lemma ws_negative s d : d <> BOOL -> well_shaped Negative (Leaf (s, d)) (Leaf (s, d)) (Tup []).
Proof.
  intros Hd. apply ws_stateless; [apply lib_basic, lib_negative|]. apply (sign_shaped tless s d Hd).
  intros a b Q Ha Hb K. eapply wp_tcmp; [exact Ha|exact Hb|constructor|exact Hd|exact K].
Qed.

(** ** The shipped compositions *)
Ltac sd := apply ws_set_during with (d := F32); [reflexivity|apply wf_fsc|repeat constructor].
Ltac sdi := apply ws_set_during with (d := I32); [reflexivity|apply wf_isc|repeat constructor].
Ltac leafstep := eapply ws_step; [constructor; assumption|reflexivity].
Lemma ws_momentum p s : (1 <= p)%Z ->
  well_shaped (Momentum p) (tf s) (tf s) (Tup [Tup []; Tup [Tup []; past p s F32]; Tup []; Tup [int]]).
Proof.
  intros Hp. apply ws_compose. cbn [rev app].
  eapply ws_next; [apply (ws_fork 2 (tf s) (tf s)); reflexivity|]. cbn [repeat].
  eapply ws_next; [eapply ws_join; [left; reflexivity|]; eapply ws_more; [apply ws_identity; reflexivity|]; eapply ws_more; [leafstep|apply ws_none]|].
  eapply ws_next; [apply ws_sub; discriminate|]. apply ws_last. sd.
Qed.
Lemma ws_crossover slow fast s : (1 <= slow)%Z -> (1 <= fast)%Z ->
  well_shaped (SimpleMovingAverageCrossover slow fast) (tf s) (tf s)
    (Tup [Tup []; Tup [Tup [s_sma fast s; Tup [int]]; s_sma slow s]; Tup []]).
Proof.
  intros Hs Hf. apply ws_compose. cbn [rev app].
  eapply ws_next; [apply (ws_fork 2 (tf s) (tf s)); reflexivity|]. cbn [repeat].
  eapply ws_next; [|apply ws_last; apply ws_sub; discriminate].
  eapply ws_join; [left; reflexivity|]. eapply ws_more; [|eapply ws_more; [leafstep|apply ws_none]].
  apply ws_compose. cbn [rev app]. eapply ws_next; [leafstep|]. apply ws_last. sd.
Qed.
Lemma ws_crossover_signal slow fast s : (1 <= slow)%Z -> (1 <= fast)%Z ->
  well_shaped (SimpleMovingAverageCrossoverSignal slow fast) (tf s) (ti s)
    (Tup [Tup [Tup []; Tup [Tup [s_sma fast s; Tup [int]]; s_sma slow s]; Tup []]; Tup [bool_; tf s]; Tup [int]]).
Proof.
  intros Hs Hf. apply ws_compose. cbn [rev app]. eapply ws_next; [now apply ws_crossover|].
  eapply ws_next; [eapply ws_step; [apply tk_zero|reflexivity]|]. apply ws_last. sdi.
Qed.
Lemma ws_macd_signal slow fast m s : (1 <= slow)%Z -> (1 <= fast)%Z -> (1 <= m)%Z ->
  well_shaped (MovingAverageConvergenceDivergenceSignal slow fast m) (tf s) (ti s)
    (Tup [Tup [int; s_ema slow s; s_ema fast s; s_ema m s]; Tup []; Tup [bool_; tf s]; Tup [int]]).
Proof.
  intros Hs Hf Hm. apply ws_compose. cbn [rev app]. eapply ws_next; [leafstep|].
  eapply ws_next; [apply (ws_select _ 4 4 (tf s)); [now left|reflexivity]|].
  eapply ws_next; [eapply ws_step; [apply tk_zero|reflexivity]|]. apply ws_last. sdi.
Qed.
Lemma ws_volatility m r : (1 <= m)%Z -> (1 <= r)%Z ->
  well_shaped (Volatility m r) num num (Tup [s_sma r []; s_sma m []; Tup [int]]).
Proof.
  intros Hm Hr. apply ws_compose. cbn [rev app]. eapply ws_next; [leafstep|]. eapply ws_next; [eapply ws_step; [apply tk_msd; assumption|reflexivity]|].
  apply ws_last. sd.
Qed.
End ShapeLib.
