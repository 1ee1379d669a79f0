(** * CountFacts: Compose and Join given the wrong number of states (C81). *)
From Coq Require Import List ZArith Bool Lia.
From Verif Require Import Num Py PyFacts Tensor Streamable Spec EvalFacts StreamFacts TensorFacts StreamProofs Meta GenuineLib Raise RaiseFacts.
Import ListNotations.

Section CountFacts.
Context {N : FOps}.

(** Two loops whose bodies agree wherever the loop can be. *)
Lemma tf_while_agree {S} (inv : S -> Prop) (c : S -> bool) (b1 b2 : S -> res S) :
  (forall s, inv s -> b1 s = b2 s) -> (forall s s', inv s -> b1 s = Ok s' -> inv s') ->
  forall fuel s, inv s -> tf_while fuel c b1 s = tf_while fuel c b2 s.
Proof.
  intros E P. induction fuel as [|k IH]; intros s H; cbn [tf_while]; [reflexivity|].
  destruct (c s); [|reflexivity]. rewrite <- (E s H). destruct (b1 s) as [s'|] eqn:B; cbn [bind]; [|reflexivity].
  apply IH. exact (P s s' H B).
Qed.
(** Two operators that agree on the states one can reach answer alike. *)
Lemma calls_agree (keep : val -> Prop) op op' :
  (forall x s, keep s -> forward_step op x (Some s) = forward_step op' x (Some s)) ->
  (forall x s o s' i, keep s -> forward_step op x (Some s) = Ok (o, s', i) -> keep s') ->
  forall v s b, pyok s -> keep s -> call op v (Some s) b = call op' v (Some s) b.
Proof.
  intros E P v s b Hs K. unfold call. destruct (convert v) as [x|]; cbn [bind]; [|reflexivity].
  rewrite convert_ok by exact Hs. cbn [bind]. destruct b; [|apply E, K].
  unfold call_streamed. destruct (input_size x) as [n|]; cbn [bind]; [|reflexivity].
  destruct (slice_at 0 x) as [x0|]; cbn [bind]; [|reflexivity]. rewrite <- (E x0 s K).
  unfold val in *. destruct (forward_step op x0 (Some s)) as [[[o0 s1] i0]|]; cbn [bind]; [|reflexivity].
  destruct (ta_new_all o0 n) as [tas|]; cbn [bind]; [|reflexivity].
  rewrite (tf_while_agree (fun t => keep (snd (fst t))) _ (stream_body op x) (stream_body op' x)); [reflexivity|..|exact K].
  - intros [[i st] ta] Ks. cbn [fst snd] in Ks. unfold stream_body. destruct (slice_at (Z.of_nat i) x) as [xi|]; cbn [bind]; [|reflexivity]. pose proof (E xi st Ks) as Ex. unfold val in *. rewrite Ex. reflexivity.
  - intros [[i st] ta] t' Ks H. cbn [fst snd] in Ks. unfold stream_body in H. apply bind_ok in H as (xi & _ & H). apply bind_ok in H as ([[o s'] si] & Hf & H).
    apply bind_ok in H as (t1 & _ & H). apply bind_ok in H as (t2 & _ & H). apply bind_ok in H as (u & _ & H). apply bind_ok in H as (ta' & _ & H). apply bind_ok in H as (u' & _ & H).
    injection H as <-. cbn [fst snd]. exact (P xi st o s' si Ks Hf).
Qed.

Definition has_states (k : nat) (s : val) : Prop := exists l, s = Tup l /\ length l = k.

(** ** Compose *)
Lemma compose_loop_states l : forall x out r ns is, compose_loop l x out = Ok (r, ns, is) -> length ns = length l.
Proof.
  induction l as [|[op st] l IH]; intros x out r ns is H; cbn [compose_loop] in H; [now injection H as <- <- <-|].
  apply bind_ok in H as ([[o s] i] & _ & H). apply bind_ok in H as ([[o2 ns2] is2] & Hl & H). injection H as <- <- <-. cbn [length]. f_equal. eapply IH; eauto.
Qed.
Lemma combine_firstn_r {A B} : forall (l : list A) (m : list B), combine l m = combine (firstn (length m) l) m.
Proof. induction l as [|x l IH]; intros [|y m]; try reflexivity. cbn [combine length firstn]. now rewrite <- IH. Qed.
Lemma combine_firstn_l {A B} : forall (l : list A) (m : list B), combine l m = combine l (firstn (length l) m).
Proof. induction l as [|x l IH]; intros [|y m]; try reflexivity. cbn [combine length firstn]. now rewrite <- IH. Qed.
Lemma rev_skipn {A} (l : list A) k : k <= length l -> rev (skipn (length l - k) l) = firstn k (rev l).
Proof.
  intros H. rewrite <- (firstn_skipn (length l - k) l) at 3. rewrite rev_app_distr. rewrite firstn_app, rev_length, skipn_length.
  replace (k - (length l - (length l - k))) with 0 by lia. cbn [firstn]. rewrite app_nil_r, firstn_all2; [reflexivity|]. rewrite rev_length, skipn_length. lia.
Qed.
Lemma compose_keeps ops k x s o s' i : k <= length ops -> has_states k s ->
  forward_step (Compose ops) x (Some s) = Ok (o, s', i) -> has_states k s'.
Proof.
  intros L (l & -> & Hl) H. cbn [forward_step Compose] in H. unfold compose_step in H. cbn [iter bind] in H.
  apply bind_ok in H as ([[r ns] is] & H & E). destruct r as [r|]; [|discriminate E]. injection E as <- <- <-.
  exists ns. split; [reflexivity|]. apply compose_loop_states in H. unfold val in *. rewrite H, combine_length, map_length, rev_length. lia.
Qed.
Theorem compose_few ops sts v b : length sts <= length ops -> pyok (Tup sts) ->
  call (Compose ops) v (Some (Tup sts)) b = call (Compose (skipn (length ops - length sts) ops)) v (Some (Tup sts)) b.
Proof.
  intros L P. apply (calls_agree (has_states (length sts))); [|intros x s o s' i; now apply compose_keeps|exact P|now exists sts].
  intros x s (l & -> & Hl). cbn [forward_step Compose]. unfold compose_step. cbn [iter bind].
  rewrite rev_skipn by exact L. rewrite (combine_firstn_r (rev ops)). rewrite map_length, Hl. reflexivity.
Qed.
Theorem compose_many ops sts v : length ops <= length sts -> pyok v -> pyok (Tup sts) ->
  call (Compose ops) v (Some (Tup sts)) false = call (Compose ops) v (Some (Tup (firstn (length ops) sts))) false.
Proof.
  intros L Hv P. assert (P' : pyok (Tup (firstn (length ops) sts))).
  { apply pyok_tup in P. apply pyok_tup. rewrite Forall_forall in *. intros y Hy. apply P. rewrite <- (firstn_skipn (length ops) sts). apply in_or_app. now left. }
  rewrite !call_false; [|exact Hv|intros s E; injection E as <-; exact P'|exact Hv|intros s E; injection E as <-; exact P].
  cbn [forward_step Compose]. unfold compose_step. cbn [iter bind]. rewrite (combine_firstn_l (rev ops) (map Some sts)), rev_length, firstn_map. reflexivity.
Qed.
Lemma types_length (l m : list val) : length l <> length m -> same_types (Tup l) (Tup m) = false.
Proof.
  intros H. unfold same_types. cbn [vmap pv_eqb]. revert m H. induction l as [|x l IH]; intros [|y m] H; try reflexivity; [now elim H|].
  cbn [map]. destruct (pv_eqb dtype_eqb (vmap dtype_of x) (vmap dtype_of y)); [|reflexivity]. cbn [andb]. apply IH. cbn [length] in H. lia.
Qed.
Lemma series_first n v : is_series n v -> genuine v -> 0 < n -> genuine (row 0 v).
Proof.
  intros Hn Gv Hp. pose proof (genuine_rows n v Gv Hn) as G. rewrite Forall_forall in G. apply G. unfold rows. apply in_map_iff. exists 0. split; [reflexivity|]. apply in_seq. lia.
Qed.
(** A first step that changes the number of states stops a stream. *)
Lemma count_rejected op v s n : genuine v -> genuine s -> genuine_op op -> is_series n v ->
  (forall o s' i, forward_step op (row 0 v) (Some s) = Ok (o, s', i) -> same_types s s' = false) ->
  raises (call op v (Some s) true).
Proof.
  intros Gv Gs Gop Hn Hc. destruct (Nat.eq_dec n 0) as [->|Hp].
  - apply raises_not_ok. intros [[outs sf] s0] C. destruct (streamed_start op v (Some s) 0 outs sf s0 Gv Gs Gop Hn C) as (Hpos & _). lia.
  - assert (G0 := series_first n v Hn Gv ltac:(lia)).
    destruct (call op (row 0 v) (Some s) false) as [[[o s'] i]|e] eqn:E.
    + pose proof E as E'. rewrite call_false_g in E' by (simpl; auto). apply Hc in E'.
      destruct (types_rejected op v (Some s) n s 0 [] s o s' i) as (e & R); simpl; auto; [lia|]. now exists e.
    + apply (first_step_raises op v (Some s) n); simpl; auto. now exists e.
Qed.
Theorem compose_many_streamed ops sts v n : length ops < length sts -> Forall genuine_op ops ->
  genuine v -> genuine (Tup sts) -> is_series n v -> raises (call (Compose ops) v (Some (Tup sts)) true).
Proof.
  intros L Gops Gv Gs Hn. apply (count_rejected _ v _ n); [exact Gv|exact Gs|now apply genuine_compose|exact Hn|]. intros o s' i H.
  cbn [forward_step Compose] in H. unfold compose_step in H. cbn [iter bind] in H.
  apply bind_ok in H as ([[r ns] is] & H & E). destruct r as [r|]; [|discriminate E]. injection E as <- <- <-.
  apply compose_loop_states in H. rewrite combine_length, map_length, rev_length in H. apply types_length. unfold val in *. lia.
Qed.

(** ** Join *)
Lemma join_loop_states l : forall r ns is, join_loop l = Ok (r, ns, is) -> length ns = length l.
Proof.
  induction l as [|[op [x st]] l IH]; intros r ns is H; cbn [join_loop] in H; [now injection H as <- <- <-|].
  apply bind_ok in H as ([[o s] i] & _ & H). apply bind_ok in H as ([[o2 ns2] is2] & Hl & H). injection H as <- <- <-. cbn [length]. f_equal. eapply IH; eauto.
Qed.
Lemma combine3_firstn {A B C} : forall (l : list A) (m : list B) (k : list C), combine l (combine m k) = combine (firstn (length k) l) (combine m k).
Proof. induction l as [|x l IH]; intros [|y m] [|z k]; try reflexivity. cbn [combine length firstn]. now rewrite <- IH. Qed.
Lemma join_small ops k x s o s' i : k <= length ops -> has_states k s ->
  forward_step (Join ops) x (Some s) = Ok (o, s', i) -> exists j, j <= k /\ has_states j s'.
Proof.
  intros L (l & -> & Hl) H. cbn [forward_step Join] in H. unfold join_step in H. cbn [iter bind] in H.
  apply bind_ok in H as (ins & _ & H). apply bind_ok in H as ([[r ns] is] & H & E). injection E as <- <- <-.
  exists (length ns). split; [|now exists ns]. apply join_loop_states in H. unfold val in *. rewrite H, !combine_length, map_length. lia.
Qed.
Theorem join_few ops sts v b : length sts <= length ops -> pyok (Tup sts) ->
  call (Join ops) v (Some (Tup sts)) b = call (Join (firstn (length sts) ops)) v (Some (Tup sts)) b.
Proof.
  intros L P. apply (calls_agree (fun s => exists k, k <= length sts /\ has_states k s)); [..|exact P|exists (length sts); split; [lia|now exists sts]].
  - intros x s (k & Hk & l & -> & Hl). cbn [forward_step Join]. unfold join_step. cbn [iter bind]. destruct (iter x) as [ins|]; cbn [bind]; [|reflexivity].
    rewrite (combine3_firstn ops), (combine3_firstn (firstn (length sts) ops)). rewrite map_length, Hl, firstn_firstn. replace (Nat.min k (length sts)) with k by lia. reflexivity.
  - intros x s o s' i (k & Hk & Hs) H. apply join_small with (k := k) in H as (j & Hj & H); [exists j; split; [lia|exact H]|lia|exact Hs].
Qed.
Theorem join_many ops sts v : length ops <= length sts -> pyok v -> pyok (Tup sts) ->
  call (Join ops) v (Some (Tup sts)) false = call (Join ops) v (Some (Tup (firstn (length ops) sts))) false.
Proof.
  intros L Hv P. assert (P' : pyok (Tup (firstn (length ops) sts))).
  { apply pyok_tup in P. apply pyok_tup. rewrite Forall_forall in *. intros y Hy. apply P. rewrite <- (firstn_skipn (length ops) sts). apply in_or_app. now left. }
  rewrite !call_false; [|exact Hv|intros s E; injection E as <-; exact P'|exact Hv|intros s E; injection E as <-; exact P].
  cbn [forward_step Join]. unfold join_step. cbn [iter bind]. destruct (iter v) as [ins|]; cbn [bind]; [|reflexivity].
  assert (E : forall (A B C : Type) (l : list A) (m : list B) (k : list C), combine l (combine m k) = combine l (combine m (firstn (length l) k))).
  { clear. intros A B C l. induction l as [|x l IH]; intros [|y m] [|z k]; try reflexivity. cbn [combine length firstn]. now rewrite <- IH. }
  rewrite E, firstn_map. reflexivity.
Qed.
Theorem join_many_streamed ops sts vs n : length ops < length sts \/ length vs < length sts -> Forall genuine_op ops ->
  genuine (Tup vs) -> genuine (Tup sts) -> is_series n (Tup vs) -> raises (call (Join ops) (Tup vs) (Some (Tup sts)) true).
Proof.
  intros L Gops Gv Gs Hn. apply (count_rejected _ (Tup vs) _ n); [exact Gv|exact Gs|now apply genuine_join|exact Hn|]. intros o s' i H.
  cbn [forward_step Join] in H. unfold join_step in H. cbn [iter bind] in H. change (row 0 (Tup vs)) with (Tup (map (row 0) vs)) in H. cbn [iter bind] in H.
  apply bind_ok in H as ([[r ns] is] & H & E). injection E as <- <- <-.
  apply join_loop_states in H. rewrite !combine_length, !map_length in H. apply types_length. unfold val in *. lia.
Qed.
Theorem compose_returned ops sts v o s' i : genuine v -> genuine (Tup sts) -> call (Compose ops) v (Some (Tup sts)) false = Ok (o, s', i) ->
  exists l, s' = Tup l /\ length l = Nat.min (length ops) (length sts).
Proof.
  intros [Pv _] [P _] H. rewrite call_false in H; [|exact Pv|intros s E; injection E as <-; exact P].
  cbn [forward_step Compose] in H. unfold compose_step in H. cbn [iter bind] in H.
  apply bind_ok in H as ([[r ns] is] & H & E). destruct r as [r|]; [|discriminate E]. injection E as <- <- <-.
  exists ns. split; [reflexivity|]. apply compose_loop_states in H. rewrite combine_length, map_length, rev_length in H. exact H.
Qed.
Theorem join_returned ops sts vs o s' i : genuine (Tup vs) -> genuine (Tup sts) -> call (Join ops) (Tup vs) (Some (Tup sts)) false = Ok (o, s', i) ->
  exists l, s' = Tup l /\ length l = Nat.min (length ops) (Nat.min (length vs) (length sts)).
Proof.
  intros [Pv _] [P _] H. rewrite call_false in H; [|exact Pv|intros s E; injection E as <-; exact P].
  cbn [forward_step Join] in H. unfold join_step in H. cbn [iter bind] in H.
  apply bind_ok in H as ([[r ns] is] & H & E). injection E as <- <- <-.
  exists ns. split; [reflexivity|]. apply join_loop_states in H. rewrite !combine_length, map_length in H. exact H.
Qed.
End CountFacts.
