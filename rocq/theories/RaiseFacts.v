(** * RaiseFacts: errors are never swallowed (C79). *)
From Coq Require Import List ZArith Bool Lia.
From Verif Require Import Num Py PyFacts Tensor Streamable Spec EvalFacts StreamFacts TensorFacts StreamProofs Meta Raise.
Import ListNotations.

Section RaiseFacts.
Context {N : FOps}.

Lemma raises_not_ok {A} (r : res A) : (forall a, r <> Ok a) -> raises r.
Proof. destruct r as [a|e]; intros H; [now destruct (H a)|eexists; reflexivity]. Qed.
Lemma raises_ok {A} (r : res A) a : raises r -> r <> Ok a.
Proof. intros (e & ->). discriminate. Qed.

(** A call that succeeds has taken at least one step. *)
Lemma call_ok_step op v st b r : call op v st b = Ok r ->
  exists x st' r', (st = None -> st' = None) /\ (st' = None -> st = None) /\ forward_step op x st' = Ok r'.
Proof.
  unfold call. intros H. apply bind_ok in H as (v' & _ & H). apply bind_ok in H as (st' & Hst & H).
  assert (E : (st = None -> st' = None) /\ (st' = None -> st = None)).
  { destruct st; [|injection Hst as <-; auto].
    apply bind_ok in Hst as (s' & _ & Hst). injection Hst as <-. split; discriminate. }
  destruct b.
  - unfold call_streamed in H. apply bind_ok in H as (n & _ & H). apply bind_ok in H as (x & _ & H).
    apply bind_ok in H as ([[o s] i] & Hf & _). exists x, st', (o, s, i). tauto.
  - exists v', st', r. tauto.
Qed.
Lemma never_step op : (forall x st, raises (forward_step op x st)) -> never_answers op.
Proof.
  intros H v st b. apply raises_not_ok. intros r C.
  apply call_ok_step in C as (x & st' & r' & _ & _ & C). exact (raises_ok _ _ (H x st') C).
Qed.
Lemma never_step_none op : (forall x, raises (forward_step op x None)) ->
  forall v b, raises (call op v None b).
Proof.
  intros H v b. apply raises_not_ok. intros r C.
  apply call_ok_step in C as (x & st' & r' & E & _ & C). rewrite (E eq_refl) in C. exact (raises_ok _ _ (H x) C).
Qed.

Theorem base_never : never_answers base_streamable.
Proof. apply never_step. intros x st. eexists. reflexivity. Qed.
Theorem base_not_implemented v st : genuine v -> genuine_opt st ->
  call base_streamable v st false = Err ENotImpl.
Proof. intros Gv Gs. rewrite call_false_g by assumption. reflexivity. Qed.

(** ** Streaming *)
Theorem first_step_raises op v st n :
  genuine v -> genuine_opt st -> genuine_op op -> is_series n v ->
  raises (call op (row 0 v) st false) -> raises (call op v st true).
Proof.
  intros Gv Gst Gop Hn Hr. apply raises_not_ok. intros [[outs sf] s0] C.
  destruct (streamed_start op v st n outs sf s0 Gv Gst Gop Hn C)
    as (Hpos & Gs0 & Hstart & o0 & s1 & i0 & os & tas & tasf & Hf & E0 & Go & HC & _).
  assert (G0 : genuine (row 0 v)).
  { pose proof (genuine_rows n v Gv Hn) as G. rewrite Forall_forall in G. apply G. unfold rows.
    apply in_map_iff. exists 0. split; [reflexivity|]. apply in_seq. lia. }
  rewrite call_false_g in Hr by assumption. exact (raises_ok _ _ Hr Hf).
Qed.
Theorem later_step_raises op v st n s0 i os s :
  genuine v -> genuine_opt st -> genuine_op op -> is_series n v -> i < n ->
  starts_from op st (row 0 v) s0 -> steps op s0 (rows i v) = Ok (os, s) ->
  raises (call op (row i v) (Some s) false) -> raises (call op v st true).
Proof.
  intros Gv Gst Gop Hn Hi Hstart Hpre Hr. apply raises_not_ok. intros [[outs sf] s0'] C.
  destruct (streamed_start op v st n outs sf s0' Gv Gst Gop Hn C)
    as (Hpos & Gs0 & Hstart' & o0 & s1 & i0 & os' & tas & tasf & Hf & E0 & Go & HC & _).
  rewrite (starts_from_unique _ _ _ _ _ Hstart Hstart') in Hpre.
  assert (HR : rows n v = rows i v ++ row i v :: map (fun i => row i v) (seq (S i) (n - S i))).
  { unfold rows. replace n with (i + S (n - S i)) at 1 by lia. rewrite seq_app, map_app. reflexivity. }
  assert (Gx := genuine_rows n v Gv Hn). rewrite HR in Gx.
  apply Forall_app in Gx as [Gx1 Gx2]. inversion Gx2 as [|? ? Gxi Gx3]; subst.
  rewrite HR, stepsC_app in HC.
  apply bind_ok in HC as ([os1 s1'] & HC1 & HC).
  destruct (stepsC_sound op Gop _ _ _ _ Gs0 Gx1 HC1) as (HS & _ & Gs & _).
  rewrite Hpre in HS. injection HS as -> ->.
  apply bind_ok in HC as ([os2 s2] & HC2 & _). cbn [stepsC] in HC2.
  rewrite call_false_g in Hr by (simpl; auto).
  apply bind_ok in HC2 as (r & HC2 & _). exact (raises_ok _ _ Hr HC2).
Qed.

(** ** Combinators *)
Lemma compose_loop_in ops : forall sts x out r, length sts = length ops ->
  compose_loop (combine ops sts) x out = Ok r ->
  forall op, In op ops -> exists y st r', call op y st false = Ok r'.
Proof.
  induction ops as [|p ops IH]; intros sts x out r L H op Hin; [easy|].
  destruct sts as [|st sts]; [discriminate L|]. cbn [combine compose_loop] in H.
  apply bind_ok in H as ([[o s] i] & Hc & H). apply bind_ok in H as (r' & Hl & _).
  destruct Hin as [->|Hin]; [eauto|]. eapply IH; [|exact Hl|exact Hin]. now injection L.
Qed.
Lemma states_list n st : states_for n st ->
  exists l, match st with None => Ok (repeat None n) | Some s => let* l := iter s in Ok (map Some l) end = Ok l /\ length l = n.
Proof.
  destruct st as [s|]; intros H; [|exists (repeat None n); now rewrite repeat_length].
  destruct H as (_ & l & -> & L). exists (map Some l). now rewrite map_length.
Qed.
Lemma never_states op n : (forall x st, states_for n st -> raises (forward_step op x st)) ->
  forall v st b, states_for n st -> raises (call op v st b).
Proof.
  intros H v st b Hs. apply raises_not_ok. intros r C. unfold call in C.
  apply bind_ok in C as (v' & _ & C). apply bind_ok in C as (st' & E & C).
  assert (st' = st) as ->.
  { destruct st as [s|]; [|congruence]. rewrite convert_ok in E by apply Hs. now injection E. }
  destruct b; [|exact (raises_ok _ _ (H v' st Hs) C)].
  unfold call_streamed in C. apply bind_ok in C as (m & _ & C). apply bind_ok in C as (x & _ & C).
  apply bind_ok in C as (r' & Hf & _). exact (raises_ok _ _ (H x st Hs) Hf).
Qed.
Theorem compose_never ops op : In op ops -> never_answers op ->
  forall v st b, states_for (length ops) st -> raises (call (Compose ops) v st b).
Proof.
  intros Hin Hn. apply never_states. intros x st Hs. apply raises_not_ok. intros r H.
  cbn [forward_step Compose] in H. unfold compose_step in H. rewrite rev_length in H.
  destruct (states_list _ _ Hs) as (l & E & L). rewrite E in H. cbn [bind] in H.
  apply bind_ok in H as ([[o ns] is'] & Hl & _).
  destruct (compose_loop_in (rev ops) l x None (o, ns, is')) with (op := op)
    as (y & st' & r' & C); [now rewrite rev_length|exact Hl|now apply in_rev in Hin|].
  exact (raises_ok _ _ (Hn y st' false) C).
Qed.
(** One stage raising on what it really receives is enough. *)
Theorem compose_stage outer op inner x o s i e :
  inner <> [] -> pyok x -> call (Compose inner) x None false = Ok (o, s, i) ->
  call op o None false = Err e ->
  call (Compose (outer ++ op :: inner)) x None false = Err e.
Proof.
  intros Hne Hx Hi Ho. rewrite call_false in Hi |- * by (auto; discriminate).
  cbn [forward_step Compose] in *. unfold compose_step in *. cbn [bind] in *.
  replace (rev (outer ++ op :: inner)) with (rev inner ++ op :: rev outer)
    by (rewrite rev_app_distr; cbn [rev]; now rewrite <- app_assoc).
  apply bind_ok in Hi as ([[oo ns] is'] & Hl & Hi).
  assert (E : oo = Some o) by (destruct oo; [now injection Hi as ->|discriminate]). subst oo. clear Hi.
  revert Hl. generalize (rev outer) as rest. intros rest.
  assert (Hr : rev inner <> []) by (intros Q; apply Hne; apply (f_equal (@rev _)) in Q; now rewrite rev_involutive in Q).
  assert (G : forall l x0 out ns is', l <> [] -> compose_loop (combine l (repeat None (length l))) x0 out = Ok (Some o, ns, is') ->
    compose_loop (combine (l ++ op :: rest) (repeat None (length (l ++ op :: rest)))) x0 out = Err e).
  { clear -Ho. induction l as [|p l IH]; intros x0 out ns is' Hn Hl; [easy|].
    cbn [length repeat combine app compose_loop] in *.
    apply bind_ok in Hl as ([[o1 s1] i1] & Hc & Hl). rewrite Hc. cbn [bind].
    apply bind_ok in Hl as ([[o2 s2] i2] & Hl & Q). injection Q as -> _ _.
    destruct l as [|q l].
    - cbn in Hl. injection Hl as -> _ _. cbn [app length repeat combine compose_loop]. now rewrite Ho.
    - rewrite (IH o1 (Some o1) s2 i2); [reflexivity|discriminate|exact Hl]. }
  intros Hl. pose proof (G (rev inner) x None ns is' Hr Hl) as Q. unfold val in *. rewrite Q. reflexivity.
Qed.
Theorem compose_innermost outer op x e : pyok x -> call op x None false = Err e ->
  call (Compose (outer ++ [op])) x None false = Err e.
Proof.
  intros Hx Ho. rewrite (call_false (Compose _)) by (auto; discriminate).
  cbn [forward_step Compose]. unfold compose_step. cbn [bind]. rewrite rev_app_distr.
  cbn [rev app length repeat combine compose_loop]. unfold val in *. now rewrite Ho.
Qed.

Lemma join_loop_in ops : forall ins sts r, 
  join_loop (combine ops (combine ins sts)) = Ok r ->
  forall k op, nth_error ops k = Some op -> k < length ins -> k < length sts ->
  exists y st r', call op y st false = Ok r'.
Proof.
  induction ops as [|p ops IH]; intros ins sts r H k op Hk Hi Hs; [now destruct k|].
  destruct ins as [|x ins]; [simpl in Hi; lia|]. destruct sts as [|st sts]; [simpl in Hs; lia|].
  cbn [combine join_loop] in H.
  apply bind_ok in H as ([[o s] i] & Hc & H). apply bind_ok in H as (r' & Hl & _).
  destruct k as [|k]; [injection Hk as ->; eauto|]. simpl in Hi, Hs.
  eapply (IH ins sts r' Hl k op Hk); lia.
Qed.
Lemma map_fn_tup_length {A B} (f : list (pyval A) -> res (pyval B)) l r :
  map_fn f (Tup l) [Tup l] = Ok r -> exists rs, r = Tup rs /\ length rs = length l.
Proof.
  cbn [map_fn mapM iter bind]. intros H. apply bind_ok in H as (rs & H & E). injection E as <-.
  exists rs. split; [reflexivity|]. revert rs H.
  induction l as [|x l IH]; intros rs H; [now injection H as <-|].
  cbn [heads] in H. apply bind_ok in H as (v' & _ & H). apply bind_ok in H as (r' & Hr & H).
  injection H as <-. cbn [length]. f_equal. exact (IH r' Hr).
Qed.
Theorem join_never ops op k : nth_error ops k = Some op -> never_answers op ->
  forall ins st b, k < length ins -> states_for (length ops) st ->
  raises (call (Join ops) (Tup ins) st b).
Proof.
  intros Hk Hn ins st b Hi Hs.
  assert (Hf : forall ins', length ins' = length ins -> raises (forward_step (Join ops) (Tup ins') st)).
  { intros ins' L. apply raises_not_ok. intros r H. cbn [forward_step Join] in H. unfold join_step in H.
    destruct (states_list _ _ Hs) as (l & E & Ll). rewrite E in H. cbn [bind iter] in H.
    apply bind_ok in H as (r' & H & _).
    destruct (join_loop_in ops ins' l r' H k op Hk) as (y & st' & r2 & C);
      [unfold val in *; lia|pose proof (proj1 (nth_error_Some ops k)) as Q; rewrite Hk in Q; specialize (Q ltac:(discriminate)); unfold val in *; lia|].
    exact (raises_ok _ _ (Hn y st' false) C). }
  apply raises_not_ok. intros r C. unfold call in C.
  apply bind_ok in C as (v' & Hc & C). apply map_fn_tup_length in Hc as (ins' & -> & L').
  apply bind_ok in C as (st' & E & C).
  assert (st' = st) as ->.
  { destruct st as [s|]; [|congruence]. rewrite convert_ok in E by apply Hs. now injection E. }
  destruct b; [|exact (raises_ok _ _ (Hf ins' L') C)].
  unfold call_streamed in C. apply bind_ok in C as (m & _ & C). apply bind_ok in C as (x & Hx & C).
  apply map_fn_tup_length in Hx as (ins2 & -> & L2).
  apply bind_ok in C as (r' & Hr & _). refine (raises_ok _ _ (Hf ins2 _) Hr). congruence.
Qed.
Theorem map_never op size : never_answers op -> never_answers (Map op size).
Proof.
  intros Hn. apply never_step. intros x st. apply raises_not_ok. intros r H.
  cbn [forward_step Map] in H. unfold map_step in H. apply bind_ok in H as (x0 & _ & H).
  apply bind_ok in H as (o & C & _). exact (raises_ok _ _ (Hn _ _ _) C).
Qed.
Theorem ffill_never op : never_answers op -> never_answers (FFill op).
Proof.
  intros Hn. apply never_step. intros x st. apply raises_not_ok. intros r H.
  cbn [forward_step FFill] in H. unfold ffill_step in H. apply bind_ok in H as (x0 & _ & H).
  apply bind_ok in H as ([po ps] & _ & H).
  apply bind_ok in H as (o & C & _). exact (raises_ok _ _ (Hn _ _ _) C).
Qed.
End RaiseFacts.
