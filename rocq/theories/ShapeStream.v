(** * ShapeStream: operators of known shapes never fail on a series either. *)
From Coq Require Import List ZArith Bool Lia.
From Verif Require Import Num Py PyFacts Tensor Streamable Spec SpecMeta StreamFacts TensorFacts StreamProofs
  WfFacts Meta Common Finance Library GenuineBase GenuineLib InitLib MapFacts Shapes ShapeFacts ShapeProofs.
Import ListNotations.

Section ShapeStream.
Context {N : FOps}.

Lemma safe_steps op zx zo zs : safe op zx zo zs -> forall xs s, Forall (fun x => vhas x zx) xs -> vhas s zs ->
  exists os sf, steps op s xs = Ok (os, sf) /\ Forall (fun o => vhas o zo) os /\ vhas sf zs.
Proof.
  intros H. induction xs as [|x xs IH]; intros s Hx Hs; [exists [], s; auto|].
  inversion Hx as [|? ? Hx1 Hx2]; subst.
  destruct (wp_call op zx zo zs x (Some s) (fun r => vhas (fst (fst r)) zo /\ vhas (snd (fst r)) zs) H Hx1 Hs) as ([[o s'] i] & E & Ho & Hs'); [cbn; auto|].
  destruct (IH s' Hx2 Hs') as (os & sf & E' & F & Hf).
  exists (o :: os), sf. split; [|auto]. cbn [steps]. rewrite E. cbn [bind]. rewrite E'. reflexivity.
Qed.

Lemma steps_length op xs : forall s os sf, steps op s xs = Ok (os, sf) -> length os = length xs.
Proof.
  induction xs as [|x xs IH]; intros s os sf E; cbn [steps] in E; [now injection E as <- _|].
  apply bind_ok in E as ([[o s'] i] & _ & E). apply bind_ok in E as ([os1 s1] & E1 & E). injection E as <- _. cbn. f_equal. eauto.
Qed.

Section Series.
Context (op : operator) (zx zo zs : ztype) (H : safe op zx zo zs) (Gop : genuine_op op).

Lemma safe_starts st x0 s0 : vhas x0 zx -> state_shaped st zs -> starts_from op st x0 s0 -> vhas s0 zs.
Proof.
  intros Hx Hs Hst. destruct st as [s|]; [cbn in Hst; subst s0; exact Hs|]. destruct Hst as (o & s' & E).
  destruct (wp_call op zx zo zs x0 None (fun r => vhas (snd r) zs) H Hx I) as (r & E' & K); [cbn; auto|].
  rewrite E' in E. injection E as ->. exact K.
Qed.
Lemma wide_rows n v : vhas v (wide n zx) -> Forall (fun x => vhas x zx) (rows n v).
Proof.
  intros Hv. apply Forall_forall. intros x Hx. apply in_map_iff in Hx as (i & <- & Hi). apply in_seq in Hi. apply (row_vhas n); [auto|lia].
Qed.
Lemma safe_uniform st n v : vhas v (wide n zx) -> n > 0 -> state_shaped st zs -> uniform sig op st v n.
Proof.
  intros Hv Hn Hs. exists zo. assert (H0 : vhas (row 0 v) zx) by (apply (row_vhas n); auto). split.
  - intros o s' i E. destruct (wp_call op zx zo zs (row 0 v) st (fun r => vhas (fst (fst r)) zo) H H0 Hs) as (r & E' & K); [cbn; auto|].
    rewrite E' in E. injection E as ->. apply K.
  - intros s0 os sf Hst E. destruct (safe_steps op zx zo zs H (rows n v) s0 (wide_rows n v Hv) (safe_starts st (row 0 v) s0 H0 Hs Hst)) as (os' & sf' & E' & F & _).
    rewrite E' in E. injection E as -> ->. eapply Forall_impl; [|exact F]. now intros o [_ ?].
Qed.
Lemma safe_steady s0 xs : vhas s0 zs -> Forall (fun x => vhas x zx) xs -> steady_state op s0 xs.
Proof.
  intros Hs Hx k os s _ E.
  destruct (safe_steps op zx zo zs H (firstn k xs) s0) as (os' & sf' & E' & _ & F); [|exact Hs|].
  { apply Forall_forall. intros x Hi. rewrite Forall_forall in Hx. apply Hx. rewrite <- (firstn_skipn k xs). apply in_or_app. now left. }
  rewrite E' in E. injection E as -> ->. destruct Hs as [_ ->]. apply F.
Qed.

(** A series of [n] elements of the right shapes. *)
Theorem safe_series v st n : leaves zx <> [] -> n > 0 -> vhas v (wide n zx) -> state_shaped st zs ->
  exists outs sf s0 os,
    call op v st true = Ok (outs, sf, s0) /\ vhas outs (wide n zo) /\ vhas sf zs /\ vhas s0 zs /\
    starts_from op st (row 0 v) s0 /\ steps op s0 (rows n v) = Ok (os, sf) /\
    forall i, i < n -> row i outs = nth i os (Tup []).
Proof.
  intros NE Hn Hv Hs. assert (Sv := wide_series n v zx NE Hv).
  assert (H0 : vhas (row 0 v) zx) by (apply (row_vhas n); auto).
  assert (Gst : genuine_opt st) by (destruct st; [apply Hs|exact I]).
  assert (HS : exists s0, starts_from op st (row 0 v) s0).
  { destruct st as [s|]; [now exists s|].
    destruct (wp_call op zx zo zs (row 0 v) None (fun _ => True) H H0 I) as ([[o s'] i] & E & _); [auto|]. exists i, o, s'. exact E. }
  destruct HS as (s0 & HS). assert (Hs0 := safe_starts st (row 0 v) s0 H0 Hs HS).
  destruct (safe_steps op zx zo zs H (rows n v) s0 (wide_rows n v Hv) Hs0) as (os & sf & E & Fo & Hf).
  assert (U := safe_uniform st n v Hv Hn Hs).
  destruct (streaming_complete op v st n s0 os sf) as (outs & C & Go & R); auto; [apply Hv|now apply safe_steady; [|apply wide_rows]|].
  exists outs, sf, s0, os. split; [exact C|]. split; [|auto 10].
  destruct (streamed_start op v st n outs sf s0 (proj1 Hv) Gst Gop Sv C)
    as (_ & _ & _ & o0 & s1 & i0 & os' & tas & tasf & Hfw & _ & G0 & _ & HS' & Gos & L & _ & A1 & A2 & A3).
  rewrite E in HS'. injection HS' as <-.
  destruct (H (row 0 v) st H0 Hs) as (r & Er & Ko & _). rewrite Hfw in Er. injection Er as <-. cbn [fst snd] in Ko.
  assert (Esk : Forall (fun o => sk o = sk o0) os).
  { eapply Forall_impl; [|exact Fo]. intros o [_ Eo]. apply sig_sk. destruct Ko as [_ Ko]. congruence. }
  destruct (arr_facts n o0 os outs) as (_ & T & _ & _); auto; [exists tas, tasf; auto|].
  split; [exact Go|]. rewrite (sig_tall n outs T). unfold wide. f_equal.
  rewrite (R 0 Hn). assert (Hin : In (nth 0 os (Tup [])) os) by (apply nth_In; lia).
  rewrite Forall_forall in Fo. apply (Fo _ Hin).
Qed.

(** Two chunks of a series. *)
Theorem safe_chunks a b v st n m : leaves zx <> [] -> n > 0 -> m > 0 -> vhas v (wide (n + m) zx) -> state_shaped st zs ->
  genuine a -> genuine b -> is_concat n m a b v ->
  exists o s2 s0 o1 s1 o2,
    call op v st true = Ok (o, s2, s0) /\ call op a st true = Ok (o1, s1, s0) /\ call op b (Some s1) true = Ok (o2, s2, s1) /\
    (forall i, i < n -> row i o = row i o1) /\ (forall i, i < m -> row (n + i) o = row i o2).
Proof.
  intros NE Hn Hm Hv Hs Ga Gb HC.
  destruct (safe_series v st (n + m) NE) as (o & s2 & s0 & os & C & _); auto; [lia|].
  assert (U := safe_uniform st (n + m) v Hv ltac:(lia) Hs). destruct U as (z & U1 & U2).
  destruct (resume_split op a b v st n m o s2 s0) as (o1 & s1 & o2 & C1 & C2 & R1 & R2); auto.
  { apply Hv. } { destruct st; [apply Hs|exact I]. }
  { exists (sk z). split; [intros; erewrite <- U1; eauto; symmetry; apply sk_vmap|].
    intros. eapply Forall_impl; [|eapply U2; eauto]. cbn. intros w <-. symmetry. apply sk_vmap. }
  exists o, s2, s0, o1, s1, o2. auto.
Qed.
(** The first outputs only depend on the first elements. *)
Theorem safe_causal v w st n k l : leaves zx <> [] -> 0 < n -> n <= k -> n <= l -> vhas v (wide k zx) -> vhas w (wide l zx) -> state_shaped st zs ->
  (forall i, i < n -> row i v = row i w) ->
  exists o s s0 o' s',
    call op v st true = Ok (o, s, s0) /\ call op w st true = Ok (o', s', s0) /\ forall i, i < n -> row i o = row i o'.
Proof.
  intros NE Hn Hk Hl Hv Hw Hs R.
  destruct (safe_series v st k NE) as (o & s & s0 & os & C & _ & _ & Hs0 & HS & E & Ro); auto; [lia|].
  destruct (safe_series w st l NE) as (o' & s' & s0' & os' & C' & _ & _ & _ & HS' & E' & Ro'); auto; [lia|].
  assert (s0' = s0) as ->.
  { destruct st as [t|]; [now rewrite HS, HS'|]. rewrite <- (R 0 Hn) in HS'. destruct HS as (x & y & HS), HS' as (x' & y' & HS'). congruence. }
  exists o, s, s0, o', s'. split; [exact C|]. split; [exact C'|]. intros i Hi. rewrite Ro, Ro' by lia.
  assert (P : forall k v (os : list val) s, n <= k -> steps op s0 (rows k v) = Ok (os, s) ->
    exists os1 os2 s1, os = os1 ++ os2 /\ steps op s0 (rows n v) = Ok (os1, s1) /\ length os1 = n).
  { intros k0 v0 os0 t0 L0 E0. unfold rows in E0. replace k0 with (n + (k0 - n)) in E0 by lia. rewrite seq_app, map_app, steps_app in E0.
    apply bind_ok in E0 as ([os1 s1] & E1 & E0). apply bind_ok in E0 as ([os2 s2] & E2 & E0). injection E0 as <- <-.
    exists os1, os2, s1. split; [reflexivity|]. split; [exact E1|]. apply steps_length in E1. rewrite map_length, seq_length in E1. exact E1. }
  destruct (P k v os s Hk E) as (a1 & a2 & t1 & -> & Q1 & L1). destruct (P l w os' s' Hl E') as (b1 & b2 & t2 & -> & Q2 & L2).
  assert (RR : rows n v = rows n w). { apply map_ext_in. intros j Hj. apply in_seq in Hj. apply R. lia. }
  rewrite RR, Q2 in Q1. injection Q1 as <- <-. now rewrite !app_nth1 by lia.
Qed.
End Series.
End ShapeStream.
