(** * ServiceFacts: pieces, checkpoints and crashes. *)
From Coq Require Import List ZArith Bool Lia.
From Verif Require Import Num Py PyFacts Tensor Streamable Spec SpecMeta StreamFacts TensorFacts StreamProofs Library
  GenuineBase GenuineLib Structure StructLib StructProofs Shapes ShapeFacts ShapeProofs ShapeMain Service.
Import ListNotations.

Section ServiceFacts.
Context {N : FOps}.
Lemma skipn_twice {A} c a (l : list A) : skipn c (skipn a l) = skipn (a + c) l.
Proof.
  revert l. induction a as [|a IH]; intros l; [reflexivity|]. destruct l; [now rewrite !skipn_nil|]. apply IH.
Qed.
Lemma lslice_lslice {A} a b c d (l : list A) : c + d <= b -> lslice c d (lslice a b l) = lslice (a + c) d l.
Proof.
  intros H. unfold lslice. rewrite skipn_firstn_comm, skipn_twice, firstn_firstn.
  replace (Nat.min d (b - c)) with d by lia. reflexivity.
Qed.
Lemma dslice_dslice a b c d t : c + d <= b -> dslice c d (dslice a b t) = dslice (a + c) d t.
Proof. intros H. destruct t; cbn [dslice]; now rewrite lslice_lslice. Qed.
Lemma dslice_len a b t : a + b <= dlen t -> dlen (dslice a b t) = b.
Proof. destruct t; cbn [dslice dlen]; unfold lslice; intros H; rewrite firstn_length, skipn_length; lia. Qed.
Lemma dslice_all b t : dlen t = b -> dslice 0 b t = t.
Proof. destruct t; cbn [dslice dlen]; intros <-; unfold lslice; cbn [skipn]; now rewrite firstn_all. Qed.
Lemma piece_row a k i v : i < k -> row i (piece a k v) = row (a + i) v.
Proof.
  intros H. unfold row, piece. rewrite vmap_vmap. apply vmap_ext. intros t _. unfold trow. cbn [sh tl dat].
  rewrite dslice_dslice; [f_equal; f_equal; lia|]. nia.
Qed.
Lemma piece_series a k v : leaves v <> [] -> is_series k (piece a k v).
Proof.
  intros NE. unfold is_series, piece. rewrite leaves_vmap. split.
  - intros E. apply map_eq_nil in E. auto.
  - rewrite Forall_map. apply Forall_forall. intros t _. eexists. reflexivity.
Qed.
Lemma piece_genuine n a k v : genuine v -> is_series n v -> a + k <= n -> genuine (piece a k v).
Proof.
  intros [P W] [_ S] H. unfold piece. split; [now apply pyok_vmap|]. rewrite leaves_vmap, Forall_map.
  rewrite Forall_forall in *. intros t Ht. destruct (S t Ht) as (s & E). specialize (W t Ht). unfold wf in *.
  cbn [sh dat prod fold_right]. rewrite E in *. cbn [tl prod fold_right] in *. fold (prod s) in *.
  apply dslice_len. rewrite W. nia.
Qed.
Lemma piece_all n v : genuine v -> is_series n v -> piece 0 n v = v.
Proof.
  intros [P W] [_ S]. unfold piece. rewrite <- (vmap_id v) at 2. apply vmap_ext. intros t Ht.
  rewrite Forall_forall in *. destruct (S t Ht) as (s & E). specialize (W t Ht). unfold wf in W.
  rewrite E in *. cbn [tl prod fold_right] in *. fold (prod s) in *. rewrite Nat.mul_0_l, dslice_all by exact W.
  destruct t as [sh0 d0]. cbn in *. now subst.
Qed.
Lemma piece_sk a k v : sk (piece a k v) = sk v.
Proof. apply sk_vmap. Qed.
Lemma firstn_rows k n v : k <= n -> firstn k (rows n v) = rows k v.
Proof.
  intros H. unfold rows. rewrite firstn_map. f_equal.
  replace n with (k + (n - k)) by lia. rewrite seq_app, firstn_app, seq_length.
  rewrite firstn_all2 by (rewrite seq_length; lia). replace (k - k) with 0 by lia. cbn [firstn]. apply app_nil_r.
Qed.

Section Run.
Variables (op : operator) (v outs sf s0 : val) (st : option val) (n : nat).
Hypothesis G : genuine v.
Hypothesis SR : is_series n v.
Hypothesis C : call op v st true = Ok (outs, sf, s0).
Definition prefixes : Prop := forall a, 0 < a <= n -> exists o s, call op (piece 0 a v) st true = Ok (o, s, s0) /\
  forall i, i < a -> row i o = row i outs.
Definition splits : Prop := forall a k o' s', 0 < a -> 0 < k -> a + k <= n -> call op (piece 0 (a + k) v) st true = Ok (o', s', s0) ->
  exists p1 t1 p2, call op (piece 0 a v) st true = Ok (p1, t1, s0) /\ call op (piece a k v) (Some t1) true = Ok (p2, s', t1) /\
    forall i, i < k -> row (a + i) o' = row i p2.
Hypothesis prefix : prefixes.
Hypothesis split2 : splits.

(** The state after [a] elements. *)
Definition after (a : nat) (q : option val) : Prop :=
  match a with
  | 0 => q = st
  | _ => exists o s i, call op (piece 0 a v) st true = Ok (o, s, i) /\ q = Some s
  end.
Lemma next a k q : 0 < k -> a + k <= n -> after a q ->
  exists o s i, call op (piece a k v) q true = Ok (o, s, i) /\ after (a + k) (Some s) /\
    rows k o = map (fun i => row (a + i) outs) (seq 0 k).
Proof.
  intros Hk H A. destruct (prefix (a + k)) as (o' & s' & E & R); [lia|].
  destruct a as [|a]; cbn [after] in A.
  - subst q. exists o', s', s0. split; [exact E|]. split.
    + destruct k; [lia|]. cbn [Nat.add after]. eauto.
    + apply map_ext_in. intros i Hi. apply in_seq in Hi. rewrite R by lia. reflexivity.
  - destruct A as (o1 & s1 & i1 & E1 & ->).
    destruct (split2 (S a) k o' s') as (p1 & t1 & p2 & F1 & F2 & R2); auto; try lia.
    rewrite E1 in F1. injection F1 as <- <- <-. exists p2, s', s1. split; [exact F2|]. split.
    + cbn [Nat.add after]. cbn [Nat.add] in E. eauto.
    + apply map_ext_in. intros i Hi. apply in_seq in Hi. rewrite <- R2 by lia. apply R. lia.
Qed.
Lemma after_all q : 0 < n -> after n q -> q = Some sf.
Proof.
  intros Hn A. destruct n as [|m] eqn:En; [lia|]. destruct A as (o & s & i & E & ->).
  rewrite piece_all in E by (auto). rewrite C in E. now injection E as <- <- <-.
Qed.
Lemma rows_app a k : firstn a (rows n outs) ++ map (fun i => row (a + i) outs) (seq 0 k) = firstn (a + k) (rows (a + k) outs) \/ n < a + k.
Proof.
  destruct (Nat.le_gt_cases (a + k) n); [left|now right]. rewrite firstn_rows by lia.
  rewrite firstn_rows by lia. unfold rows. rewrite seq_app, map_app. f_equal. rewrite (seq_from (0 + a) k), map_map. reflexivity.
Qed.
Lemma rows_more a k : a + k <= n ->
  firstn a (rows n outs) ++ map (fun i => row (a + i) outs) (seq 0 k) = firstn (a + k) (rows n outs).
Proof. intros H. rewrite (firstn_rows (a + k)) by lia. destruct (rows_app a k) as [E|]; [|lia]. rewrite E. apply firstn_rows. lia. Qed.

Lemma pieces_from ks : forall a q, Forall (fun k => 0 < k) ks -> a + list_sum ks <= n -> after a q ->
  exists q', in_pieces op v q a ks = Ok (map (fun i => row (a + i) outs) (seq 0 (list_sum ks)), q') /\ after (a + list_sum ks) q'.
Proof.
  induction ks as [|k ks IH]; intros a q P H A.
  - exists q. split; [reflexivity|]. cbn. now rewrite Nat.add_0_r.
  - change (list_sum (k :: ks)) with (k + list_sum ks) in *. inversion P; subst. 
    destruct (next a k q) as (o & s & i & E & A' & R); auto; [lia|].
    destruct (IH (a + k) (Some s)) as (q' & E' & A''); auto; [lia|].
    exists q'. cbn [in_pieces]. rewrite E. cbn [bind]. rewrite E'. cbn [bind]. rewrite R. split.
    + do 2 f_equal. rewrite seq_app, map_app. f_equal. rewrite (seq_from (0 + k)), map_map. apply map_ext. intros j.
      f_equal. lia.
    + now replace (a + (k + list_sum ks)) with (a + k + list_sum ks) by lia.
Qed.
Theorem pieces ks : Forall (fun k => 0 < k) ks -> list_sum ks = n -> 0 < n ->
  in_pieces op v st 0 ks = Ok (rows n outs, Some sf).
Proof.
  intros P E Hn. destruct (pieces_from ks 0 st) as (q & E' & A); auto; [lia|reflexivity|].
  rewrite E'. rewrite E in *. cbn [Nat.add] in A. rewrite (after_all q Hn A). reflexivity.
Qed.

Definition sane (c : progress) : Prop :=
  done c <= n /\ log c = firstn (done c) (rows n outs) /\ after (done c) (left c).
Lemma event_sane e c : sane (fst c) -> sane (snd c) ->
  exists c', on_event op n v e c = Ok c' /\ sane (fst c') /\ sane (snd c') /\
    (forall k, e = Feed k -> done (fst c') = Nat.min n (done (fst c) + k)).
Proof.
  destruct c as [now saved]. cbn [fst snd]. intros S1 S2. destruct e; cbn [on_event].
  - destruct (Nat.min k (n - done now)) as [|j] eqn:Ek.
    + exists (now, saved). repeat split; try apply S1; try apply S2. intros k0 [= ->]. cbn [fst]. destruct S1. lia.
    + rewrite <- Ek. destruct S1 as (L & Lg & A). 
      destruct (next (done now) (Nat.min k (n - done now)) (left now)) as (o & s & i & E & A' & R); auto; try lia.
      rewrite E. cbn [bind]. eexists. split; [reflexivity|]. cbn [fst snd done log left]. split; [|split; [exact S2|]].
      * repeat split; cbn [done log left]; [lia| |exact A']. rewrite Lg, R. apply rows_more. lia.
      * intros k0 [= ->]. lia.
  - exists (now, now). repeat split; try apply S1. discriminate.
  - exists (saved, saved). repeat split; try apply S2. discriminate.
Qed.
Lemma events_sane es : forall c, sane (fst c) -> sane (snd c) ->
  exists c', on_events op n v es c = Ok c' /\ sane (fst c') /\ sane (snd c').
Proof.
  induction es as [|e es IH]; intros c S1 S2; [exists c; auto|]. cbn [on_events].
  destruct (event_sane e c S1 S2) as (c1 & E & H1 & H2 & _). rewrite E. cbn [bind]. now apply IH.
Qed.
Lemma fresh_sane : sane (fst (fresh st)) /\ sane (snd (fresh st)).
Proof. repeat split; cbn; lia. Qed.
Lemma events_app es fs : forall c, on_events op n v (es ++ fs) c = let* c' := on_events op n v es c in on_events op n v fs c'.
Proof.
  induction es as [|e es IH]; intros c; [reflexivity|]. cbn [app on_events].
  destruct (on_event op n v e c) as [c'|]; [apply IH|reflexivity].
Qed.
Theorem recovery es : exists now saved, on_events op n v es (fresh st) = Ok (now, saved) /\
  done now <= n /\ log now = firstn (done now) (rows n outs).
Proof.
  destruct (events_sane es (fresh st)) as ([now saved] & E & (H1 & H2 & _) & _); try apply fresh_sane.
  exists now, saved. auto.
Qed.
Theorem recovery_complete es : 0 < n -> exists saved,
  on_events op n v (es ++ [Feed n]) (fresh st) = Ok (mkProgress n (Some sf) (rows n outs), saved).
Proof.
  intros Hn. destruct (events_sane es (fresh st)) as (c & E & H1 & H2); try apply fresh_sane.
  destruct (event_sane (Feed n) c H1 H2) as ([[d l lg] saved] & E' & (B1 & B2 & B3) & _ & D).
  specialize (D n eq_refl). cbn [fst done log left] in *.
  assert (d = n) by (destruct c as [[? ? ?] ?]; cbn in *; lia). clear D. subst d.
  exists saved. rewrite events_app, E. cbn [bind on_events]. rewrite E'. cbn [bind].
  rewrite B2, (after_all l Hn B3). rewrite firstn_rows by lia. reflexivity.
Qed.
End Run.

Lemma piece_concat n a k v : leaves v <> [] -> is_series n v -> a + k <= n -> is_concat a k (piece 0 a v) (piece a k v) (piece 0 (a + k) v).
Proof.
  intros L SR H. repeat split; try (apply piece_series; exact L).
  all: intros i Hi; rewrite !piece_row by lia; f_equal; lia.
Qed.
Lemma structured_prefixes op v outs sf s0 st n zo zs : typed op (sk v) zo zs -> genuine v -> genuine_opt st -> state_like st zs -> is_series n v ->
  call op v st true = Ok (outs, sf, s0) -> prefixes op v outs s0 st n.
Proof.
  intros T G Gst SL SR C a H. apply (structured_causal op (piece 0 a v) v st a n outs sf s0 zo zs); auto; try lia.
  - apply (piece_genuine n); auto; lia.
  - apply piece_series, SR.
  - intros i Hi. rewrite piece_row by assumption. reflexivity.
Qed.
Lemma structured_splits op v s0 st n zo zs : typed op (sk v) zo zs -> genuine v -> genuine_opt st -> state_like st zs -> is_series n v ->
  splits op v s0 st n.
Proof.
  intros T G Gst SL SR a k o' s' Ha Hk H E.
  destruct (structured_split op (piece 0 a v) (piece a k v) (piece 0 (a + k) v) st a k o' s' s0 zo zs)
    as (p1 & t1 & p2 & F1 & F2 & R1 & R2); auto; try lia.
  - now rewrite piece_sk.
  - apply (piece_genuine n); auto; lia.
  - apply (piece_genuine n); auto; lia.
  - apply (piece_genuine n); auto; lia.
  - apply (piece_concat n); auto. apply SR.
  - exists p1, t1, p2. auto.
Qed.
Lemma piece_sig n a k v zx : sig v = wide n zx -> sig (piece a k v) = wide k zx.
Proof.
  intros E. unfold piece, sig, wide in *. rewrite vmap_vmap.
  assert (H : vmap (fun t => tsig t) v = vmap (fun x : list nat * dtype => (n :: fst x, snd x)) zx) by exact E.
  apply (f_equal (vmap (fun x : list nat * dtype => (k :: tl (fst x), snd x)))) in H. rewrite !vmap_vmap in H. cbn [fst snd tl] in H.
  etransitivity; [|exact H]. apply vmap_ext. intros t _. unfold tsig, dtype_of. cbn [sh dat fst snd]. destruct (dat t); reflexivity.
Qed.
Lemma shaped_prefixes op v outs sf s0 st n zx zo zs : well_shaped op zx zo zs -> leaves zx <> [] -> genuine v -> sig v = wide n zx ->
  state_shaped st zs -> is_series n v -> call op v st true = Ok (outs, sf, s0) -> prefixes op v outs s0 st n.
Proof.
  intros W L G E SS SR C a H. destruct (shaped_causal op zx zo zs (piece 0 a v) v st a a n W L) as (o & s & i & o' & s' & C1 & C2 & R); auto; try lia.
  - apply (piece_genuine n); auto; lia.
  - now apply (piece_sig n).
  - intros i Hi. rewrite piece_row by assumption. reflexivity.
  - assert (Q := eq_trans (eq_sym C2) C). injection Q as -> -> ->. exists o, s. auto.
Qed.
Lemma shaped_splits op v s0 st n zx zo zs : well_shaped op zx zo zs -> leaves zx <> [] -> genuine v -> sig v = wide n zx ->
  state_shaped st zs -> is_series n v -> splits op v s0 st n.
Proof.
  intros W L G E SS SR a k o' s' Ha Hk H C.
  destruct (shaped_chunks op zx zo zs (piece 0 a v) (piece a k v) (piece 0 (a + k) v) st a k W L) as (o & s2 & i & o1 & s1 & o2 & C0 & C1 & C2 & R1 & R2); auto.
  - apply (piece_genuine n); auto; lia.
  - now apply (piece_sig n).
  - apply (piece_genuine n); auto; lia.
  - apply (piece_genuine n); auto; lia.
  - apply (piece_concat n); auto. apply SR.
  - assert (Q := eq_trans (eq_sym C0) C). injection Q as -> -> ->. exists o1, s1, o2. auto.
Qed.
Theorem shaped_service op v st n zx zo zs : well_shaped op zx zo zs -> leaves zx <> [] -> genuine v -> sig v = wide n zx -> state_shaped st zs -> 0 < n ->
  exists outs sf s0, call op v st true = Ok (outs, sf, s0) /\
    (forall lengths, Forall (fun k => 0 < k) lengths -> list_sum lengths = n -> in_pieces op v st 0 lengths = Ok (rows n outs, Some sf)) /\
    (forall events, exists now saved, on_events op n v events (fresh st) = Ok (now, saved) /\ done now <= n /\ log now = firstn (done now) (rows n outs)) /\
    (forall events, exists saved, on_events op n v (events ++ [Feed n]) (fresh st) = Ok (mkProgress n (Some sf) (rows n outs), saved)).
Proof.
  intros W L G E SS Hn. destruct (shaped_stream op zx zo zs v st n W L Hn G E SS) as (outs & sf & s0 & os & C & _).
  assert (SR : is_series n v) by (apply (wide_series n v zx); [exact L|now split]).
  assert (P := shaped_prefixes op v outs sf s0 st n zx zo zs W L G E SS SR C).
  assert (Q := shaped_splits op v s0 st n zx zo zs W L G E SS SR).
  exists outs, sf, s0. split; [exact C|]. split; [|split].
  - intros. now apply (pieces op v outs sf s0 st n).
  - intros. now apply (recovery op v outs sf s0 st n).
  - intros. now apply (recovery_complete op v outs sf s0 st n).
Qed.
End ServiceFacts.
