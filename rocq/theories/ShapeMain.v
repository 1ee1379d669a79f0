(** * ShapeMain: the proofs of the theorems of PropsShape.v. *)
From Coq Require Import List ZArith Bool Lia.
From Verif Require Import Num Py PyFacts Tensor Streamable Spec SpecMeta Meta Common Finance Library
  StreamProofs GenuineBase GenuineLib InitLib Shapes ShapeFacts ShapeProofs ShapeStream ShapeInit ShapeMap ShapeLib.
Import ListNotations.

Section ShapeMain.
Context {N : FOps}.
Lemma ws_safe op zx zo zs : well_shaped op zx zo zs -> safe op zx zo zs.
Proof. apply (proj1 well_shaped_safe). Qed.

Theorem shaped_step op zx zo zs x st :
  well_shaped op zx zo zs -> genuine x -> sig x = zx -> state_shaped st zs ->
  exists o s i, call op x st false = Ok (o, s, i) /\
    genuine o /\ sig o = zo /\ genuine s /\ sig s = zs /\ genuine i /\ sig i = zs.
Proof.
  intros H G E Hs. destruct (wp_call op zx zo zs x st (fun r => vhas (fst (fst r)) zo /\ vhas (snd (fst r)) zs /\ vhas (snd r) zs))
    as ([[o s] i] & C & [] & [] & []); [now apply ws_safe|now split|exact Hs|cbn; auto|]. exists o, s, i. cbn [fst snd] in *. auto 10.
Qed.
Theorem shaped_stream op zx zo zs v st n :
  well_shaped op zx zo zs -> leaves zx <> [] -> n > 0 -> genuine v -> sig v = wide n zx -> state_shaped st zs ->
  exists outs sf s0 os, call op v st true = Ok (outs, sf, s0) /\
    genuine outs /\ sig outs = wide n zo /\ genuine sf /\ sig sf = zs /\ genuine s0 /\ sig s0 = zs /\
    starts_from op st (row 0 v) s0 /\ steps op s0 (rows n v) = Ok (os, sf) /\
    forall i, i < n -> row i outs = nth i os (Tup []).
Proof.
  intros H NE Hn G E Hs. destruct (safe_series op zx zo zs (ws_safe _ _ _ _ H) (well_shaped_genuine _ _ _ _ H) v st n NE Hn (conj G E) Hs)
    as (outs & sf & s0 & os & C & [] & [] & [] & K). exists outs, sf, s0, os. auto 10.
Qed.
Theorem shaped_stateless s d zx z k i j : d <> BOOL -> parts zx = [z] ->
  well_shaped Sub (Tup [Leaf (s, d); Leaf (s, d)]) (Leaf (s, d)) (Tup []) /\
  well_shaped Add (Tup [Leaf (s, d); Leaf (s, d)]) (Leaf (s, d)) (Tup []) /\
  well_shaped Mul (Tup [Leaf (s, d); Leaf (s, d)]) (Leaf (s, d)) (Tup []) /\
  well_shaped Positive (Leaf (s, d)) (Leaf (s, d)) (Tup []) /\
  well_shaped Negative (Leaf (s, d)) (Leaf (s, d)) (Tup []) /\
  well_shaped Identity zx z (Tup []) /\ well_shaped (Fork k) zx (Tup (repeat z k)) (Tup []) /\
  (forall zs zi, nth_error zs j = Some zi -> i = Z.of_nat j \/ i = (Z.of_nat j - Z.of_nat (length zs))%Z ->
     well_shaped (Select (IdxOne i)) (Tup zs) zi (Tup [])).
Proof.
  intros Hd E. split; [now apply ws_sub|]. split; [now apply ws_add|]. split; [now apply ws_mul|]. split; [now apply ws_positive|].
  split; [now apply ws_negative|]. split; [now apply ws_identity|]. split; [now apply ws_fork|]. intros. eapply ws_select; eauto.
Qed.
Theorem shaped_compositions p q m s : (1 <= p)%Z -> (1 <= q)%Z -> (1 <= m)%Z ->
  well_shaped (Momentum p) (tf s) (tf s) (Tup [Tup []; Tup [Tup []; past p s F32]; Tup []; Tup [int]]) /\
  well_shaped (SimpleMovingAverageCrossover p q) (tf s) (tf s)
    (Tup [Tup []; Tup [Tup [s_sma q s; Tup [int]]; s_sma p s]; Tup []]) /\
  well_shaped (SimpleMovingAverageCrossoverSignal p q) (tf s) (ti s)
    (Tup [Tup [Tup []; Tup [Tup [s_sma q s; Tup [int]]; s_sma p s]; Tup []]; Tup [bool_; tf s]; Tup [int]]) /\
  well_shaped (MovingAverageConvergenceDivergenceSignal p q m) (tf s) (ti s)
    (Tup [Tup [int; s_ema p s; s_ema q s; s_ema m s]; Tup []; Tup [bool_; tf s]; Tup [int]]) /\
  well_shaped (Volatility p q) num num (Tup [s_sma q []; s_sma p []; Tup [int]]).
Proof.
  intros Hp Hq Hm. split; [now apply ws_momentum|]. split; [now apply ws_crossover|]. split; [now apply ws_crossover_signal|].
  split; [now apply ws_macd_signal|now apply ws_volatility].
Qed.
Theorem shaped_chunks op zx zo zs a b v st n m :
  well_shaped op zx zo zs -> leaves zx <> [] -> n > 0 -> m > 0 -> genuine v -> sig v = wide (n + m) zx -> state_shaped st zs ->
  genuine a -> genuine b -> is_concat n m a b v ->
  exists o s2 s0 o1 s1 o2,
    call op v st true = Ok (o, s2, s0) /\ call op a st true = Ok (o1, s1, s0) /\ call op b (Some s1) true = Ok (o2, s2, s1) /\
    (forall i, i < n -> row i o = row i o1) /\ (forall i, i < m -> row (n + i) o = row i o2).
Proof.
  intros H NE Hn Hm G E. apply (safe_chunks op zx zo zs (ws_safe _ _ _ _ H) (well_shaped_genuine _ _ _ _ H)); auto. now split.
Qed.
Theorem shaped_causal op zx zo zs v w st n k l :
  well_shaped op zx zo zs -> leaves zx <> [] -> 0 < n -> n <= k -> n <= l ->
  genuine v -> sig v = wide k zx -> genuine w -> sig w = wide l zx -> state_shaped st zs ->
  (forall i, i < n -> row i v = row i w) ->
  exists o s s0 o' s', call op v st true = Ok (o, s, s0) /\ call op w st true = Ok (o', s', s0) /\
    forall i, i < n -> row i o = row i o'.
Proof.
  intros H NE Hn Hk Hl G E G' E'. apply (safe_causal op zx zo zs (ws_safe _ _ _ _ H) (well_shaped_genuine _ _ _ _ H) v w st n k l); auto; now split.
Qed.
Lemma shaped_initial_eq op zx zo zs x y o s i o' s' i' : well_shaped op zx zo zs -> vhas x zx -> vhas y zx ->
  call op x None false = Ok (o, s, i) -> call op y None false = Ok (o', s', i') -> i = i'.
Proof. intros H. apply det_call. eapply (proj1 well_shaped_det); eauto. Qed.
Theorem shaped_initial op zx zo zs x y :
  well_shaped op zx zo zs -> genuine x -> sig x = zx -> genuine y -> sig y = zx ->
  exists s0 o s o' s', call op x None false = Ok (o, s, s0) /\ call op y None false = Ok (o', s', s0).
Proof.
  intros H Gx Ex Gy Ey. destruct (shaped_step op zx zo zs x None H Gx Ex I) as (o & s & i & C & _).
  destruct (shaped_step op zx zo zs y None H Gy Ey I) as (o' & s' & i' & C' & _).
  assert (i' = i) as -> by (eapply (shaped_initial_eq op zx); [exact H| | |exact C'|exact C]; now split).
  exists i, o, s, o', s'. auto.
Qed.
Theorem shaped_initial_streamed op zx zo zs v w n m :
  well_shaped op zx zo zs -> leaves zx <> [] -> n > 0 -> m > 0 ->
  genuine v -> sig v = wide n zx -> genuine w -> sig w = wide m zx ->
  exists s0 o s o' s', call op v None true = Ok (o, s, s0) /\ call op w None true = Ok (o', s', s0).
Proof.
  intros H NE Hn Hm Gv Ev Gw Ew.
  destruct (shaped_stream op zx zo zs v None n H NE Hn Gv Ev I) as (o & s & s0 & os & C & _ & _ & _ & _ & _ & _ & (x & y & S0) & _).
  destruct (shaped_stream op zx zo zs w None m H NE Hm Gw Ew I) as (o' & s' & s0' & os' & C' & _ & _ & _ & _ & _ & _ & (x' & y' & S0') & _).
  assert (s0' = s0) as ->.
  { eapply (shaped_initial_eq op zx); [exact H| | |exact S0'|exact S0]; (eapply row_vhas; [split; eassumption|assumption]). }
  exists s0, o, s, o', s'. auto.
Qed.
Theorem shaped_initial_reused op zx zo zs v w n m o s s0 :
  well_shaped op zx zo zs -> leaves zx <> [] -> n > 0 -> m > 0 ->
  genuine v -> sig v = wide n zx -> genuine w -> sig w = wide m zx ->
  call op v None true = Ok (o, s, s0) -> call op w (Some s0) true = call op w None true.
Proof.
  intros H NE Hn Hm Gv Ev Gw Ew C.
  destruct (shaped_initial_streamed op zx zo zs v w n m H NE Hn Hm Gv Ev Gw Ew) as (s1 & o1 & s2 & o' & s' & C1 & C2).
  rewrite C in C1. injection C1 as <- <- <-. rewrite C2. apply wired_init_streamed; [exact Gw| |exact C2].
  eapply (proj1 well_shaped_wired); [exact H|]. apply (row_vhas m); [now split|exact Hm].
Qed.
Theorem shaped_map op zx zo zs n T v st :
  well_shaped op zx zo zs -> n >= 1 -> leaves zx <> [] -> T > 0 ->
  genuine v -> sig v = wide T (wide n zx) -> state_shaped st (wide n zs) ->
  exists outs ns s, call (Map op n) v (option_map (fun s => Tup [s]) st) true = Ok (outs, Tup [ns], Tup [s]) /\
    genuine outs /\ sig outs = wide T (wide n zo) /\ genuine ns /\ sig ns = wide n zs /\ genuine s /\ sig s = wide n zs /\
    forall j w, j < n -> is_column T j v w -> exists out,
      call op w (option_map (row j) st) true = Ok (out, row j ns, row j s) /\ forall i, i < T -> row i out = row j (row i outs).
Proof.
  intros H Hn NE HT G E Hs. destruct (map_shaped op n zx zo zs H Hn NE T v st HT (conj G E) Hs) as (outs & ns & s & C & [] & [] & [] & K).
  exists outs, ns, s. auto 12.
Qed.
End ShapeMain.
