(** * PropsStructure: property C48 — outputs and states keep one nested structure — and the versions of C01 to
    C04 and C08 for the operators of the library, without hypotheses on structures.
    Vocabulary: Structure.v ([typed], [signature]), Spec.v, SpecMeta.v. *)
From Coq Require Import List ZArith Bool Lia.
From Verif Require Import Num Py PyFacts Tensor Streamable Spec SpecMeta Meta Common Finance Library
  GenuineBase GenuineLib InitLib Structure StructLib StructProofs Witness WitnessMeta WitnessFill.
Import ListNotations.

(** ** C48 *)
(** One call: the structures of the output, of the new state and of the initial state are those that [typed]
    gives for the structure of the inputs, whatever their values. *)
Theorem C48_single_call {N : FOps} op zo zs x st o s' i :
  typed op (sk x) zo zs -> genuine x -> genuine_opt st -> state_like st zs ->
  call op x st false = Ok (o, s', i) -> sk o = zo /\ sk s' = zs /\ sk i = zs.
Proof. exact (typed_call op zo zs x st o s' i). Qed.
Print Assumptions C48_single_call.
(** A streamed call: so do the series of outputs, the final state and the initial state.  This is C01 without its
    hypothesis on structures. *)
Theorem C48_streamed {N : FOps} op v st outs sf s0 zo zs :
  typed op (sk v) zo zs -> genuine v -> genuine_opt st -> state_like st zs ->
  call op v st true = Ok (outs, sf, s0) ->
  exists n os, n > 0 /\ is_series n v /\ starts_from op st (row 0 v) s0 /\
    steps op s0 (rows n v) = Ok (os, sf) /\ length os = n /\ genuine outs /\
    (forall i, i < n -> row i outs = nth i os (Tup [])) /\
    sk outs = zo /\ sk sf = zs /\ sk s0 = zs.
Proof. exact (structured_streaming op v st outs sf s0 zo zs). Qed.
Print Assumptions C48_streamed.
(** The stateless operators. *)
Theorem C48_subtraction {N : FOps} zx : typed Sub zx one (Tup []).
Proof. exact (ty_sub zx). Qed.
Print Assumptions C48_subtraction.
Theorem C48_addition {N : FOps} zx : typed Add zx one (Tup []).
Proof. exact (ty_add zx). Qed.
Print Assumptions C48_addition.
Theorem C48_product {N : FOps} zx : typed Mul zx one (Tup []).
Proof. exact (ty_mul zx). Qed.
Print Assumptions C48_product.
Theorem C48_fork {N : FOps} n zx z : elems zx = [z] -> typed (Fork n) zx (Tup (repeat z n)) (Tup []).
Proof. exact (ty_fork n zx z). Qed.
Print Assumptions C48_fork.
Theorem C48_identity {N : FOps} zx z : elems zx = [z] -> typed Identity zx z (Tup []).
Proof. exact (ty_identity zx z). Qed.
Print Assumptions C48_identity.
Theorem C48_select {N : FOps} zx i z : index_of (elems zx) i z -> typed (Select (IdxOne i)) zx z (Tup []).
Proof. exact (ty_select zx i z). Qed.
Print Assumptions C48_select.
Theorem C48_select_list {N : FOps} zx l zs :
  Forall2 (index_of (elems zx)) l zs -> typed (Select (IdxList l)) zx (Lst zs) (Tup []).
Proof. exact (ty_select_list zx l zs). Qed.
Print Assumptions C48_select_list.
Theorem C48_positive {N : FOps} zx : typed Positive zx one (Tup []).
Proof. exact (ty_positive zx). Qed.
Print Assumptions C48_positive.
Theorem C48_negative {N : FOps} zx : typed Negative zx one (Tup []).
Proof. exact (ty_negative zx). Qed.
Print Assumptions C48_negative.
(** The operators shipped as compositions. *)
Theorem C48_momentum {N : FOps} p : typed (Momentum p) one one z_momentum.
Proof. exact (ty_momentum p). Qed.
Print Assumptions C48_momentum.
Theorem C48_crossover {N : FOps} s f : typed (SimpleMovingAverageCrossover s f) one one z_crossover.
Proof. exact (ty_crossover s f). Qed.
Print Assumptions C48_crossover.
Theorem C48_crossover_signal {N : FOps} s f :
  typed (SimpleMovingAverageCrossoverSignal s f) one one (Tup [z_crossover; many 2; Tup [one]]).
Proof. exact (ty_crossover_signal s f). Qed.
Print Assumptions C48_crossover_signal.
Theorem C48_macd_signal {N : FOps} s f m : typed (MovingAverageConvergenceDivergenceSignal s f m) one one
  (Tup [Tup [one; z_ema; z_ema; z_ema]; Tup []; many 2; Tup [one]]).
Proof. exact (ty_macd_signal s f m). Qed.
Print Assumptions C48_macd_signal.
Theorem C48_volatility {N : FOps} m r : typed (Volatility m r) one one (Tup [many 2; many 2; Tup [one]]).
Proof. exact (ty_volatility m r). Qed.
Print Assumptions C48_volatility.
(** Only operators of the library are given a structure. *)
Theorem C48_known_operators {N : FOps} op zx zo zs : typed op zx zo zs -> library op.
Proof. exact (typed_library op zx zo zs). Qed.
Print Assumptions C48_known_operators.
(** The hypotheses on structures of the other properties follow. *)
Theorem C48_uniform {N : FOps} op v st n zo zs :
  typed op (sk v) zo zs -> genuine v -> genuine_opt st -> is_series n v -> n > 0 ->
  state_like st zs -> uniform sk op st v n.
Proof. exact (typed_uniform op v st n zo zs). Qed.
Print Assumptions C48_uniform.
Theorem C48_kept {N : FOps} op zx zo zs xs :
  typed op zx zo zs -> (forall x, In x xs -> genuine x /\ sk x = zx) -> keeps_structure op zs zo xs.
Proof. exact (typed_keeps op zx zo zs xs). Qed.
Print Assumptions C48_kept.
Example C48_met :
  let op := Join [FFill (SimpleMovingAverage 2); Compose [BollingerBands 3 (PyInt 2); Momentum 1]] in
  let v := Tup [ser [1; 2; 0; 4]%Z; ser [1; 2; 3; 4]%Z] in
  genuine v /\
  typed op (sk v) (Tup [one; many 3]) (Tup [Tup [one; z_sma]; Tup [z_momentum; Tup [many 2; z_sma]]]) /\
  exists r, call op v None true = Ok r.
Proof.
  cbv zeta. split; [gen|]. split; [|runs].
  eapply ty_join; [left; reflexivity|]. eapply ty_more; [|eapply ty_more; [|apply ty_none]].
  - apply ty_ffill; [|reflexivity..]. eapply ty_step; [apply sg_sma|reflexivity].
  - apply ty_compose. eapply ty_next; [apply ty_momentum|]. apply ty_last. eapply ty_step; [apply sg_bollinger|reflexivity].
Qed.

(** ** C02, C03, C04 *)
Theorem C02_library_one_series_is_two_chunks {N : FOps} op a b v st n m o s2 i1 zo zs :
  typed op (sk v) zo zs -> genuine a -> genuine b -> genuine v -> genuine_opt st -> state_like st zs ->
  is_concat n m a b v -> n > 0 -> m > 0 ->
  call op v st true = Ok (o, s2, i1) ->
  exists o1 s1 o2,
    call op a st true = Ok (o1, s1, i1) /\
    call op b (Some s1) true = Ok (o2, s2, s1) /\
    (forall i, i < n -> row i o = row i o1) /\ (forall i, i < m -> row (n + i) o = row i o2).
Proof. exact (structured_split op a b v st n m o s2 i1 zo zs). Qed.
Print Assumptions C02_library_one_series_is_two_chunks.
(** Two chunks make one series when the outputs of both have elements of the same shapes and dtypes. *)
Theorem C02_library_two_chunks_are_one_series {N : FOps} op a b v st n m o1 s1 i1 o2 s2 i2 zo zs :
  typed op (sk v) zo zs -> genuine a -> genuine b -> genuine v -> genuine_opt st -> state_like st zs ->
  is_concat n m a b v -> sig (row 0 o1) = sig (row 0 o2) ->
  call op a st true = Ok (o1, s1, i1) ->
  call op b (Some s1) true = Ok (o2, s2, i2) ->
  exists o, call op v st true = Ok (o, s2, i1) /\ genuine o /\
    (forall i, i < n -> row i o = row i o1) /\ (forall i, i < m -> row (n + i) o = row i o2).
Proof. exact (structured_join op a b v st n m o1 s1 i1 o2 s2 i2 zo zs). Qed.
Print Assumptions C02_library_two_chunks_are_one_series.
Theorem C03_library_causal {N : FOps} op a v st n m o s2 i1 zo zs :
  typed op (sk v) zo zs -> genuine a -> genuine v -> genuine_opt st -> state_like st zs ->
  is_series n a -> is_series m v -> n <= m -> n > 0 -> (forall i, i < n -> row i a = row i v) ->
  call op v st true = Ok (o, s2, i1) ->
  exists o1 s1, call op a st true = Ok (o1, s1, i1) /\ (forall i, i < n -> row i o1 = row i o).
Proof. exact (structured_causal op a v st n m o s2 i1 zo zs). Qed.
Print Assumptions C03_library_causal.
Theorem C04_library {N : FOps} op v o sf s0 zo zs : typed op (sk v) zo zs -> genuine v ->
  call op v None true = Ok (o, sf, s0) -> call op v (Some s0) true = Ok (o, sf, s0).
Proof. exact (structured_init op v o sf s0 zo zs). Qed.
Print Assumptions C04_library.
Example C02_library_met : typed w_op (sk w_series) one z_sma /\ is_concat 2 3 w_head w_tail w_series /\
  exists o1 s1 i1 o2 s2 i2, call w_op w_head None true = Ok (o1, s1, i1) /\ call w_op w_tail (Some s1) true = Ok (o2, s2, i2) /\
    sig (row 0 o1) = sig (row 0 o2).
Proof.
  split; [eapply ty_step; [apply sg_sma|reflexivity]|]. split; [exact w_is_concat|].
  exists (fst (fst e_head)), (snd (fst e_head)), (snd e_head), (fst (fst e_tail)), (snd (fst e_tail)), (snd e_tail).
  split; [exact e_head_call|]. split; [exact e_tail_call|exact e_sig].
Qed.

(** ** C08 *)
(** If every operator streams over the outputs of the one before it, the rightmost first, then their composition
    streams, with the same outputs and the tuple of the states. *)
Theorem C08_library {N : FOps} ops v sts zo zss o ss is :
  typed_chain (rev ops) (sk v) zo zss -> genuine v -> given_states (length ops) sts ->
  (forall l, sts = Some l -> map sk l = zss) ->
  called_in_turn true (rev ops) v (states_for (length ops) sts) o ss is ->
  call (Compose ops) v (tuple_state sts) true = Ok (o, Tup ss, Tup is).
Proof. exact (structured_compose ops v sts zo zss o ss is). Qed.
Print Assumptions C08_library.
Example C08_library_met : exists zo zss, typed_chain (rev m_ops) (sk m_series) zo zss /\
  called_in_turn true (rev m_ops) m_series (states_for (length m_ops) None) m_out m_states m_inits.
Proof.
  exists one, [z_sma; one; z_ema]. split.
  - eapply ty_next; [eapply ty_step; [apply sg_sma|reflexivity]|]. eapply ty_next; [eapply ty_step; [apply sg_lag|reflexivity]|].
    apply ty_last. eapply ty_step; [apply sg_ema|reflexivity].
  - eapply turn_next; [exact m_call1|]. eapply turn_next; [exact m_call2|]. apply turn_last. exact m_call3.
Qed.
