(** * PropsMeta: properties C08 to C11 — Compose, Join and Factory.
    Vocabulary: SpecMeta.v and Spec.v. *)
From Coq Require Import List ZArith Bool.
From Verif Require Import Num Py PyFacts Tensor Streamable Spec SpecMeta Meta Common Finance Library
  GenuineBase GenuineLib ComposeFacts JoinFacts TruncFacts NestFacts Witness WitnessMeta.
Import ListNotations.

(** ** C08: Compose *)
(** Streaming every operator over the outputs of the one before it, the rightmost first, is what
    streaming the composition does; the state is the tuple of their states, rightmost first. *)
Theorem C08_streams_in_turn {N : FOps} n ops v sts o ss is :
  genuine v -> given_states (length ops) sts -> Forall genuine_op ops ->
  streamed_in_turn n (rev ops) v (states_for (length ops) sts) o ss is ->
  call (Compose ops) v (tuple_state sts) true = Ok (o, Tup ss, Tup is).
Proof. exact (compose_in_turn n ops v sts o ss is). Qed.
Print Assumptions C08_streams_in_turn.
(** One stage at a time, in both directions: after the rightmost operator has been streamed, the
    composition streams iff the rest of it streams over the outputs. *)
Theorem C08_next {N : FOps} n op ops v mid sts o s ss i is :
  genuine v -> given_states (S (length ops)) sts -> genuine_op op -> Forall genuine_op ops -> ops <> [] ->
  good_stage n op (hd_st sts) v mid ->
  call op v (hd_st sts) true = Ok (mid, s, i) ->
  call (Compose (ops ++ [op])) v (tuple_state sts) true = Ok (o, Tup (s :: ss), Tup (i :: is)) <->
  call (Compose ops) mid (tuple_state (tl_st sts)) true = Ok (o, Tup ss, Tup is).
Proof. exact (compose_next n op ops v mid sts o s ss i is). Qed.
Print Assumptions C08_next.
(** And if the composition streams, the rightmost operator can be streamed on its own. *)
Theorem C08_first {N : FOps} n op ops v sts o s i :
  genuine v -> given_states (S (length ops)) sts -> genuine_op op -> Forall genuine_op ops -> ops <> [] ->
  is_series n v -> uniform sig op (hd_st sts) v n ->
  call (Compose (ops ++ [op])) v (tuple_state sts) true = Ok (o, s, i) ->
  exists mid s1 i1, call op v (hd_st sts) true = Ok (mid, s1, i1).
Proof. exact (compose_first n op ops v sts o s i). Qed.
Print Assumptions C08_first.
(** A composition of one operator is that operator with its state in a tuple. *)
Theorem C08_one_operator {N : FOps} op v st b o s i : genuine v -> genuine_opt st -> genuine_op op ->
  call (Compose [op]) v (option_map (fun s => Tup [s]) st) b = Ok (o, s, i) <->
  exists s1 i1, call op v st b = Ok (o, s1, i1) /\ s = Tup [s1] /\ i = Tup [i1].
Proof. exact (compose_one op v st b o s i). Qed.
Print Assumptions C08_one_operator.
(** A single call: each operator is called once, on the output of the one before it. *)
Theorem C08_single_call {N : FOps} ops x sts o s i : genuine x -> given_states (length ops) sts -> ops <> [] ->
  call (Compose ops) x (tuple_state sts) false = Ok (o, s, i) <->
  exists ss is, s = Tup ss /\ i = Tup is /\
    called_in_turn false (rev ops) x (states_for (length ops) sts) o ss is.
Proof. exact (compose_once ops x sts o s i). Qed.
Print Assumptions C08_single_call.
(** The loop of single calls: it is the loop of the rightmost operator, then the loop of the next one
    over its outputs, and so on. No hypothesis on structures. *)
Theorem C08_loop {N : FOps} ops ss xs os sf :
  ops <> [] -> Forall genuine_op ops -> Forall genuine xs -> Forall genuine ss -> length ss = length ops ->
  steps (Compose ops) (Tup ss) xs = Ok (os, sf) <->
  exists sfs, sf = Tup sfs /\ stepped_in_turn (rev ops) ss xs os sfs.
Proof. exact (compose_steps ops ss xs os sf). Qed.
Print Assumptions C08_loop.
(** Nesting: a composition within a composition gives the same outputs, streamed or not; only the
    states are grouped differently. *)
Theorem C08_nesting {N : FOps} A B C v q b o s i :
  B <> [] -> Forall genuine_op (A ++ B ++ C) -> genuine v -> Gopt (Gtriple C B A) q ->
  call (Compose (A ++ B ++ C)) v (option_map flat q) b = Ok (o, s, i) ->
  exists p i', Gtriple C B A p /\ Gtriple C B A i' /\ s = flat p /\ i = flat i' /\
    call (Compose (A ++ Compose B :: C)) v (option_map nest q) b = Ok (o, nest p, nest i').
Proof. exact (compose_nest A B C v q b o s i). Qed.
Print Assumptions C08_nesting.
Theorem C08_unnesting {N : FOps} A B C v q b o s i :
  B <> [] -> Forall genuine_op (A ++ B ++ C) -> genuine v -> Gopt (Gtriple C B A) q ->
  call (Compose (A ++ Compose B :: C)) v (option_map nest q) b = Ok (o, s, i) ->
  exists p i', Gtriple C B A p /\ Gtriple C B A i' /\ s = nest p /\ i = nest i' /\
    call (Compose (A ++ B ++ C)) v (option_map flat q) b = Ok (o, flat p, flat i').
Proof. exact (compose_unnest A B C v q b o s i). Qed.
Print Assumptions C08_unnesting.
Example C08_met : genuine m_series /\ Forall genuine_op m_ops /\
  streamed_in_turn 5 (rev m_ops) m_series (states_for (length m_ops) None) m_out m_states m_inits /\
  (exists r, call (Compose m_ops) m_series None true = Ok r) /\
  uniform sig (SimpleMovingAverage 2) None m_series 5 /\
  (exists r, call (Compose [ExponentialMovingAverage 3; Compose [Lag 1; SimpleMovingAverage 2]]) m_series None true = Ok r).
Proof.
  split; [gen|]. split; [exact m_ops_genuine|]. split; [exact m_in_turn|]. split; [runs|]. split; [exact w_uniform_sig|runs].
Qed.
(** ** C09: Join *)
(** Streaming Join gives the tuple of the streams of its operators, each over its own input with its own state. *)
Theorem C09_streams_independently {N : FOps} n ops vs sts outs sf s0 :
  Forall genuine_op ops -> Forall genuine vs -> Forall (is_series n) vs -> given_states (length ops) sts ->
  length vs = length ops -> ops <> [] ->
  call (Join ops) (Tup vs) (tuple_state sts) true = Ok (outs, sf, s0) <->
  exists os ss is, outs = Tup os /\ sf = Tup ss /\ s0 = Tup is /\
    called_each true ops vs (states_for (length ops) sts) os ss is.
Proof. exact (join_true n ops vs sts outs sf s0). Qed.
Print Assumptions C09_streams_independently.
(** The same for a single call. *)
Theorem C09_single_call {N : FOps} ops vs sts o s i :
  Forall genuine vs -> given_states (length ops) sts -> length vs = length ops ->
  call (Join ops) (Tup vs) (tuple_state sts) false = Ok (o, s, i) <->
  exists os ss is, o = Tup os /\ s = Tup ss /\ i = Tup is /\
    called_each false ops vs (states_for (length ops) sts) os ss is.
Proof. exact (join_once ops vs sts o s i). Qed.
Print Assumptions C09_single_call.
Example C09_met : Forall genuine_op m_ops /\ Forall genuine [m_series; m_series; m_second] /\
  Forall (is_series 5) [m_series; m_series; m_second] /\
  exists r, call (Join m_ops) (Tup [m_series; m_series; m_second]) None true = Ok r.
Proof.
  split; [exact m_ops_genuine|]. split; [repeat constructor; gen|]. split; [|runs].
  repeat constructor; try discriminate; exists []; reflexivity.
Qed.
(** ** C10: Join with the wrong number of inputs *)
(** With fewer inputs than operators the last operators are ignored, for every call. No hypothesis at all. *)
Theorem C10_fewer_inputs {N : FOps} ops vs st b :
  call (Join ops) (Tup vs) st b = call (Join (firstn (length vs) ops)) (Tup vs) st b.
Proof. exact (join_fewer ops vs st b). Qed.
Print Assumptions C10_fewer_inputs.
(** With more inputs than operators the last inputs are ignored. *)
Theorem C10_more_inputs {N : FOps} ops vs st : Forall genuine vs -> genuine_opt st ->
  call (Join ops) (Tup vs) st false = call (Join ops) (Tup (firstn (length ops) vs)) st false.
Proof. exact (join_more ops vs st). Qed.
Print Assumptions C10_more_inputs.
Theorem C10_more_inputs_streamed {N : FOps} n ops vs st : Forall genuine vs -> genuine_opt st -> is_series n (Tup vs) ->
  leaves (Tup (firstn (length ops) vs)) <> [] ->
  call (Join ops) (Tup vs) st true = call (Join ops) (Tup (firstn (length ops) vs)) st true.
Proof. exact (join_more_streamed n ops vs st). Qed.
Print Assumptions C10_more_inputs_streamed.
(** With fewer states than operators the last operators are ignored. *)
Theorem C10_fewer_states {N : FOps} ops vs ss : Forall genuine vs -> Forall genuine ss ->
  call (Join ops) (Tup vs) (Some (Tup ss)) false =
  call (Join (firstn (length ss) ops)) (Tup vs) (Some (Tup ss)) false.
Proof. exact (join_fewer_states ops vs ss). Qed.
Print Assumptions C10_fewer_states.
Example C10_met :
  (exists l s i, length l = 2 /\ call (Join m_ops) (Tup [m_series; m_second]) None true = Ok (Tup l, s, i)) /\
  (exists l s i, length l = 2 /\
     call (Join (firstn 2 m_ops)) (Tup [m_series; m_second; m_series]) None true = Ok (Tup l, s, i)) /\
  (exists l s i, length l = 3 /\ call (Join m_ops) (Tup [m_series; m_second; m_series]) None true = Ok (Tup l, s, i)).
Proof. split; [outputs|]. split; outputs. Qed.
(** ** C11: Factory *)
Theorem C11_factory {N : FOps} {A} (cls : A -> operator) args n vs sts outs sf s0 :
  (forall a, genuine_op (cls a)) -> Forall genuine vs -> Forall (is_series n) vs ->
  given_states (length args) sts -> length vs = length args -> args <> [] ->
  call (Factory cls args) (Tup vs) (tuple_state sts) true = Ok (outs, sf, s0) <->
  exists os ss is, outs = Tup os /\ sf = Tup ss /\ s0 = Tup is /\
    called_each true (map cls args) vs (states_for (length args) sts) os ss is.
Proof. exact (factory_true cls args n vs sts outs sf s0). Qed.
Print Assumptions C11_factory.
Theorem C11_factory_is_join {N : FOps} {A} (cls : A -> operator) args v st b :
  call (Factory cls args) v st b = call (Join (map cls args)) v st b.
Proof. exact eq_refl. Qed.
Print Assumptions C11_factory_is_join.
Example C11_met : (forall a, genuine_op (SimpleMovingAverage a)) /\
  exists r, call (Factory SimpleMovingAverage [2; 3]%Z) (Tup [m_series; m_second]) None true = Ok r.
Proof. split; [intros a; apply library_genuine, lib_basic, lib_sma|runs]. Qed.
