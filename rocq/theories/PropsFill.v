(** * PropsFill: properties C13 and C14 — FFill.
    Vocabulary: SpecMeta.v and Structure.v. *)
From Coq Require Import List ZArith Bool Lia.
From Verif Require Import Num Py PyFacts Tensor Streamable Spec SpecMeta SpecHelpers Meta Common Finance Library
  GenuineBase GenuineLib InitLib FillFacts Structure StructLib StructProofs Witness WitnessFill.
Import ListNotations.

(** ** C13: rows with a zero repeat the last output *)
(** At a missing row the output is the one before it, or [po] at the first row.  The outputs at the other rows
    are those of [op] called over these rows only, from the state [ps].  The final state holds the last output and the
    state of [op].  Without a given state, [po] is zeros and [ps] is the default initial state of [op]. *)
Theorem C13_streams {N : FOps} op v st n outs sf po ps zo zs :
  typed op (sk v) zo zs -> genuine v -> genuine_opt st -> is_series n v ->
  state_like st (Tup [zo; zs]) ->
  call (FFill op) v st true = Ok (outs, sf, Tup [po; ps]) ->
  (st = None -> all_zero po /\ starts_from op None (row 0 v) ps) /\
  (forall i, i < n -> missing (row i v) = true -> row i outs = match i with 0 => po | S k => row k outs end) /\
  exists sp, sf = Tup [row (n - 1) outs; sp] /\
    steps op ps (present (rows n v)) =
      Ok (map (fun i => row i outs) (filter (fun i => negb (missing (row i v))) (seq 0 n)), sp).
Proof. exact (structured_ffill op v st n outs sf po ps zo zs). Qed.
Print Assumptions C13_streams.
(** The same for any operator with outputs and states of one structure. *)
Theorem C13_streams_any {N : FOps} op v st n outs sf po ps :
  genuine v -> genuine_opt st -> genuine_op op -> is_series n v ->
  keeps_structure op (sk ps) (sk po) (rows n v) ->
  call (FFill op) v st true = Ok (outs, sf, Tup [po; ps]) ->
  (st = None -> all_zero po /\ starts_from op None (row 0 v) ps) /\
  (forall i, i < n -> missing (row i v) = true -> row i outs = match i with 0 => po | S k => row k outs end) /\
  exists sp, sf = Tup [row (n - 1) outs; sp] /\
    steps op ps (present (rows n v)) =
      Ok (map (fun i => row i outs) (filter (fun i => negb (missing (row i v))) (seq 0 n)), sp).
Proof. exact (ffill_streams op v st n outs sf po ps). Qed.
Print Assumptions C13_streams_any.
(** In terms of streaming: [pv] being the series of the rows that are not missing, streaming [op] over [pv]
    succeeds, gives the outputs at these rows and leaves the same state. *)
Theorem C13_present_rows {N : FOps} op v st n outs sf po ps zo zs pv m :
  typed op (sk v) zo zs -> genuine v -> genuine_opt st -> is_series n v -> state_like st (Tup [zo; zs]) ->
  call (FFill op) v st true = Ok (outs, sf, Tup [po; ps]) ->
  genuine pv -> is_series m pv -> m > 0 -> rows m pv = present (rows n v) ->
  exists pouts sp, call op pv (Some ps) true = Ok (pouts, sp, ps) /\ sf = Tup [row (n - 1) outs; sp] /\
    rows m pouts = map (fun i => row i outs) (filter (fun i => negb (missing (row i v))) (seq 0 n)).
Proof. exact (structured_ffill_present op v st n outs sf po ps zo zs pv m). Qed.
Print Assumptions C13_present_rows.
(** The same without a state.  (When the first row is missing [ps] is the initial state that [op] computes from
    this row, and the theorem above applies with it.) *)
Theorem C13_present_rows_fresh {N : FOps} op v n outs sf po ps zo zs pv m :
  typed op (sk v) zo zs -> genuine v -> is_series n v -> missing (row 0 v) = false ->
  call (FFill op) v None true = Ok (outs, sf, Tup [po; ps]) ->
  genuine pv -> is_series m pv -> m > 0 -> rows m pv = present (rows n v) ->
  exists pouts sp, call op pv None true = Ok (pouts, sp, ps) /\ sf = Tup [row (n - 1) outs; sp] /\
    rows m pouts = map (fun i => row i outs) (filter (fun i => negb (missing (row i v))) (seq 0 n)).
Proof. exact (structured_ffill_present_fresh op v n outs sf po ps zo zs pv m). Qed.
Print Assumptions C13_present_rows_fresh.
(** This series exists, unless all rows are missing. *)
Theorem C13_present_rows_exist {N : FOps} n v : genuine v -> is_series n v -> present (rows n v) <> [] ->
  exists m pv, m > 0 /\ genuine pv /\ is_series m pv /\ rows m pv = present (rows n v).
Proof. exact (present_exists n v). Qed.
Print Assumptions C13_present_rows_exist.
(** For any operator. *)
Theorem C13_present_rows_any {N : FOps} op v st n outs sf po ps pv m st' :
  genuine v -> genuine_opt st -> genuine_op op -> is_series n v ->
  keeps_structure op (sk ps) (sk po) (rows n v) ->
  call (FFill op) v st true = Ok (outs, sf, Tup [po; ps]) ->
  genuine pv -> genuine_opt st' -> is_series m pv -> m > 0 -> rows m pv = present (rows n v) ->
  starts_from op st' (row 0 pv) ps ->
  (st' = None -> init_consistent op (row 0 pv)) ->
  exists pouts sp, call op pv st' true = Ok (pouts, sp, ps) /\ sf = Tup [row (n - 1) outs; sp] /\
    rows m pouts = map (fun i => row i outs) (filter (fun i => negb (missing (row i v))) (seq 0 n)).
Proof. exact (ffill_present op v st n outs sf po ps pv m st'). Qed.
Print Assumptions C13_present_rows_any.
(** FFill streams whenever the operator accepts every row. *)
Theorem C13_total {N : FOps} op v n po ps :
  genuine v -> genuine_op op -> is_series n v -> n > 0 -> all_floats v -> genuine po -> genuine ps ->
  accepts op ps (sig po) (rows n v) -> ~ boxed po -> holds_something po -> ~ boxed ps -> ps = Tup [] \/ holds_something ps ->
  exists outs sf, call (FFill op) v (Some (Tup [po; ps])) true = Ok (outs, sf, Tup [po; ps]).
Proof. exact (ffill_total op v n po ps). Qed.
Print Assumptions C13_total.
Theorem C13_total_fresh {N : FOps} op v n o s' ps :
  genuine v -> genuine_op op -> is_series n v -> n > 0 -> all_floats v ->
  call op (row 0 v) None false = Ok (o, s', ps) -> sig s' = sig ps ->
  accepts op ps (sig o) (rows n v) -> ~ boxed o -> holds_something o -> ~ boxed ps -> ps = Tup [] \/ holds_something ps ->
  exists outs sf po, call (FFill op) v None true = Ok (outs, sf, Tup [po; ps]) /\ sig po = sig o /\ all_zero po.
Proof. exact (ffill_total_fresh op v n o s' ps). Qed.
Print Assumptions C13_total_fresh.
Example C13_met : genuine d_series /\ missing (row 0 d_series) = true /\ missing (row 1 d_series) = false /\ is_series 6 d_series /\ genuine_op d_op /\ typed d_op (sk d_series) one z_sma /\
  call (FFill d_op) d_series None true = Ok (ser [0; 0; 2; 2; 2; 4]%Z, snd (fst d_run), Tup [d_po; d_ps]) /\
  keeps_structure d_op (sk d_ps) (sk d_po) (rows 6 d_series) /\
  genuine d_present /\ is_series 3 d_present /\ rows 3 d_present = present (rows 6 d_series) /\
  starts_from d_op None (row 0 d_present) d_ps /\ init_consistent d_op (row 0 d_present).
Proof.
  split; [gen|]. split; [reflexivity|]. split; [reflexivity|]. split; [exact d_is_series|]. split; [apply library_genuine, lib_basic, lib_sma|].
  split; [now apply c_typed|]. split; [rewrite <- d_outputs; exact d_call|]. split; [exact d_keeps|]. split; [gen|].
  split; [split; [discriminate|]; repeat constructor; eexists; reflexivity|]. split; [exact d_rows|].
  split; [do 2 eexists; reflexivity|]. apply wired_init; [|gen]. eapply wired_step; [constructor|reflexivity].
Qed.
Example C13_total_met : all_floats d_series /\ accepts (Lag 1) e_state (sig (Leaf (fsc f0))) (rows 6 d_series) /\
  (exists o s', call (Lag 1) (row 0 d_series) None false = Ok (o, s', e_state) /\ sig s' = sig e_state /\ sig o = sig (Leaf (fsc f0))).
Proof.
  split; [repeat constructor|]. split; [exact e_accepts|]. do 2 eexists. split; [reflexivity|]. split; reflexivity.
Qed.

(** ** C14: states in a tuple of one element *)
(** When the initial state of the operator, or the one given, is a tuple or list of one element, no series can
    be streamed. *)
Theorem C14_never {N : FOps} op v st r : genuine v -> genuine_opt st -> genuine_op op ->
  (st = None /\ (forall o s' i, call op (row 0 v) None false = Ok (o, s', i) -> boxed i) \/
   exists po ps, st = Some (Tup [po; ps]) /\ boxed ps) ->
  call (FFill op) v st true <> Ok r.
Proof. exact (ffill_never op v st r). Qed.
Print Assumptions C14_never.
(** The operators of the library that this concerns. *)
Theorem C14_never_named {N : FOps} v r : genuine v ->
  (forall c p, wf c -> call (FFill (SetDuring c p)) v None true <> Ok r) /\
  (forall op n, genuine_op op -> call (FFill (Map op n)) v None true <> Ok r) /\
  (forall p l, call (FFill (AutoCorrelation p l)) v None true <> Ok r) /\
  (forall op, genuine_op op -> call (FFill (Compose [op])) v None true <> Ok r) /\
  (forall op, genuine_op op -> call (FFill (Join [op])) v None true <> Ok r).
Proof. exact (ffill_never_named v r). Qed.
Print Assumptions C14_never_named.
(** The error is the state type error. *)
Theorem C14_error {N : FOps} op v n o s' s0 : genuine v -> genuine_op op -> is_series n v -> n > 0 -> all_floats v ->
  call op (row 0 v) None false = Ok (o, s', s0) -> init_consistent op (row 0 v) ->
  same_types s0 s' = true -> boxed s0 -> holds_something o ->
  call (FFill op) v None true = Err EStateType.
Proof. exact (ffill_error op v n o s' s0). Qed.
Print Assumptions C14_error.
Example C14_met : genuine d_series /\ genuine_op (Compose [d_op]) /\
  (exists o s' s0, call (Compose [d_op]) (row 0 d_series) None false = Ok (o, s', s0) /\ same_types s0 s' = true /\ boxed s0 /\ holds_something o) /\
  init_consistent (Compose [d_op]) (row 0 d_series) /\
  call (FFill (Compose [d_op])) d_series None true = Err EStateType /\
  call (FFill (SetDuring (fsc f0) 1)) d_series None true = Err EStateType.
Proof.
  split; [gen|]. split; [apply library_genuine, lib_compose; apply Forall_cons; [apply lib_basic, lib_sma|constructor]|].
  split; [do 3 eexists; split; [reflexivity|]; repeat split; reflexivity|].
  split.
  { apply wired_init; [|gen]. apply (typed_wired _ _ one (Tup [z_sma])); [|gen]. apply ty_compose. apply ty_last. now apply (c_typed d_series). }
  split; [vm_cast_no_check (@eq_refl (res out3) (Err EStateType))|].
  vm_cast_no_check (@eq_refl (res out3) (Err EStateType)).
Qed.
