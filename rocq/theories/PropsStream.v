(** * PropsStream: properties C01, C02, C03, C05, C06, C07 — how streaming relates to
    calling an operator element by element.  Vocabulary: Spec.v. *)
From Coq Require Import List ZArith Bool.
From Verif Require Import Num Py PyFacts Tensor Streamable Spec Meta Common Finance Library
  StreamProofs GenuineLib Witness Keep KeepFacts.
Import ListNotations.

(** Every operator of the library meets the hypothesis [genuine_op] used below. *)
Theorem library_operators_are_genuine {N : FOps} op : library op -> genuine_op op.
Proof. exact (library_genuine op). Qed.
Print Assumptions library_operators_are_genuine.

(** ** C01: streaming equals stepping *)
(** A successful streamed call returns exactly what the loop over single-step calls
    returns: same outputs, same final state, same initial state. *)
Theorem C01_streaming_is_stepping {N : FOps} op v st outs sf s0 :
  genuine v -> genuine_opt st -> genuine_op op ->
  call op v st true = Ok (outs, sf, s0) ->
  exists n os,
    n > 0 /\ is_series n v /\ starts_from op st (row 0 v) s0 /\
    steps op s0 (rows n v) = Ok (os, sf) /\ length os = n /\
    (uniform sk op st v n -> genuine outs /\ forall i, i < n -> row i outs = nth i os (Tup [])).
Proof. exact (streaming_sound op v st outs sf s0). Qed.
Print Assumptions C01_streaming_is_stepping.
(** Conversely, when the loop over single-step calls succeeds (with outputs and states of
    constant types and shapes), so does the streamed call, with the same results. *)
Theorem C01_stepping_is_streaming {N : FOps} op v st n s0 os sf :
  genuine v -> genuine_opt st -> genuine_op op -> is_series n v -> n > 0 ->
  starts_from op st (row 0 v) s0 ->
  steps op s0 (rows n v) = Ok (os, sf) ->
  uniform sig op st v n -> steady_state op s0 (rows n v) ->
  exists outs, call op v st true = Ok (outs, sf, s0) /\ genuine outs /\
    forall i, i < n -> row i outs = nth i os (Tup []).
Proof. exact (streaming_complete op v st n s0 os sf). Qed.
Print Assumptions C01_stepping_is_streaming.
Example C01_met : genuine w_series /\ genuine_op w_op /\ uniform sk w_op None w_series 5 /\
  (exists r, call w_op w_series None true = Ok r) /\
  is_series 5 w_series /\ starts_from w_op None (row 0 w_series) w_init /\
  steps w_op w_init (rows 5 w_series) = Ok (w_os, w_final) /\
  uniform sig w_op None w_series 5 /\ steady_state w_op w_init (rows 5 w_series).
Proof.
  repeat match goal with |- _ /\ _ => split end.
  1: gen.
  1: apply library_genuine, lib_basic, lib_sma.
  1: exact w_uniform_sk.
  1: exact w_runs.
  1-5: auto using w_is_series, w_starts, w_steps, w_uniform_sig, w_steady.
Qed.

(** ** C02: streaming in two chunks *)
Theorem C02_two_chunks_are_one_series {N : FOps} op a b v st n m o1 s1 i1 o2 s2 i2 :
  genuine a -> genuine b -> genuine v -> genuine_opt st -> genuine_op op ->
  is_concat n m a b v -> uniform sig op st v (n + m) ->
  call op a st true = Ok (o1, s1, i1) ->
  call op b (Some s1) true = Ok (o2, s2, i2) ->
  exists o, call op v st true = Ok (o, s2, i1) /\ genuine o /\
    (forall i, i < n -> row i o = row i o1) /\ (forall i, i < m -> row (n + i) o = row i o2).
Proof. exact (resume_join op a b v st n m o1 s1 i1 o2 s2 i2). Qed.
Print Assumptions C02_two_chunks_are_one_series.
Theorem C02_one_series_is_two_chunks {N : FOps} op a b v st n m o s2 i1 :
  genuine a -> genuine b -> genuine v -> genuine_opt st -> genuine_op op ->
  is_concat n m a b v -> n > 0 -> m > 0 -> uniform sk op st v (n + m) ->
  call op v st true = Ok (o, s2, i1) ->
  exists o1 s1 o2,
    call op a st true = Ok (o1, s1, i1) /\
    call op b (Some s1) true = Ok (o2, s2, s1) /\
    (forall i, i < n -> row i o = row i o1) /\ (forall i, i < m -> row (n + i) o = row i o2).
Proof. exact (resume_split op a b v st n m o s2 i1). Qed.
Print Assumptions C02_one_series_is_two_chunks.
Example C02_met : genuine w_head /\ genuine w_tail /\ is_concat 2 3 w_head w_tail w_series /\
  uniform sig w_op None w_series (2 + 3) /\ uniform sk w_op None w_series (2 + 3) /\
  exists o1 s1 i1 r2, call w_op w_head None true = Ok (o1, s1, i1) /\ call w_op w_tail (Some s1) true = Ok r2.
Proof.
  split; [gen|]. split; [gen|]. split; [exact w_is_concat|].
  split; [exact w_uniform_sig|]. split; [exact w_uniform_sk|].
  destruct w_runs_head as (o & i & H), w_runs_tail as (r & H'). eauto 10.
Qed.

(** ** C03: causality *)
Theorem C03_causal {N : FOps} op a v st n m o s2 i1 :
  genuine a -> genuine v -> genuine_opt st -> genuine_op op ->
  is_series n a -> is_series m v -> n <= m -> n > 0 -> (forall i, i < n -> row i a = row i v) ->
  uniform sk op st v m ->
  call op v st true = Ok (o, s2, i1) ->
  exists o1 s1, call op a st true = Ok (o1, s1, i1) /\ (forall i, i < n -> row i o1 = row i o).
Proof. exact (causal op a v st n m o s2 i1). Qed.
Print Assumptions C03_causal.
Example C03_met : is_series 2 w_head /\ is_series 5 w_series /\ 2 <= 5 /\
  (forall i, i < 2 -> row i w_head = row i w_series) /\ uniform sk w_op None w_series 5 /\
  exists r, call w_op w_series None true = Ok r.
Proof.
  destruct w_is_concat as (H1 & _ & H3 & H4 & _).
  split; [exact H1|]. split; [exact H3|]. split; [repeat constructor|].
  split; [intros i Hi; symmetry; auto|]. split; [exact w_uniform_sk|].
  exact w_runs.
Qed.

(** ** C05: unequal lengths *)
Theorem C05_unequal_lengths_rejected {N : FOps} op v st t1 t2 n1 n2 r1 r2 :
  pyok v -> In t1 (leaves v) -> In t2 (leaves v) -> sh t1 = n1 :: r1 -> sh t2 = n2 :: r2 -> n1 <> n2 ->
  exists e, call op v st true = Err e.
Proof. exact (unequal_sizes op v st t1 t2 n1 n2 r1 r2). Qed.
Print Assumptions C05_unequal_lengths_rejected.
(** The error is the library's own "inputs have different sizes" unless some input is a scalar. *)
Theorem C05_unequal_lengths_error {N : FOps} op v st t1 t2 n1 n2 r1 r2 :
  pyok v -> genuine_opt st -> Forall (fun t => sh t <> []) (leaves v) ->
  In t1 (leaves v) -> In t2 (leaves v) -> sh t1 = n1 :: r1 -> sh t2 = n2 :: r2 -> n1 <> n2 ->
  call op v st true = Err ESizes.
Proof. exact (unequal_sizes_error op v st t1 t2 n1 n2 r1 r2). Qed.
Print Assumptions C05_unequal_lengths_error.
Example C05_met : exists v t1 t2, genuine v /\ Forall (fun t => sh t <> []) (leaves v) /\
  In t1 (leaves v) /\ In t2 (leaves v) /\ sh t1 = [3] /\ sh t2 = [2; 2].
Proof.
  exists (Tup [ser [1; 2; 3]%Z; Lst [mser 2 [[1; 2]; [3; 4]]%Z]]), (mkT [3] (DF (map fz [1; 2; 3]%Z))),
    (mkT [2; 2] (DF (map fz [1; 2; 3; 4]%Z))).
  split; [gen|]. split; [repeat constructor; discriminate|].
  split; [left; reflexivity|]. split; [right; left; reflexivity|]. auto.
Qed.

(** ** C06: state types *)
Theorem C06_state_types_preserved {N : FOps} op v st outs sf s0 :
  genuine v -> genuine_opt st -> genuine_op op ->
  call op v st true = Ok (outs, sf, s0) -> same_types s0 sf = true.
Proof. exact (types_preserved op v st outs sf s0). Qed.
Print Assumptions C06_state_types_preserved.
Theorem C06_state_type_change_rejected {N : FOps} op v st n s0 i os s o s' s'' :
  genuine v -> genuine_opt st -> genuine_op op -> is_series n v -> i < n ->
  starts_from op st (row 0 v) s0 ->
  steps op s0 (rows i v) = Ok (os, s) ->
  call op (row i v) (Some s) false = Ok (o, s', s'') ->
  same_types s s' = false ->
  exists e, call op v st true = Err e.
Proof. exact (types_rejected op v st n s0 i os s o s' s''). Qed.
Print Assumptions C06_state_type_change_rejected.
Example C06_met : exists s0 s o s' s'',
  starts_from w_swap None (row 0 w_series) s0 /\ steps w_swap s0 (rows 2 w_series) = s /\
  call w_swap (row 2 w_series) (match s with Ok (_, x) => Some x | _ => None end) false = Ok (o, s', s'') /\
  match s with Ok (_, x) => same_types x s' = false | _ => False end.
Proof.
  eexists _, _, _, _, _. split; [eexists _, _; reflexivity|].
  split; [reflexivity|]. split; reflexivity.
Qed.

(** Shapes: a successful streamed call leaves every tensor of the state with the shape it
    had at the start (vocabulary: Keep.v)... *)
Theorem C06_state_shapes_preserved {N : FOps} op v st outs sf s0 :
  genuine v -> genuine_opt st -> genuine_op op ->
  call op v st true = Ok (outs, sf, s0) -> same_shapes s0 sf = true.
Proof. exact (shapes_preserved op v st outs sf s0). Qed.
Print Assumptions C06_state_shapes_preserved.
(** ... and a step that gives some tensor of the state another shape makes the call raise. *)
Theorem C06_state_shape_change_rejected {N : FOps} op v st n s0 i os s o s' s'' :
  genuine v -> genuine_opt st -> genuine_op op -> is_series n v -> i < n ->
  starts_from op st (row 0 v) s0 ->
  steps op s0 (rows i v) = Ok (os, s) ->
  call op (row i v) (Some s) false = Ok (o, s', s'') ->
  same_shapes s s' = false ->
  exists e, call op v st true = Err e.
Proof. exact (shapes_rejected op v st n s0 i os s o s' s''). Qed.
Print Assumptions C06_state_shape_change_rejected.
(** A custom operator that remembers every value it has seen, in a vector that grows: its
    state keeps its dtype and changes its shape. *)
Definition w_grow : operator := Plain (fun args =>
  match args with
  | [x] => Ok (x, Tup [Leaf (mkT [1] (DF [f0]))], Tup [Leaf (mkT [0] (DF []))])
  | [x; Leaf a] => Ok (x, Tup [Leaf (mkT [S (hd 0 (sh a))] (DF (repeat f0 (S (hd 0 (sh a))))))], Tup [Leaf a])
  | _ => Err EArity
  end).
Example C06_shapes_met : exists s0 s o s' s'',
  starts_from w_grow None (row 0 w_series) s0 /\ steps w_grow s0 (rows 2 w_series) = s /\
  call w_grow (row 2 w_series) (match s with Ok (_, x) => Some x | _ => None end) false = Ok (o, s', s'') /\
  match s with Ok (_, x) => same_types x s' = true /\ same_shapes x s' = false | _ => False end.
Proof.
  eexists _, _, _, _, _. split; [eexists _, _; reflexivity|].
  split; [reflexivity|]. split; [reflexivity|]. split; reflexivity.
Qed.

(** ** C07: output lengths *)
Theorem C07_output_lengths {N : FOps} op v st outs sf s0 n :
  pyok v -> is_series n v -> call op v st true = Ok (outs, sf, s0) ->
  Forall (fun t => exists r, sh t = n :: r) (leaves outs).
Proof. exact (output_lengths op v st outs sf s0 n). Qed.
Print Assumptions C07_output_lengths.
Example C07_met : is_series 5 w_series /\ exists r, call w_op w_series None true = Ok r.
Proof. split; [exact w_is_series|exact w_runs]. Qed.
